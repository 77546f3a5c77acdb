(** What annotations mean, and which parameters a body is for. *)
From Verif Require Import PyStr Utf8 JsonModel JsonSpec EncModel EncSpec ArgsModel BodyModel.
Local Open Scope N_scope.

(** The values of an annotation, for given values of the classes. *)
Fixpoint typed (leaf : pt -> pv -> Prop) (a : ann) (v : pv) : Prop :=
  match a with
  | ALeaf t => leaf t v
  | ANone => v = PNone
  | AAnnotated a => typed leaf a v
  | AUnion l | APipe l => (fix any (l : list ann) : Prop := match l with [] => False | a :: r => typed leaf a v \/ any r end) l
  | AList a => exists l, v = PList l /\ Forall (typed leaf a) l
  | AMany a => exists l, v = PTuple l /\ Forall (typed leaf a) l
  | ATuple l =>
      exists vs, v = PTuple vs /\
      (fix each (l : list ann) (vs : list pv) : Prop :=
         match l, vs with [], [] => True | a :: l, v :: vs => typed leaf a v /\ each l vs | _, _ => False end) l vs
  | ASet a => exists l, v = PSet l /\ Forall (typed leaf a) l
  | ADict a => exists l, v = PDict l /\ NoDup (map fst l) /\ Forall (fun e => typed leaf a (snd e)) l
  end.
(** The builtin classes by name; everything else is known by its own name. *)
Definition of_class (c : str) (v : pv) : Prop :=
  match v with
  | PInt _ => c = u "int" | PBool _ => c = u "bool" \/ c = u "int" | PFloat _ => c = u "float" | PStr _ => c = u "str" | PDict _ => c = u "dict"
  | POther c' => c = c' | _ => False
  end.
(** An instance of a class. *)
Definition instance_of (t : pt) (v : pv) : Prop :=
  match t with TOther c => c = u "Any" \/ of_class c v | _ => instance t v end.
(** Such a value that can be sent as JSON at all: see [simple] and [plain]. *)
Definition sendable (t : pt) (v : pv) : Prop :=
  match t with TOther c => (c = u "Any" \/ of_class c v) /\ plain v | _ => instance t v /\ simple v end.
(** Values of annotations that JSON can carry: dicts have texts as keys and sets have hashable elements, no two equal. *)
Fixpoint carried (py_eq : pv -> pv -> bool) (v : pv) : Prop :=
  match v with
  | PList l | PTuple l => fold_right and True (map (carried py_eq) l)
  | PSet l => fold_right and True (map (carried py_eq) l) /\ forallb hashable l = true /\ (forall l1 x l2 y l3, l = l1 ++ x :: l2 ++ y :: l3 -> py_eq y x = false)
  | PDict l => fold_right and True (map (fun e => Forall scalar (fst e) /\ carried py_eq (snd e)) l)
  | _ => True
  end.
(** Annotations without X | Y, and values at unions that leave no doubt: the value is one of the first alternative that
    is not None; or it is None and the alternatives are classes. *)
Definition leafy (a : ann) : Prop := match a with ALeaf _ | ANone => True | _ => False end.
Fixpoint certain (a : ann) (v : pv) : Prop :=
  match a with
  | ALeaf _ | ANone => True
  | APipe _ => False
  | AAnnotated a => certain a v
  | AUnion l =>
      (v = PNone /\ Forall leafy l) \/
      (fix first (l : list ann) : Prop := match l with [] => False | ANone :: r => first r | a :: _ => typed sendable a v /\ certain a v end) l
  | AList a | AMany a | ASet a => match v with PList l | PTuple l | PSet l => Forall (certain a) l | _ => False end
  | ATuple l =>
      match v with
      | PTuple vs => (fix each (l : list ann) (vs : list pv) : Prop := match l, vs with [], [] => True | a :: l, v :: vs => certain a v /\ each l vs | _, _ => False end) l vs
      | _ => False
      end
  | ADict a => match v with PDict l => Forall (fun e => certain a (snd e)) l | _ => False end
  end.
(** Annotations built from classes known to an encoder, lists, dicts, sets and tuples of any length. *)
Fixpoint checked (a : ann) : Prop :=
  match a with
  | ALeaf t => forall c, t <> TOther c
  | AAnnotated a | AList a | AMany a | ASet a | ADict a => checked a
  | _ => False
  end.

Section Handler.
Context {C P : Type}.
Implicit Types (e : surroundings pv P) (r : request pv) (s : signature pv C P).
(** A parameter that the body is for: it has no marker, does not come from the path, is not one that the framework fills,
    and if it has no default nobody provides it. *)
Definition provided e (n : str) : Prop := exists l, In l (app_deps e :: route_deps e :: overrides e :: include_deps e) /\ In n (dkeys l).
Definition body_parameter e r s (n : str) : Prop :=
  (In (n, Empty) s /\ ~ provided e n \/ exists v, In (n, Plain v) s) /\
  ~ In n (dkeys (path_params r)) /\ n <> u "request" /\ n <> u "websocket" /\ n <> u "context".
(** The value for it: the only one gets the whole body (or, if that does not fit, the entry of its name); of several each
    gets the entry of its name. *)
Definition for_body (py_eq : pv -> pv -> bool) types (anns : str -> ann) e r s (body : pv) (n : str) (v : pv) : Prop :=
  let entry := exists d x, body = PDict d /\ dget n d = Some x /\ structure py_eq types (anns n) x = Some v in
  ((forall m, body_parameter e r s m -> m = n) /\ (structure py_eq types (anns n) body = Some v \/ (structure py_eq types (anns n) body = None /\ entry))) \/
  ((exists m, body_parameter e r s m /\ m <> n) /\ entry).
End Handler.
