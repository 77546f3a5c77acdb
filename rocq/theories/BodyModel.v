(** Model of body inference (lilya/_internal/_responses.py:804-977): which value of the body each parameter of a handler
    gets, and how it is structured by the annotation.  Over the values and encoders of EncModel and the argument passing
    of ArgsModel.
    Simplified: the encoders left out in EncModel are left out here; frozen sets are sets; a class is known by its name. *)
From Verif Require Import PyStr JsonModel EncModel ArgsModel.
Local Open Scope N_scope.

(** Annotations.  [AUnion] is typing.Union and typing.Optional, [APipe] is X | Y, which has another origin before Python
    3.14; [AMany] is tuple[T, ...]. *)
Inductive ann :=
  | ALeaf (t : pt) | ANone | AUnion (l : list ann) | APipe (l : list ann) | AList (a : ann) | AMany (a : ann) | ATuple (l : list ann)
  | ASet (a : ann) | ADict (a : ann) | AAnnotated (a : ann).

(** Python's truth. *)
Definition zero_literal (t : str) : bool := forallb (fun c => negb (is_digit c) || (c =? 48)) (hd [] (split_char 101 (lower t))).
Definition falsy (v : pv) : bool :=
  match v with
  | PNone => true | PBool b => negb b | PInt z => (z =? 0)%Z | PFloat t => zero_literal t | PStr s => match s with [] => true | _ => false end
  | PList l | PTuple l | PSet l => match l with [] => true | _ => false end
  | PDict l => match l with [] => true | _ => false end
  | PBytes b => match b with [] => true | _ => false end
  | _ => false
  end.
(** What iterating over a value gives; [None]: a TypeError. *)
Definition items (v : pv) : option (list pv) :=
  match v with
  | PList l | PTuple l | PSet l => Some l
  | PNamed _ l => Some (map snd l)
  | PStr s => Some (map (fun c => PStr [c]) s)
  | PDict l => Some (map (fun e => PStr (fst e)) l)
  | PBytes b => Some (map (fun c => PInt (Z.of_N c)) b)
  | _ => None
  end.
(** [value or []]. *)
Definition items_or_empty (v : pv) : option (list pv) := if falsy v then Some [] else items v.
(** isinstance; bool is a subclass of int, datetime of date. *)
Definition is_class (c : str) (v : pv) : bool :=
  match v with
  | PBool _ => seqb c (u "bool") || seqb c (u "int")
  | PInt _ => seqb c (u "int")
  | PFloat _ => seqb c (u "float")
  | PStr _ => seqb c (u "str")
  | PDict _ => seqb c (u "dict")
  | POther c' => seqb c c'
  | _ => false
  end.
Definition is_instance (t : pt) (v : pv) : bool :=
  match t, v with
  | TData c _, PData c' _ | TNamed c _, PNamed c' _ | TEnum c _, PEnum c' _ => seqb c c'
  | TBytes, PBytes _ | TUuid, PUuid _ | TDate, PDate _ _ _ | TDate, PDateTime _ _ _ _ _ _ _ | TDateTime, PDateTime _ _ _ _ _ _ _ | TList, PList _ => true
  | TOther c, v => is_class c v
  | _, _ => false
  end.

Section Structure.
(** Python's equality, and the registered encoders. *)
Context (py_eq : pv -> pv -> bool) (types : list encoder).
(** A set of these values: a TypeError if one is not hashable.  Instances of dataclasses are not, by default. *)
Definition hashable (v : pv) : bool := match v with PList _ | PSet _ | PDict _ | PData _ _ => false | _ => true end.
Fixpoint distinct (seen l : list pv) : list pv :=
  match l with
  | [] => rev seen
  | v :: r => distinct (if existsb (py_eq v) seen then seen else v :: seen) r
  end.
Definition make_set (l : list pv) : option pv := if forallb hashable l then Some (PSet (distinct [] l)) else None.
Definition is_none_type (a : ann) : bool := match a with ANone => true | _ => false end.

(** _responses.py:803-862 [_structure_to_annotation]; [None]: an exception. *)
Fixpoint structure (a : ann) (v : pv) : option pv :=
  match a with
  | AAnnotated a => structure a v
  | AUnion l =>
      (fix arms (l : list ann) : option pv :=
         match l with
         | [] => Some v
         | a :: r => if is_none_type a then arms r else match structure a v with Some x => Some x | None => arms r end
         end) l
  | AList a => match items_or_empty v with Some vs => option_map PList (all_some (map (structure a) vs)) | None => None end
  | AMany a => match items_or_empty v with Some vs => option_map PTuple (all_some (map (structure a) vs)) | None => None end
  | ATuple l =>
      match items_or_empty v with
      | Some vs =>
          option_map PTuple
            ((fix zip (l : list ann) (vs : list pv) : option (list pv) :=
                match l, vs with
                | a :: l, v :: vs => match structure a v with Some x => option_map (cons x) (zip l vs) | None => None end
                | _, _ => Some []
                end) l vs)
      | None => None
      end
  | ASet a =>
      match items_or_empty v with
      | Some vs => match all_some (map (structure a) vs) with Some l => make_set l | None => None end
      | None => None
      end
  | ADict a =>
      match v with
      | PNone => Some (PDict [])
      | PDict l => option_map PDict (all_some (map (fun e => option_map (pair (fst e)) (structure a (snd e))) l))
      | _ => None
      end
  | ANone | APipe _ => Some v
  | ALeaf t => if is_instance t v then Some v else apply_structure types t v
  end.

(** _responses.py:917-926: the body; of a form what NestModel makes of it. *)
Inductive content := Json | Form | Raw.
Definition json_data (c : content) (v : pv) : pv := match c with Form => v | _ => if falsy v then PDict [] else v end.
(** _responses.py:949-977: [names] are the parameters that come from the body (there is at least one).  A body that is no
    dict has no keys: the lookup raises one or another exception. *)
Fixpoint parse_each (anns : str -> ann) (names : list str) (data : dict pv) (payload : dict pv) : option (dict pv) :=
  match names with
  | [] => Some payload
  | n :: r =>
      match dget n data with
      | Some v => match structure (anns n) v with Some x => parse_each anns r data (dset n x payload) | None => None end
      | None => None
      end
  end.
Definition parse_inferred (anns : str -> ann) (names : list str) (data : pv) : option (dict pv) :=
  match names with
  | [n] =>
      match structure (anns n) data with
      | Some x => Some [(n, x)]
      | None =>
          let candidate := match data with PDict d => match dget n d with Some v => v | None => data end | _ => data end in
          option_map (fun x => [(n, x)]) (structure (anns n) candidate)
      end
  | _ => match data with PDict d => parse_each anns names d [] | _ => None end
  end.
(** The surroundings of ArgsModel, with the body of the request. *)
Definition with_body {P} (e : surroundings pv P) (anns : str -> ann) (c : content) (v : pv) : surroundings pv P :=
  {| app_deps := app_deps e; include_deps := include_deps e; route_deps := route_deps e; overrides := overrides e; infer_body := infer_body e;
     parse_body := fun names => match parse_inferred anns names (json_data c v) with Some d => inl d | None => inr (Other (u "body")) end;
     provide := provide e |}.
End Structure.
