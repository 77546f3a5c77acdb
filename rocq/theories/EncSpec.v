(** Specifications about encoders, independent of the model's registry and conversions. *)
From Verif Require Import PyStr Base64 Utf8 JsonModel JsonSpec EncModel.
Local Open Scope N_scope.

(** Of several encoders with one name only the first in the list is left. *)
Fixpoint survivors (l : list encoder) : list encoder :=
  match l with
  | [] => []
  | e :: r => e :: filter (fun x => negb (seqb (e_name x) (e_name e))) (survivors r)
  end.
Definition serves (v : pv) (e : encoder) : bool := match e_ser e with Some _ => e_is e v | None => false end.
(** The encoders registered in a history, oldest first. *)
Definition registered (acts : list act) : list encoder := flat_map (fun a => match a with Register e => [e] | _ => [] end) acts.

(** Values json knows by itself, and the JSON for them. *)
Fixpoint native (v : pv) : Prop :=
  match v with
  | PNone | PBool _ | PInt _ | PFloat _ | PStr _ => True
  | PList l | PTuple l => fold_right and True (map native l)
  | PDict l | PNamed _ l => fold_right and True (map (fun e => native (snd e)) l)
  | _ => False
  end.
Fixpoint as_json (v : pv) : jvalue :=
  match v with
  | PBool b => JBool b | PInt z => JInt z | PFloat t => JFloat t | PStr s => JStr s
  | PList l | PTuple l | PSet l => JArr (map as_json l)
  | PNamed _ l => JArr (map (fun e => as_json (snd e)) l)
  | PDict l => JObj (map (fun e => (fst e, as_json (snd e))) l)
  | _ => JNull
  end.
(** Also sets, which need an encoder. *)
Fixpoint builtin (v : pv) : Prop :=
  match v with
  | PNone | PBool _ | PInt _ | PFloat _ | PStr _ => True
  | PList l | PTuple l | PSet l => fold_right and True (map builtin l)
  | PDict l | PNamed _ l => fold_right and True (map (fun e => builtin (snd e)) l)
  | _ => False
  end.
(** A JSON value without the nulls in its arrays and objects, at every depth. *)
Definition null (j : jvalue) : bool := match j with JNull => true | _ => false end.
Fixpoint without_nulls (j : jvalue) : jvalue :=
  match j with
  | JArr l => JArr (filter (fun x => negb (null x)) (map without_nulls l))
  | JObj l => JObj (filter (fun e => negb (null (snd e))) (map (fun e => (fst e, without_nulls (snd e))) l))
  | _ => j
  end.
Fixpoint no_nulls_inside (j : jvalue) : Prop :=
  match j with
  | JArr l => fold_right and True (map (fun x => x <> JNull /\ no_nulls_inside x) l)
  | JObj l => fold_right and True (map (fun e => snd e <> JNull /\ no_nulls_inside (snd e)) l)
  | _ => True
  end.

(** The values json.loads returns: lists, dicts with distinct keys, texts of Unicode, finite floats. *)
Fixpoint plain (v : pv) : Prop :=
  match v with
  | PNone | PBool _ | PInt _ => True
  | PFloat t => float_literal t
  | PStr s => Forall scalar s
  | PList l => fold_right and True (map plain l)
  | PDict l => NoDup (map fst l) /\ fold_right and True (map (fun e => Forall scalar (fst e) /\ plain (snd e)) l)
  | _ => False
  end.
(** The class of a value. *)
Definition instance (t : pt) (v : pv) : Prop :=
  match t, v with
  | TData c fs, PData c' l => c = c' /\ map fst l = fs
  | TNamed c fs, PNamed c' l => c = c' /\ map fst l = fs
  | TEnum c ms, PEnum c' s => c = c' /\ In s ms
  | TBytes, PBytes b => True
  | TUuid, PUuid n => True
  | TDate, PDate y m d => True
  | TDateTime, PDateTime y m d hh mm ss us => True
  | TList, PList l => True
  | _, _ => False
  end.
(** The Gregorian calendar. *)
Definition leap_year (y : N) : bool := if y mod 400 =? 0 then true else if y mod 100 =? 0 then false else y mod 4 =? 0.
Definition month_length (y m : N) : N :=
  nth (N.to_nat (m - 1)) [31; (if leap_year y then 29 else 28); 31; 30; 31; 30; 31; 31; 30; 31; 30; 31] 0.
(** Values that exist in Python and whose parts, if any, are plain. *)
Definition simple (v : pv) : Prop :=
  match v with
  | PData _ l | PNamed _ l => NoDup (map fst l) /\ Forall (fun e => Forall scalar (fst e) /\ plain (snd e)) l
  | PEnum _ s => Forall scalar s
  | PBytes b => bytes b
  | PUuid n => n < 2 ^ 128
  | PDate y m d => 1 <= y <= 9999 /\ 1 <= m <= 12 /\ 1 <= d <= month_length y m
  | PDateTime y m d hh mm ss us => 1 <= y <= 9999 /\ 1 <= m <= 12 /\ 1 <= d <= month_length y m /\ hh < 24 /\ mm < 60 /\ ss < 60 /\ us < 1000000
  | PList l => plain (PList l)
  | _ => False
  end.
(** The same without the demand on the parts. *)
Fixpoint existing (v : pv) : Prop :=
  match v with
  | PData _ l | PNamed _ l => NoDup (map fst l) /\ fold_right and True (map (fun e => Forall scalar (fst e) /\ existing (snd e)) l)
  | PEnum _ s => Forall scalar s
  | PList l => fold_right and True (map existing l)
  | PDict l => NoDup (map fst l) /\ fold_right and True (map (fun e => Forall scalar (fst e) /\ existing (snd e)) l)
  | _ => simple v \/ plain v
  end.
