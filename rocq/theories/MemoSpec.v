(** Specifications about the cache decorator. *)
From Verif Require Import PyStr Utf8 JsonModel EncModel EncSpec MemoModel.
Local Open Scope N_scope.

(** Two texts with one md5. *)
Definition collision (md5 : str -> str) : Prop := exists a b, a <> b /\ md5 a = md5 b.
(** Arguments that JSON tells apart. *)
Definition plain_call (c : call) : Prop :=
  Forall plain (fst c) /\ NoDup (map fst (snd c)) /\ Forall (fun e => Forall scalar (fst e) /\ plain (snd e)) (snd c).
(** The first argument is not taken for [self]. *)
Definition not_self (has_attr : pv -> str -> bool) (f : func) (c : call) : Prop :=
  f_bound f = false /\ forall a r, fst c = a :: r -> has_attr a (f_name f) = false.
(** A function's full name, read without the marks of nesting. *)
Definition full_name (f : func) : str := replace (u ".<locals>.") (u ".") (f_module f ++ u "." ++ f_qual f).
(** A program's functions: names without colons, no two with one name. *)
Definition apart (program : func -> Prop) : Prop :=
  (forall f, program f -> ~ In 58 (full_name f)) /\
  (forall f g, program f -> program g -> full_name f = full_name g -> f = g).
(** A call of one of them with such arguments. *)
Definition clean has_attr (program : func -> Prop) (f : func) (c : call) : Prop :=
  program f /\ plain_call c /\ not_self has_attr f c.
(** Every event of a history is about clean calls and plain results. *)
Definition clean_event has_attr program (e : event) : Prop :=
  match e with
  | Begins _ f c _ _ | Invalidates f c _ => clean has_attr program f c
  | Ends _ _ _ v => plain v
  end.
(** May a result of time [t] be used at [now]? *)
Definition in_life (ttl default : option Z) (t now : Z) : Prop :=
  match ttl, default with
  | Some x, _ => (now <= t + x)%Z
  | None, Some x => (now <= t + x)%Z
  | None, None => True
  end.
Definition time_of (e : event) : option Z := match e with Begins _ _ _ now _ | Ends _ now _ _ => Some now | Invalidates _ _ _ => None end.
Definition between (a b : Z) (e : event) : Prop := match time_of e with Some t => (a <= t <= b)%Z | None => True end.

(** Bodies all of whose calls satisfy [P] and whose results are plain. *)
Fixpoint calls_only (P : func -> call -> Prop) (b : body) : Prop :=
  match b with Return v => plain v | Calls f c next => P f c /\ forall v, calls_only P (next v) end.
