(** What C32, C63 and C64 say. *)
From Verif Require Import PyStr Asgi ExcModel.

(** The status code of an http exception; 500 if it has none. *)
Inductive status_of (e : exc) : Z -> Prop :=
| so_number z : e_status e = Has z -> z <> 0%Z -> status_of e z
| so_zero : e_status e = Has 0 -> status_of e 500
| so_none : e_status e = HasNone \/ e_status e = NoAttr -> status_of e 500.

(** A class has a handler: the user's, or the default one of http and websocket exceptions. *)
Inductive handles_class (t : table) (c : nat) : handler -> Prop :=
| hc_user n : In (KClass c, n) t -> handles_class t c (User n)
| hc_http : c = cHTTP -> (forall n, ~ In (KClass c, n) t) -> handles_class t c HttpDefault
| hc_ws : c = cWS -> (forall n, ~ In (KClass c, n) t) -> handles_class t c WsDefault.

(** The handler for an exception: for an http exception the one of its status, else the one of the
    first class in the resolution order that has one. *)
Definition by_status (t : table) (e : exc) (n : nat) : Prop :=
  In cHTTP (e_mro e) /\ exists z, status_of e z /\ In (KStatus z, n) t.
Inductive chosen (t : table) (e : exc) : handler -> Prop :=
| ch_status n : by_status t e n -> chosen t e (User n)
| ch_class before c after h : (forall n, ~ by_status t e n) -> e_mro e = before ++ c :: after ->
    (forall c' h', In c' before -> ~ handles_class t c' h') -> handles_class t c h -> chosen t e h.

(** At most one response start among the messages. *)
Definition starts (ms : list amsg) : nat := length (filter (fun m => match m with AStart _ _ => true | _ => false end) ms).
Definition one_response (ms : list amsg) : Prop := starts ms <= 1.
Definition has_started (ms : list amsg) : Prop := exists st h, In (AStart st h) ms.
(** Handlers that behave: each response, and each response carried by an exception, has at most one
    start. *)
Definition fits (e : exc) : Prop := match e_response e with Some ms => one_response ms | None => True end.
Definition sober (en : env) : Prop :=
  (forall n e, fits e -> match acts en n e with Gives ms o => one_response ms /\ (forall e', o = Some e' -> fits e') | Raises e' => fits e' end) /\
  fits (py_error en).
