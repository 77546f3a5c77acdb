(** ASGI response messages, shared by the models. *)
From Verif Require Import PyStr.

(** "http.response.start" and "http.response.body" messages. *)
Inductive amsg :=
| AStart (status : Z) (headers : list (str * str))
| ABody (body : str) (more : bool).

Definition abody (m : amsg) : str := match m with ABody b _ => b | AStart _ _ => [] end.
Definition abytes (ms : list amsg) : str := concat (map abody ms).

(** A complete body: body messages, all but the last with [more_body] true, the last without. *)
Inductive abody_complete : list amsg -> Prop :=
| abc_last b : abody_complete [ABody b false]
| abc_more b ms : abody_complete ms -> abody_complete (ABody b true :: ms).

(** A complete response: one start, then a complete body, and nothing else. *)
Inductive response_complete : list amsg -> Prop :=
| rc_intro st h ms : abody_complete ms -> response_complete (AStart st h :: ms).

(** [p] is a prefix of [l]. *)
Definition is_prefix {A} (p l : list A) : Prop := exists t, l = p ++ t.
