(** What C273 - C276 say. *)
From Verif Require Import PyStr Asgi ExcModel ExcSpec.
Open Scope Z_scope.

(** The messages are an answer with this status. *)
Definition has_status (ms : list amsg) (z : Z) : Prop :=
  exists before h after, ms = before ++ AStart z h :: after /\ forall st h', ~ In (AStart st h') before.
(** The answer is an error. *)
Definition is_error (ms : list amsg) : Prop := exists z, has_status ms z /\ 400 <= z.
(** What a handler of the user does with an exception, when it is called as the framework calls handlers. *)
Definition handled_by (en : env) (n : nat) (e : exc) : run :=
  match acts en n e with Gives ms o => (ms, o) | Raises e' => ([], Some e') end.
(** Exceptions of this maker belong to this class. *)
Definition makes (make : Z -> str -> exc) (c : nat) : Prop := forall z b, exists r, e_mro (make z b) = c :: r.
