(** Vocabulary for the schedules of a streamed response. *)
From Verif Require Import PyStr Asgi StreamModel CoopModel.
Open Scope nat_scope.

(** The content gives the items [cs] first. *)
Definition gives (content : nat -> produced) (cs : list chunk) : Prop :=
  forall i c, nth_error cs i = Some c -> content i = Item c.

(** The messages that arrive in a schedule. *)
Definition arrives (m : rmsg) (ops : list op) : Prop := In (OArrive m) ops.

(** A body that is not finished: all its messages announce more. *)
Definition unfinished (ms : list amsg) : Prop := Forall (fun m => exists b, m = ABody b true) ms.

(** [n] pieces of the stream's task, none of whose awaits suspends unless [policy] says so for the piece. *)
Fixpoint pieces (policy : state -> bool) (step1 : state -> op -> state) (n : nat) (st : state) : state :=
  match n with
  | 0 => st
  | S n => pieces policy step1 n (step1 st (ORun TStream (policy st)))
  end.
