(** Specifications about the tracing middleware, independent of its code. *)
From Verif Require Import PyStr HeaderModel UrlModel OtelModel.
Local Open Scope Z_scope.

(** What a span says in the end: the last status and the last value of an attribute written to it. *)
Definition last_of {A B} (f : A -> option B) (l : list A) : option B :=
  fold_left (fun r x => match f x with Some y => Some y | None => r end) l None.
Definition status_written (l : list ev) : option bool := last_of (fun e => match e with SetStatus b _ => Some b | _ => None end) l.
Definition attribute (k : str) (l : list ev) : option aval :=
  last_of (fun e => match e with Attr k' v => if seqb k' k then Some v else None | _ => None end) l.
Definition recorded (l : list ev) : list exn := flat_map (fun e => match e with Recorded x => [x] | _ => [] end) l.
(** The status of the last start of a response passed to the server. *)
Definition last_code (h : list io) : option Z :=
  last_of (fun i => match i with Sent (Start st _) _ => Some (match st with Some z => z | None => 200 end) | _ => None end) h.
(** An application that writes nothing to the span. *)
Fixpoint silent (p : prog) : Prop :=
  match p with
  | Done | Raise _ => True
  | Receive k => forall m, silent (k m)
  | Send _ k => forall r, silent (k r)
  | SetRoute _ p | SetPath _ p => silent p
  | Note _ _ => False
  end.
(** The same request and the same end. *)
Definition same_for_the_server (a b : outcome) : Prop := calls a = calls b /\ ended a = ended b.
