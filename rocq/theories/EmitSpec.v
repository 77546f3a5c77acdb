(** Vocabulary for C300 to C302. *)
From Verif Require Import PyStr EmitModel.
Open Scope nat_scope.

Definition is_subscription (e : str) (f : nat) (a : action) : bool :=
  match a with Subscribe e' f' => seqb e e' && (f =? f') | _ => false end.
(** How many calls [subscribe(e, f)] have returned, in all tasks. *)
Definition returned (body : nat -> list action) (st : state) (e : str) (f : nat) : nat :=
  list_sum (map (fun k => length (filter (is_subscription e f) (firstn (pc k) (body (fn k))))) (tasks st)).
(** The task [t] has not called its action number [n] yet. *)
Definition not_called (st : state) (t n : nat) : Prop :=
  match nth_error (tasks st) t with None => True | Some k => pc k < n \/ (pc k = n /\ ph k = Run) end.
(** The functions these tasks run. *)
Definition functions (st : state) (ids : list nat) : list nat :=
  flat_map (fun i => match nth_error (tasks st) i with Some k => [fn k] | None => [] end) ids.
Definition times (f : nat) (l : list nat) : nat := count_occ Nat.eq_dec l f.
(** The task [i] ran its function to the end. *)
Definition complete (body : nat -> list action) (st : state) (i : nat) : Prop :=
  exists k, nth_error (tasks st) i = Some k /\ ph k = Over Fine /\ length (body (fn k)) <= pc k.
Definition unfinished (st : state) (t : nat) : Prop := exists k, nth_error (tasks st) t = Some k /\ forall o, ph k <> Over o.
