(** Independent specification for scopes. *)
From Coq Require Import List Arith Bool.
Import ListNotations.
From Verif Require Import ScopeModel.

(** The cleanups a cleanup stands for: itself and those its run registers. *)
Fixpoint all_ids (c : cleanup) : list nat := match c with Cleanup i adds _ => i :: concat (map all_ids adds) end.
(** Last in, first out: a cleanup, then what it registered (the last first). *)
Fixpoint lifo (c : cleanup) : list nat := match c with Cleanup i adds _ => i :: concat (rev (map lifo adds)) end.
(** No cleanup is cancelled / none raises. *)
Fixpoint never (f : fin -> bool) (c : cleanup) : bool :=
  match c with Cleanup _ adds e => negb (f e) && forallb (never f) adds end.
Definition is_cancelled (e : fin) : bool := match e with Cancelled => true | _ => false end.
Definition is_error (e : fin) : bool := match e with Fine => false | _ => true end.
Definition added (ops : list pop) : list cleanup := flat_map (fun o => match o with PAdd c => [c] | PClose => [] end) ops.
Definition cid (c : cleanup) : nat := match c with Cleanup i _ _ => i end.

(** Generators: each is set up before the use, torn down after it, once, and nothing else happens. *)
Definition used_while_open (n : nat) (l : list gevent) : Prop :=
  exists a b, l = a ++ [Use] ++ b /\
    (forall i, i < n -> In (Setup i) a /\ ~ In (Teardown i) a /\ In (Teardown i) b) /\ NoDup l.

(** ScopeManager: two things in the log with no clear of the scope of [k] between them. *)
Definition clears (k : skey) (e : event) : Prop := e = Cleared None \/ e = Cleared (Some (fst k)).
(** No two calls for one key wait for their factories at the same time. *)
Definition overlapping (m : manager) : Prop :=
  exists i j k v w, i <> j /\ nth_error (tasks m) i = Some (TMaking k v) /\ nth_error (tasks m) j = Some (TMaking k w).
Definition never_overlap (calls : list skey) (acts : list action) : Prop :=
  forall pre post, acts = pre ++ post -> ~ overlapping (srun calls pre).
