(** Vocabulary for C100 and C101. *)
From Coq Require Import Permutation.
From Verif Require Import PyStr Asgi BgModel.

(** The tasks of a job, in the order written. *)
Fixpoint tasks (j : job) : list nat := match j with Task n => [n] | Tasks _ l => flat_map tasks l end.
Definition whole (n : nat) : list bev := [Start n; End n].
(** Jobs without groups. *)
Fixpoint one_by_one (j : job) : Prop := match j with Task _ => True | Tasks g l => g = false /\ fold_right (fun j p => one_by_one j /\ p) True l end.

(** A sequence of subscriptions, and the listeners of an event in order. *)
Definition subscribed (subs : list (str * listener)) : dict (list listener) := fold_left (fun d s => subscribe (fst s) (snd s) d) subs [].
Definition listeners_of (e : str) (subs : list (str * listener)) : list listener := map snd (filter (fun s => seqb (fst s) e) subs).
(** What a listener may expect of keyword arguments: all with [**kwargs], else those it names. *)
Definition wanted (l : listener) (kwargs : dict nat) : dict nat := if l_kwargs l then kwargs else filter (fun kv => smem (fst kv) (l_names l)) kwargs.
Definition expected (args : list nat) (kwargs : dict nat) (l : listener) : called := {| by_id := l_id l; with_args := args; with_kwargs := wanted l kwargs |}.
