(** Independent specification for providers. *)
From Verif Require Import PyStr DepModel.

(** The body of the request has no value for a parameter of a provider (names that are dependencies
    apart). *)
Definition brings_nothing (provs : list provide) (deps : dict nat) (rq : request) : Prop :=
  forall body, r_data rq = DMap body -> forall p key, In p provs -> In key (map fst body) -> In key (map a_name (p_params p)) -> In key (map fst deps).

(** No cycles: every dependency of a provider comes before it in some ranking. *)
Definition ranked (provs : list provide) (deps : dict nat) (rank : nat -> nat) : Prop :=
  forall i p a j, nth_error provs i = Some p -> In a (p_params p) -> dget (a_name a) deps = Some j -> (rank j < rank i)%nat /\ (j < length provs)%nat.

(** How often provider [i] was called. *)
Definition times (i : nat) (log : list nat) : nat := count_occ Nat.eq_dec log i.

(** What a caller sees of a resolution. *)
Definition result (x : option (outcome * list pstate * list nat)) : option outcome := option_map (fun r => fst (fst r)) x.
