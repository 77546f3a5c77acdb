(** C27, C28, C57, C58: dependency scopes. *)
From Coq Require Import List Arith Lia Bool Permutation.
Import ListNotations.
From Verif Require Import ScopeModel ScopeSpec ScopeProofs.

(** C27. Full statement: closing a scope runs every cleanup registered (and every one registered
    meanwhile), last in, first out, and leaves none, whatever the cleanups raise. *)
Definition C27_statement : Prop := forall cs,
  prun (map PAdd cs ++ [PClose]) = ([], concat (map lifo (rev cs))).
(** A cancelled cleanup ends the closing: those below it do not run. *)
Theorem C27_refuted : ~ C27_statement.
Proof. intros H. specialize (H [Cleanup 0 [] Fine; Cleanup 1 [] Cancelled]). discriminate H. Qed.
Print Assumptions C27_refuted.

Theorem C27_cleanup_partial : forall cs, forallb (never is_cancelled) cs = true ->
  prun (map PAdd cs ++ [PClose]) = ([], concat (map lifo (rev cs))).
Proof.
  intros cs N. unfold prun. rewrite fold_left_app, adds_stack. cbn [fold_left pstep fst snd]. rewrite app_nil_r. unfold pclose.
  rewrite aclose_lifo; [reflexivity | lia|]. rewrite forallb_forall in N |- *. intros c Hc. apply N. apply in_rev. exact Hc.
Qed.
Print Assumptions C27_cleanup_partial.

(** In every history, cancellations included, each registered cleanup has run once or is still
    registered: none runs twice and none is lost; and closing ends. *)
Theorem C27_exactly_once : forall ops,
  Permutation (snd (prun ops) ++ concat (map all_ids (fst (prun ops)))) (concat (map all_ids (added ops))) /\
  (NoDup (concat (map all_ids (added ops))) -> NoDup (snd (prun ops))) /\
  (forall stack, pclose stack <> None).
Proof.
  intros ops. split; [apply prun_perm|]. split; [|intros stack; apply aclose_total; lia].
  intros N. eapply Permutation_NoDup in N; [|apply Permutation_sym, prun_perm]. revert N. generalize (snd (prun ops)), (concat (map all_ids (fst (prun ops)))).
  intros l l' N. induction l as [|a l IH]; [constructor|]. inversion N as [|? ? N1 N2]; subst. constructor; [intros H; apply N1, in_or_app; left; exact H | apply IH; exact N2].
Qed.
Print Assumptions C27_exactly_once.

Example C27_case :
  let cs := [Cleanup 0 [] Fails; Cleanup 1 [Cleanup 2 [] Fine; Cleanup 3 [] Fails] Fails; Cleanup 4 [] Fine] in
  forallb (never is_cancelled) cs = true /\ snd (prun (map PAdd cs ++ [PClose])) = [4; 1; 3; 2; 0].
Proof. split; reflexivity. Qed.

(** C28. Full statement: between two clears of a scope the factory of a key runs once and every call
    returns the same instance, for every schedule. *)
Definition C28_statement : Prop := forall calls acts k v w l1 l2 l3, fst k <> SRequest ->
  log (srun calls acts) = l1 ++ Got k v :: l2 ++ Got k w :: l3 -> (forall e, In e l2 -> ~ clears k e) -> v = w.
(** Two calls that overlap each make an instance. *)
Theorem C28_refuted : ~ C28_statement.
Proof.
  intros H. specialize (H [(SApp, 0); (SApp, 0)] [Run 0; Run 1; Run 0; Run 1] (SApp, 0) 0 1 [Made (SApp, 0) 0; Made (SApp, 0) 1] [] []).
  assert (X : 0 = 1) by (apply H; [discriminate | reflexivity | intros e []]). discriminate X.
Qed.
Print Assumptions C28_refuted.

(** Proved for the schedules in which no two calls for one key wait for their factories at once
    (calls for different keys may overlap at will, and so may clears). *)
Theorem C28_single_partial : forall calls acts, never_overlap calls acts ->
  forall k v w l1 l2 l3, fst k <> SRequest -> (forall e, In e l2 -> ~ clears k e) ->
  (log (srun calls acts) = l1 ++ Got k v :: l2 ++ Got k w :: l3 -> v = w) /\
  log (srun calls acts) <> l1 ++ Made k v :: l2 ++ Made k w :: l3.
Proof.
  intros calls acts N k v w l1 l2 l3 R Q. pose proof (once_run calls acts N) as O. split.
  - intros D. exact (once_same _ O k v w l1 l2 l3 R D Q).
  - intros D. exact (once_one _ O k v w l1 l2 l3 R D Q).
Qed.
Print Assumptions C28_single_partial.

(** For every schedule: a call only ever returns an instance its own key's factory made. *)
Theorem C28_own_key : forall calls acts k v,
  In (Got k v) (log (srun calls acts)) -> In (Made k v) (log (srun calls acts)).
Proof. intros calls acts. exact (own_got _ (own_run calls acts)). Qed.
Print Assumptions C28_own_key.

Example C28_case :
  let calls := [(SApp, 0); (SGlobal, 0); (SApp, 0); (SApp, 0)] in
  let acts := [Run 0; Run 1; Run 0; Run 1; Run 2; Clear (Some SGlobal); Clear (Some SApp); Run 3; Run 3] in
  log (srun calls acts) = [Made (SApp, 0) 0; Made (SGlobal, 0) 1; Got (SApp, 0) 0; Got (SGlobal, 0) 1; Got (SApp, 0) 0;
                           Cleared (Some SGlobal); Cleared (Some SApp); Made (SApp, 0) 2; Got (SApp, 0) 2] /\
  never_overlap calls [Run 0; Run 1; Run 0; Run 1; Run 2].
Proof.
  split; [reflexivity|]. intros pre post D (i & j & k & v & w & N & A & B).
  do 6 (destruct pre as [|? pre];
    [clear D; vm_compute in A, B; do 5 (try (destruct i as [|i]; cbn [nth_error] in A; try discriminate A));
       do 5 (try (destruct j as [|j]; cbn [nth_error] in B; try discriminate B)); congruence
    |cbn [app] in D; first [discriminate D | injection D as <- D]]).
Qed.

(** C57. Full statement: closing a request runs each registered cleanup once, and all of them,
    whatever some raise. *)
Definition C57_statement : Prop := forall cs, exists log cs' x, request_close cs = Some (log, cs', x) /\
  Permutation log (concat (map all_ids cs)).
(** A cleanup that raises keeps the later ones from running. *)
Theorem C57_refuted : ~ C57_statement.
Proof.
  intros H. destruct (H [Cleanup 0 [] Fails; Cleanup 1 [] Fine]) as (log & cs' & x & E & P). cbv in E. injection E as <- _ _.
  apply Permutation_length in P. discriminate P.
Qed.
Print Assumptions C57_refuted.
(** Closing twice runs the cleanups twice: they stay registered. *)
Theorem C57_again_refuted : ~ (forall cs log cs' x, request_close cs = Some (log, cs', x) -> exists cs'' y, request_close cs' = Some ([], cs'', y)).
Proof.
  intros H. destruct (H [Cleanup 0 [] Fine] [0] [Cleanup 0 [] Fine] false eq_refl) as (cs'' & y & E). discriminate E.
Qed.
Print Assumptions C57_again_refuted.
(** If none raises, the first close runs all, each once, the registered ones first and in order. *)
Theorem C57_close_partial : forall cs, forallb (never is_error) cs = true ->
  exists log cs', request_close cs = Some (log, cs', false) /\ Permutation log (concat (map all_ids cs)) /\ exists l, log = map cid cs ++ l.
Proof.
  intros cs N. destruct (rclose_fine (S (ssize cs)) cs) as (log & more & E & P & F & _); [lia | exact N|]. exists log, (cs ++ more).
  unfold request_close. rewrite E. split; [reflexivity | split; assumption].
Qed.
Print Assumptions C57_close_partial.
Example C57_case : let cs := [Cleanup 0 [Cleanup 2 [] Fine] Fine; Cleanup 1 [] Fine] in
  forallb (never is_error) cs = true /\ match request_close cs with Some (log, _, _) => log = [0; 1; 2] | None => False end.
Proof. split; reflexivity. Qed.

(** C58. A generator dependency is open while its value is used and torn down afterwards.
    On a websocket that the handler closes: yes, for any number of dependencies. *)
Theorem C58_websocket : forall n, used_while_open n (websocket_program n).
Proof. exact websocket_ok. Qed.
Print Assumptions C58_websocket.
(** On an HTTP request nothing closes them. *)
Theorem C58_http_refuted : ~ (forall n, used_while_open n (http_program n)).
Proof.
  intros H. destruct (H 1) as (a & b & E & G & _). destruct (G 0 (le_n 1)) as (_ & _ & T).
  assert (X : In (Teardown 0) (http_program 1)) by (rewrite E; apply in_or_app; right; right; exact T).
  cbn in X. destruct X as [X|[X|[]]]; discriminate X.
Qed.
Print Assumptions C58_http_refuted.
(** Without a request they are torn down before the value is used, with a scope or without. *)
Theorem C58_requestless_refuted : forall in_scope, ~ (forall n, used_while_open n (requestless_program n in_scope)).
Proof.
  intros in_scope H. destruct (H 1) as (a & b & E & G & N). destruct (G 0 (le_n 1)) as (_ & A & T).
  assert (X : requestless_program 1 in_scope = [Setup 0; Teardown 0; Use]) by (destruct in_scope; reflexivity). rewrite X in E, N.
  assert (U : b = []).
  { destruct b as [|y b]; [reflexivity|]. exfalso. assert (L := f_equal (@length gevent) E). rewrite !app_length in L. cbn in L.
    destruct a as [|x0 a]; [discriminate E|]. destruct a as [|x1 a]; [discriminate E|]. cbn in L. lia. }
  rewrite U in T. contradiction.
Qed.
Print Assumptions C58_requestless_refuted.
