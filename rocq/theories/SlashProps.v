(** C356: redirects that add or remove a slash at the end of a path. *)
From Verif Require Import PyStr PyStrFacts Asgi ExcModel DispModel DispProps.
Local Open Scope N_scope.

(** The path of a request below the root path of its scope. *)
Definition lies_at (q : req) (p : str) : Prop :=
  q_path q = q_root q ++ p \/ ((forall t, q_path q <> q_root q ++ t) /\ p = q_path q).
(** A route has the path of a request, for whatever method. *)
Definition has_path (r : route) (q : req) : Prop :=
  if r_params r then r_fits r q = true else lies_at q (r_path r).
(** The same request with the slash at the end of its path added, or without the slashes at its end. *)
Definition other_end (q q' : req) : Prop :=
  q_method q' = q_method q /\ q_root q' = q_root q
  /\ ((forall p, lies_at q p -> exists t, p = t ++ u "/") /\ (exists n, (0 < n)%nat /\ q_path q = q_path q' ++ repeat 47 n) /\ (forall t, q_path q' <> t ++ u "/")
      \/ (forall p, lies_at q p -> forall t, p <> t ++ u "/") /\ q_path q' = q_path q ++ u "/").

Lemma at_fun q p : lies_at q p <-> route_path q = p.
Proof.
  unfold lies_at, route_path. destruct (prefixb (q_root q) (q_path q)) eqn:P.
  - apply prefixb_iff in P as (t & T). destruct (seqb (q_root q) []) eqn:S; cbn [negb andb].
    + apply seqb_eq in S. rewrite S. cbn [app]. split; [intros [H|[_ H]]; congruence|intros H; left; exact H].
    + rewrite T, skipn_app, Nat.sub_diag, skipn_all2 by lia. cbn [skipn app]. split.
      * intros [H|[H _]]; [apply app_inv_head in H; exact H|destruct (H t eq_refl)].
      * intros <-. left. reflexivity.
  - rewrite andb_false_r. assert (NP : forall t, q_path q <> q_root q ++ t). { intros t T. apply not_true_iff_false in P. apply P, prefixb_iff. exists t. exact T. }
    split; [intros [H|[_ H]]; [destruct (NP _ H)|congruence]|intros <-; right; auto].
Qed.
Lemma search_has r q : search r q = NoMatch <-> ~ has_path r q.
Proof.
  unfold search, has_path. destruct (r_params r).
  - destruct (r_fits r q); [destruct (wrong_method r q); split; [discriminate|intros H; destruct (H eq_refl)|discriminate|intros H; destruct (H eq_refl)]|]. split; [intros _ H; discriminate H|reflexivity].
  - rewrite at_fun. destruct (seqb (route_path q) (r_path r)) eqn:S.
    + apply seqb_eq in S. destruct (wrong_method r q); split; try discriminate; intros H; destruct (H S).
    + apply seqb_neq in S. split; auto.
Qed.
Lemma any_has rs q : existsb (fun r => match search r q with NoMatch => false | _ => true end) rs = true <-> exists r, In r rs /\ has_path r q.
Proof.
  rewrite existsb_exists. split; intros (r & I & H); exists r; (split; [exact I|]).
  - destruct (search_has r q) as [_ B]. destruct (search r q) eqn:E; [discriminate H| |]; unfold has_path in *; destruct (r_params r).
    1, 3: destruct (r_fits r q); [reflexivity|exfalso; discriminate B; discriminate].
    all: apply at_fun; destruct (seqb (route_path q) (r_path r)) eqn:S; [apply seqb_eq; exact S|]; exfalso; apply seqb_neq in S; rewrite at_fun in B; discriminate (B S).
  - destruct (search r q) eqn:E; auto. apply search_has in E. contradiction.
Qed.
Lemma none_full w t ov rs q k : (forall r, In r rs -> ~ has_path r q) -> try_full w t ov rs q k = k.
Proof.
  induction rs as [|r rs IH]; intros H; [reflexivity|]. cbn [try_full]. rewrite (proj2 (search_has r q) (H r (or_introl eq_refl))). apply IH. intros x I. apply H. right. exact I.
Qed.
Lemma none_partial w t rs q : (forall r, In r rs -> ~ has_path r q) -> try_partial w t rs q = default_ w.
Proof.
  induction rs as [|r rs IH]; intros H; [reflexivity|]. cbn [try_partial]. rewrite (proj2 (search_has r q) (H r (or_introl eq_refl))). apply IH. intros x I. apply H. right. exact I.
Qed.
Lemma none_had rs q : (forall r, In r rs -> ~ has_path r q) -> existsb (fun r => match search r q with NoMatch => false | _ => true end) rs = false.
Proof. intros H. apply not_true_iff_false. rewrite any_has. intros (r & I & F). exact (H r I F). Qed.
Lemma router_none w on t ov rs q : (forall r, In r rs -> ~ has_path r q) ->
  router_app w on t ov rs q = match redirects on rs q with Some q' => R [] (moved w q') Done | None => default_ w end.
Proof.
  intros H. assert (M : app_many w on t ov rs q = match redirects on rs q with Some q' => R [] (moved w q') Done | None => default_ w end).
  { unfold app_many. cbn zeta. rewrite (none_had _ _ H), none_full, none_partial by exact H. reflexivity. }
  unfold router_app. destruct rs as [|r [|r' rs]]; [exact M| |exact M]. unfold app_one. rewrite (proj2 (search_has r q) (H r (or_introl eq_refl))). reflexivity.
Qed.
Lemma ends_slash p : suffixb (u "/") p = true <-> exists t, p = t ++ u "/".
Proof. apply suffixb_iff. Qed.
Lemma rstrip_spec p t : p = t ++ u "/" -> exists n, (0 < n)%nat /\ p = rstrip_by (N.eqb 47) p ++ repeat 47 n /\ forall x, rstrip_by (N.eqb 47) p <> x ++ u "/".
Proof.
  intros P. unfold rstrip_by. destruct (lstrip_by_decomp (N.eqb 47) (rev p)) as (w & E & W & M).
  assert (WR : w = repeat 47 (length w)).
  { clear E. induction w as [|c w IH]; [reflexivity|]. cbn [forallb] in W. apply andb_true_iff in W as [W1 W2]. apply N.eqb_eq in W1. subst c. cbn [length repeat]. f_equal. apply IH. exact W2. }
  exists (length w). refine (conj _ (conj _ _)).
  - destruct w as [|c w]; [exfalso|cbn; lia]. cbn [app] in E. rewrite <- E, P, rev_app_distr in M. cbn in M. discriminate M.
  - remember (lstrip_by (N.eqb 47) (rev p)) as s eqn:ES. clear ES. rewrite <- (rev_involutive p), E, rev_app_distr. f_equal. rewrite WR at 1. clear.
    assert (G : forall n, rev (repeat 47 n) = repeat 47 n). { induction n as [|n IH]; [reflexivity|]. cbn [repeat rev]. rewrite IH. clear. induction n as [|n IH]; [reflexivity|]. cbn [repeat app]. rewrite IH. reflexivity. }
    apply G.
  - intros x X. apply (f_equal (@rev N)) in X. rewrite rev_involutive, rev_app_distr in X. cbn in X. rewrite X in M. cbn in M. discriminate M.
Qed.
Lemma other_spec q : ~ lies_at q (u "/") -> exists q', other_slash q = Some q' /\ other_end q q'.
Proof.
  intros NR. unfold other_slash. destruct (seqb (route_path q) (u "/")) eqn:S; [apply seqb_eq in S; destruct NR; apply at_fun; exact S|].
  cbn zeta. eexists. split; [reflexivity|]. unfold other_end. cbn [q_method q_path q_root]. refine (conj eq_refl (conj eq_refl _)).
  destruct (suffixb (u "/") (route_path q)) eqn:F.
  - left. apply ends_slash in F as (t & F).
    assert (PE : exists t', q_path q = t' ++ u "/").
    { assert (A : lies_at q (route_path q)) by (apply at_fun; reflexivity). destruct A as [A|[_ A]].
      - exists (q_root q ++ t). rewrite A, F, app_assoc. reflexivity.
      - exists t. rewrite <- A. exact F. }
    destruct PE as (t' & PE). destruct (rstrip_spec _ _ PE) as (n & N0 & E & X). refine (conj _ (conj _ X)); [|exists n; split; [exact N0|exact E]].
    intros p A. apply at_fun in A. exists t. rewrite <- A. exact F.
  - right. split; [|reflexivity]. intros p A t' T. apply at_fun in A. apply not_true_iff_false in F. apply F, ends_slash. exists t'. rewrite A. exact T.
Qed.
Lemma other_unique q q1 q2 : other_end q q1 -> other_end q q2 -> q1 = q2.
Proof.
  intros (M1 & R1 & E1) (M2 & R2 & E2). assert (P : q_path q1 = q_path q2).
  { assert (A : lies_at q (route_path q)) by (apply at_fun; reflexivity).
    destruct E1 as [(S1 & (n1 & N1 & P1) & X1)|(S1 & P1)], E2 as [(S2 & (n2 & N2 & P2) & X2)|(S2 & P2)].
    - clear S1 S2 A. rewrite P1 in P2. clear P1.
      assert (G : forall a b n m, (forall t, a <> t ++ u "/") -> (forall t, b <> t ++ u "/") -> a ++ repeat 47 n = b ++ repeat 47 m -> a = b).
      { clear. assert (RS : forall n, repeat 47 (S n) = repeat 47 n ++ [47]) by (induction n as [|n IH]; [reflexivity|]; cbn [repeat app] in *; rewrite <- IH; reflexivity).
        intros a b n. induction n as [|n IH]; intros m A B E.
        - destruct m as [|m]; [rewrite !app_nil_r in E; exact E|]. exfalso. rewrite RS, app_assoc in E. cbn [repeat] in E. rewrite app_nil_r in E. exact (A _ E).
        - destruct m as [|m]; [exfalso; rewrite RS, app_assoc in E; cbn [repeat] in E; rewrite app_nil_r in E; symmetry in E; exact (B _ E)|].
          rewrite !RS, !app_assoc in E. apply app_inj_tail in E as [E _]. exact (IH m A B E). }
      exact (G _ _ _ _ X1 X2 P2).
    - exfalso. destruct (S1 _ A) as (t & T). exact (S2 _ A t T).
    - exfalso. destruct (S2 _ A) as (t & T). exact (S1 _ A t T).
    - congruence. }
  destruct q1, q2. cbn in *. congruence.
Qed.
(** A request whose path a route has is never redirected.  Otherwise it is redirected exactly if redirects are on, it
    is not for the root, and some route has the path with the other end; and else it is not found. *)
Theorem C356_redirect : forall w on t ov rs q q', other_end q q' ->
  ((exists r, In r rs /\ has_path r q) -> router_app w on t ov rs q = router_app w false t ov rs q)
  /\ ((forall r, In r rs -> ~ has_path r q) ->
       (on = true -> ~ lies_at q (u "/") -> (exists r, In r rs /\ has_path r q') -> router_app w on t ov rs q = R [] (moved w q') Done)
       /\ (on = false \/ lies_at q (u "/") \/ (forall r, In r rs -> ~ has_path r q') -> router_app w on t ov rs q = R [] [] (Err (not_found w)))).
Proof.
  intros w on t ov rs q q' O. split.
  - intros H. pose proof H as (r0 & I0 & F0). apply any_has in H. unfold router_app. destruct rs as [|r [|r' rs]].
    + destruct I0.
    + unfold app_one. destruct I0 as [-> |[]]. destruct (search r0 q) eqn:E; [apply search_has in E; contradiction|reflexivity|reflexivity].
    + unfold app_many. cbn zeta. rewrite H. reflexivity.
  - intros H. rewrite (router_none w on t ov rs q H). split.
    + intros -> NR F. destruct (other_spec q NR) as (q2 & E & O2). rewrite (other_unique _ _ _ O2 O) in E. unfold redirects. rewrite E. apply any_has in F. rewrite F. reflexivity.
    + intros C. assert (E : redirects on rs q = None).
      { unfold redirects. destruct on; [|reflexivity]. destruct C as [C|[C|C]]; [discriminate C| |].
        - apply at_fun in C. unfold other_slash. rewrite C, seqb_refl. reflexivity.
        - destruct (other_slash q) as [q2|] eqn:OS; [|reflexivity].
          assert (NR : ~ lies_at q (u "/")). { intros A. apply at_fun in A. unfold other_slash in OS. rewrite A, seqb_refl in OS. discriminate OS. }
          destruct (other_spec q NR) as (q3 & E3 & O3). rewrite OS in E3. injection E3 as ->. rewrite (other_unique _ _ _ O3 O), none_had by exact C. reflexivity. }
      rewrite E. reflexivity.
Qed.
Print Assumptions C356_redirect.
Example C356_case : other_end (get (u "/a")) (get (u "/a/")) /\ has_path (fixed 0 (u "/a/")) (get (u "/a/")) /\ ~ has_path (fixed 0 (u "/a/")) (get (u "/a"))
  /\ router_app ex_world true None [] [fixed 0 (u "/a/")] (get (u "/a")) = R [] [AStart 307 []; ABody [] false] Done.
Proof.
  refine (conj _ (conj _ (conj _ eq_refl))).
  - refine (conj eq_refl (conj eq_refl (or_intror (conj _ eq_refl)))). intros p A t T. apply at_fun in A. change (route_path (get (u "/a"))) with (u "/a") in A.
    assert (L : last (u "/a") 0 = last (t ++ u "/") 0) by (rewrite A, T; reflexivity). change (u "/") with [47] in L. rewrite last_last in L. vm_compute in L. discriminate L.
  - left. reflexivity.
  - cbn. intros A. apply at_fun in A. vm_compute in A. discriminate A.
Qed.
