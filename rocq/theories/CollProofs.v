(** Proofs for containers of named values. *)
From Coq Require Import Permutation Sorting.Sorted.
From Verif Require Import PyStr PyStrFacts Utf8 HeaderSpec UrlModel UrlSpec UrlProofs HinSpec CollModel CollSpec.

Section Multi.
  Context {V : Type}.
  Implicit Type l : list (str * V).

  Lemma holds_getall k l vs : holds k l vs <-> vs = mgetall k l.
  Proof.
    unfold mgetall. split.
    - induction 1 as [|v l vs _ IH|k' v l vs NE _ IH]; cbn [filter fst]; [reflexivity | |].
      + rewrite seqb_refl. cbn [map snd]. now f_equal.
      + destruct (seqb k' k) eqn:E; [apply seqb_eq in E; contradiction | exact IH].
    - intros ->. induction l as [|(a, v) l IH]; cbn [filter fst]; [constructor|].
      destruct (seqb a k) eqn:E; [apply seqb_eq in E; subst; cbn [map snd]; constructor; exact IH|].
      constructor; [|exact IH]. intros ->. rewrite seqb_refl in E. discriminate.
  Qed.

  Lemma pairs_of k l : map (pair k) (mgetall k l) = filter (fun e => seqb (fst e) k) l.
  Proof.
    unfold mgetall. rewrite map_map. induction l as [|(a, v) l IH]; cbn [filter fst]; [reflexivity|].
    destruct (seqb a k) eqn:E; [|exact IH]. apply seqb_eq in E. subst. cbn [map snd]. now f_equal.
  Qed.
  Lemma items_eq order l : mitems order l = flat_map (fun k => filter (fun e => seqb (fst e) k) l) (order (map fst l)).
  Proof. unfold mitems. apply flat_map_ext. intros k. apply pairs_of. Qed.

  Lemma filter_filter k k' l :
    filter (fun e => seqb (fst e) k) (filter (fun e => seqb (fst e) k') l) = if seqb k' k then filter (fun e => seqb (fst e) k) l else [].
  Proof.
    induction l as [|(a, v) l IH]; cbn [filter fst]; [destruct (seqb k' k); reflexivity|].
    destruct (seqb a k') eqn:E.
    - apply seqb_eq in E. subst a. cbn [filter fst]. destruct (seqb k' k); [f_equal; exact IH | exact IH].
    - rewrite IH. destruct (seqb k' k) eqn:E'; [|reflexivity]. apply seqb_eq in E'. subst k'. rewrite E. reflexivity.
  Qed.
  Lemma filter_flat k (ks : list str) l : NoDup ks ->
    filter (fun e => seqb (fst e) k) (flat_map (fun k => filter (fun e => seqb (fst e) k) l) ks)
    = if smem k ks then filter (fun e => seqb (fst e) k) l else [].
  Proof.
    induction ks as [|x ks IH]; intros ND; [reflexivity|]. inversion ND as [|? ? NI ND']; subst. cbn [flat_map]. rewrite filter_app, filter_filter, (IH ND').
    unfold smem. cbn [existsb]. fold (smem k ks). destruct (seqb x k) eqn:E.
    - apply seqb_eq in E. subst x. rewrite seqb_refl. cbn [orb]. destruct (smem k ks) eqn:M; [apply smem_In in M; contradiction | apply app_nil_r].
    - assert (E' : seqb k x = false) by (destruct (seqb k x) eqn:Q; [apply seqb_eq in Q; subst; rewrite seqb_refl in E; discriminate | reflexivity]).
      rewrite E'. reflexivity.
  Qed.
  Lemma items_getall order k l : set_order order -> mgetall k (mitems order l) = mgetall k l.
  Proof.
    intros O. unfold mgetall. rewrite items_eq, filter_flat by apply O. destruct (smem k (order (map fst l))) eqn:M; [reflexivity|].
    symmetry. destruct (filter _ l) as [|(a, v) r] eqn:E; [reflexivity|]. exfalso.
    assert (I : In (a, v) (filter (fun e => seqb (fst e) k) l)) by (rewrite E; left; reflexivity).
    apply filter_In in I. destruct I as (I & Q). apply seqb_eq in Q. cbn in Q. subst a.
    assert (X : In k (order (map fst l))) by (apply O; apply (in_map fst) in I; exact I). apply smem_In in X. congruence.
  Qed.

  Lemma flat_insert (e : str * V) ks l : NoDup ks -> In (fst e) ks ->
    Permutation (flat_map (fun k => filter (fun e => seqb (fst e) k) (e :: l)) ks) (e :: flat_map (fun k => filter (fun e => seqb (fst e) k) l) ks).
  Proof.
    induction ks as [|x ks IH]; intros ND I; [destruct I|]. inversion ND as [|? ? NI ND']; subst. cbn [flat_map].
    assert (Z : forall ks, ~ In (fst e) ks -> flat_map (fun k => filter (fun e => seqb (fst e) k) (e :: l)) ks = flat_map (fun k => filter (fun e => seqb (fst e) k) l) ks).
    { clear. induction ks as [|y ks IH]; intros NI; [reflexivity|]. cbn [flat_map]. rewrite IH by (intros X; apply NI; right; exact X). f_equal.
      cbn [filter]. destruct (seqb (fst e) y) eqn:E; [|reflexivity]. apply seqb_eq in E. exfalso. apply NI. left. symmetry. exact E. }
    destruct (seqb (fst e) x) eqn:E.
    - pose proof E as E'. apply seqb_eq in E'. rewrite Z by (rewrite E'; exact NI). cbn [filter]. rewrite E. reflexivity.
    - destruct I as [X|I]; [rewrite X, seqb_refl in E; discriminate|]. replace (filter (fun e0 => seqb (fst e0) x) (e :: l)) with (filter (fun e0 => seqb (fst e0) x) l) by (cbn [filter]; rewrite E; reflexivity).
      rewrite (IH ND' I). symmetry. apply Permutation_middle.
  Qed.
  Lemma flat_perm ks l : NoDup ks -> (forall e, In e l -> In (fst e) ks) -> Permutation (flat_map (fun k => filter (fun e => seqb (fst e) k) l) ks) l.
  Proof.
    intros ND. induction l as [|e l IH]; intros H.
    - induction ks as [|x ks IHk]; [constructor|]. inversion ND; subst. cbn [flat_map filter app]. apply IHk; [assumption | intros e []].
    - rewrite flat_insert; [|exact ND | apply H; left; reflexivity]. constructor. apply IH. intros e' I. apply H. right. exact I.
  Qed.
  Lemma items_perm order l : set_order order -> Permutation (mitems order l) l.
  Proof.
    intros O. rewrite items_eq. apply flat_perm; [apply O|]. intros e I. apply O. apply in_map. exact I.
  Qed.

  Lemma getall_perm k l l' : Permutation l l' -> Permutation (mgetall k l) (mgetall k l').
  Proof.
    unfold mgetall. induction 1 as [|e l l' _ IH|a b l|l m r _ IH1 _ IH2]; cbn [filter]; [constructor | | | etransitivity; eassumption].
    - destruct (seqb (fst e) k); cbn [map]; [constructor|]; exact IH.
    - destruct (seqb (fst a) k), (seqb (fst b) k); cbn [map]; try apply perm_swap; apply Permutation_refl.
  Qed.
End Multi.

(** ** [sorted] *)
Lemma str_leb_refl a : str_leb a a = true.
Proof. induction a as [|x a IH]; cbn [str_leb]; [reflexivity|]. rewrite N.eqb_refl. exact IH. Qed.
Lemma str_leb_total a : forall b, str_leb a b = true \/ str_leb b a = true.
Proof.
  induction a as [|x a IH]; intros [|y b]; cbn [str_leb]; auto. rewrite (N.eqb_sym y x). destruct (N.eqb_spec x y) as [_|NE]; [apply IH|].
  rewrite !N.ltb_lt. lia.
Qed.
Lemma str_leb_anti a : forall b, str_leb a b = true -> str_leb b a = true -> a = b.
Proof.
  induction a as [|x a IH]; intros [|y b]; cbn [str_leb]; intros H1 H2; try discriminate; [reflexivity|]. rewrite (N.eqb_sym y x) in H2.
  destruct (N.eqb_spec x y) as [->|NE]; [f_equal; apply IH; assumption|]. apply N.ltb_lt in H1, H2. lia.
Qed.
Lemma str_leb_trans a : forall b c, str_leb a b = true -> str_leb b c = true -> str_leb a c = true.
Proof.
  induction a as [|x a IH]; intros [|y b] [|z c]; cbn [str_leb]; intros H1 H2; try discriminate; try reflexivity.
  destruct (N.eqb_spec x y) as [->|NE].
  - destruct (N.eqb_spec y z) as [->|NE']; [apply (IH b); assumption | exact H2].
  - apply N.ltb_lt in H1. destruct (N.eqb_spec y z) as [->|NE'].
    + destruct (N.eqb_spec x z); [congruence | apply N.ltb_lt; exact H1].
    + apply N.ltb_lt in H2. destruct (N.eqb_spec x z); [lia | apply N.ltb_lt; lia].
Qed.
Lemma seqb_sym' a b : seqb a b = seqb b a.
Proof. destruct (seqb a b) eqn:E; [apply seqb_eq in E; subst; symmetry; apply seqb_refl|]. destruct (seqb b a) eqn:E'; [apply seqb_eq in E'; subst; rewrite seqb_refl in E; discriminate | reflexivity]. Qed.

Lemma pair_leb_total a b : pair_leb a b = true \/ pair_leb b a = true.
Proof. unfold pair_leb. rewrite (seqb_sym' (fst b)). destruct (seqb (fst a) (fst b)); apply str_leb_total. Qed.
Lemma pair_leb_anti a b : pair_leb a b = true -> pair_leb b a = true -> a = b.
Proof.
  unfold pair_leb. rewrite (seqb_sym' (fst b)). destruct a as (a1, a2), b as (b1, b2). cbn [fst snd]. destruct (seqb a1 b1) eqn:E; intros H1 H2.
  - apply seqb_eq in E. subst. f_equal. apply str_leb_anti; assumption.
  - pose proof (str_leb_anti _ _ H1 H2) as X. subst. rewrite seqb_refl in E. discriminate.
Qed.
Lemma pair_leb_trans a b c : pair_leb a b = true -> pair_leb b c = true -> pair_leb a c = true.
Proof.
  unfold pair_leb. destruct a as (a1, a2), b as (b1, b2), c as (c1, c2). cbn [fst snd].
  destruct (seqb a1 b1) eqn:E1, (seqb b1 c1) eqn:E2; intros H1 H2.
  - apply seqb_eq in E1, E2. subst. rewrite seqb_refl. apply (str_leb_trans _ _ _ H1 H2).
  - apply seqb_eq in E1. subst. rewrite E2. exact H2.
  - apply seqb_eq in E2. subst. rewrite E1. exact H1.
  - pose proof (str_leb_trans _ _ _ H1 H2) as H3. destruct (seqb a1 c1) eqn:E3; [|exact H3].
    apply seqb_eq in E3. subst. pose proof (str_leb_anti _ _ H1 H2) as X. subst. rewrite seqb_refl in E1. discriminate.
Qed.

Definition le_pair (a b : str * str) : Prop := pair_leb a b = true.
Lemma insert_perm e l : Permutation (insert_pair e l) (e :: l).
Proof. induction l as [|x l IH]; cbn [insert_pair]; [reflexivity|]. destruct (pair_leb e x); [reflexivity|]. rewrite IH. apply perm_swap. Qed.
Lemma sorted_perm l : Permutation (sorted l) l.
Proof. induction l as [|e l IH]; [constructor|]. cbn [sorted fold_right]. fold (sorted l). rewrite insert_perm. constructor. exact IH. Qed.
Lemma insert_sorted e l : StronglySorted le_pair l -> StronglySorted le_pair (insert_pair e l).
Proof.
  induction 1 as [|x l S IH F]; cbn [insert_pair]; [repeat constructor|]. destruct (pair_leb e x) eqn:E.
  - constructor; [constructor; assumption|]. constructor; [exact E|]. eapply Forall_impl; [|exact F]. intros y H. apply (pair_leb_trans _ x); assumption.
  - constructor; [exact IH|]. apply Forall_forall. intros y I. apply (Permutation_in y (insert_perm e l)) in I. destruct I as [<-|I].
    + destruct (pair_leb_total e x); [congruence | assumption].
    + rewrite Forall_forall in F. apply F. exact I.
Qed.
Lemma sorted_sorted l : StronglySorted le_pair (sorted l).
Proof. induction l as [|e l IH]; [constructor | apply insert_sorted; exact IH]. Qed.
Lemma sorted_unique a : forall b, StronglySorted le_pair a -> StronglySorted le_pair b -> Permutation a b -> a = b.
Proof.
  induction a as [|x a IH]; intros b SA SB P.
  - apply Permutation_nil in P. symmetry. exact P.
  - destruct b as [|y b]; [symmetry in P; apply Permutation_nil in P; discriminate|].
    inversion SA as [|? ? SA' FA]; subst. inversion SB as [|? ? SB' FB]; subst. rewrite Forall_forall in FA, FB.
    assert (X : x = y).
    { assert (I1 : In x (y :: b)) by (apply (Permutation_in x P); left; reflexivity).
      assert (I2 : In y (x :: a)) by (apply (Permutation_in y (Permutation_sym P)); left; reflexivity).
      destruct I1 as [->|I1]; [reflexivity|]. destruct I2 as [->|I2]; [reflexivity|]. apply pair_leb_anti; [apply FA; exact I2 | apply FB; exact I1]. }
    subst y. f_equal. apply IH; [assumption | assumption|]. apply (Permutation_cons_inv P).
Qed.
Lemma sorted_id l : StronglySorted le_pair l -> sorted l = l.
Proof. intros H. apply sorted_unique; [apply sorted_sorted | exact H | apply sorted_perm]. Qed.
Lemma sorted_eq a b : sorted a = sorted b <-> Permutation a b.
Proof.
  split; intros H.
  - rewrite <- (sorted_perm a), <- (sorted_perm b), H. reflexivity.
  - apply sorted_unique; [apply sorted_sorted | apply sorted_sorted|]. rewrite !sorted_perm. exact H.
Qed.
Lemma pairs_eqb_eq a : forall b, pairs_eqb a b = true <-> a = b.
Proof.
  induction a as [|(x, y) a IH]; intros [|(z, w) b]; cbn [pairs_eqb fst snd]; try (split; [discriminate | intros H; discriminate H]); [tauto|].
  rewrite !andb_true_iff, !seqb_eq, IH. split; [intros ((-> & ->) & ->); reflexivity | intros H; inversion H; auto].
Qed.

(** The values under one name of a sorted list are sorted. *)
Lemma sorted_values k l : StronglySorted le_pair l -> StronglySorted (fun a b => str_leb a b = true) (mgetall k l).
Proof.
  unfold mgetall. induction 1 as [|(a, v) l S IH F]; cbn [filter fst]; [constructor|]. destruct (seqb a k) eqn:E; [|exact IH]. apply seqb_eq in E. subst a. cbn [map snd].
  constructor; [exact IH|]. apply Forall_forall. intros w I. apply in_map_iff in I. destruct I as ((b, w') & X & I). cbn in X. subst w'. apply filter_In in I. destruct I as (I & Q). apply seqb_eq in Q. cbn in Q. subst b.
  rewrite Forall_forall in F. specialize (F _ I). unfold le_pair, pair_leb in F. cbn [fst snd] in F. rewrite seqb_refl in F. exact F.
Qed.
Lemma texts_unique a : forall b, StronglySorted (fun a b => str_leb a b = true) a -> StronglySorted (fun a b => str_leb a b = true) b -> Permutation a b -> a = b.
Proof.
  induction a as [|x a IH]; intros b SA SB P.
  - apply Permutation_nil in P. symmetry. exact P.
  - destruct b as [|y b]; [symmetry in P; apply Permutation_nil in P; discriminate|].
    inversion SA as [|? ? SA' FA]; subst. inversion SB as [|? ? SB' FB]; subst. rewrite Forall_forall in FA, FB.
    assert (X : x = y).
    { assert (I1 : In x (y :: b)) by (apply (Permutation_in x P); left; reflexivity).
      assert (I2 : In y (x :: a)) by (apply (Permutation_in y (Permutation_sym P)); left; reflexivity).
      destruct I1 as [->|I1]; [reflexivity|]. destruct I2 as [->|I2]; [reflexivity|]. apply str_leb_anti; [apply FA; exact I2 | apply FB; exact I1]. }
    subst y. f_equal. apply IH; [assumption | assumption|]. apply (Permutation_cons_inv P).
Qed.

(** ** Closing *)
Lemma close_some raises l : Forall (fun e => match snd e with FFile n => raises n = false | FText _ => True end) l ->
  close_all raises l = (flat_map (fun e => match snd e with FFile n => [n] | FText _ => [] end) l, true).
Proof.
  induction 1 as [|(k, [t|n]) l H F IH]; cbn [close_all flat_map snd app]; [reflexivity | exact IH|]. cbn [snd] in H. rewrite H, IH. reflexivity.
Qed.

(** ** Encoded query strings are ASCII *)
Lemma encode_ascii l : texts l -> ascii_str (urlencode l).
Proof.
  intros T.
  assert (X : forall c, In c (urlencode l) -> c = 38%N \/ c = 61%N \/ unreserved c = true \/ c = 37%N \/ c = 43%N).
  { intros c I. unfold urlencode in I. change (fun e0 : str * str => quote_plus (fst e0) ++ u "=" ++ quote_plus (snd e0)) with one in I.
    induction l as [|e l IH]; [destruct I|]. destruct (texts_cons _ _ T) as (K & V & T').
    assert (O : forall c, In c (one e) -> c = 38%N \/ c = 61%N \/ unreserved c = true \/ c = 37%N \/ c = 43%N).
    { intros x J. unfold one in J. apply in_app_or in J as [J|J]; [apply quoted_char in J; tauto|].
      apply in_app_or in J as [J|J]; [cbn in J; destruct J as [J|[]]; auto | apply quoted_char in J; tauto]. }
    destruct l as [|e2 l].
    - cbn [map join] in I. apply O. exact I.
    - cbn [map] in I, IH. change (In c (one e ++ u "&" ++ join (u "&") (one e2 :: map one l))) in I.
      apply in_app_or in I as [I|I]; [apply O; exact I|]. apply in_app_or in I as [I|I]; [cbn in I; destruct I as [I|[]]; auto|].
      apply IH; assumption. }
  intros c I. destruct (X c I) as [->|[->|[Y|[->| ->]]]]; try lia.
  unfold unreserved, between in Y. rewrite !orb_true_iff, !andb_true_iff, !N.leb_le, !N.eqb_eq in Y. lia.
Qed.
Lemma plain_says s : ascii_str s -> says s s.
Proof. intros A. split; [|symmetry; apply enc_ascii; exact A]. intros c I. left. specialize (A c I). lia. Qed.
