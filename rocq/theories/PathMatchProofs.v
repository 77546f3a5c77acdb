From Verif Require Import PyStr PyStrFacts PathModel PathSpec PathProofs.

(** * Character classes and candidate lengths *)
Lemma span_spec p s : forall a b, span p s = (a, b) ->
  s = a ++ b /\ all_in p a /\ match b with c :: _ => p c = false | [] => True end.
Proof.
  induction s as [|c s IH]; intros a b; cbn [span].
  - intros [= <- <-]. split; [reflexivity|]. split; [intros ? []|exact I].
  - destruct (p c) eqn:Ec.
    + destruct (span p s) as [a' b'] eqn:E. intros [= <- <-]. destruct (IH _ _ eq_refl) as (-> & H1 & H2).
      split; [reflexivity|]. split; [|assumption]. intros x [<-|Hx]; auto.
    + intros [= <- <-]. split; [reflexivity|]. split; [intros ? []|assumption].
Qed.
Lemma span_app p a c r : all_in p a -> p c = false -> span p (a ++ c :: r) = (a, c :: r).
Proof.
  intros Ha Hc. induction a as [|x a IH]; cbn [app span]; [now rewrite Hc|].
  rewrite (Ha x (or_introl eq_refl)). rewrite IH; [reflexivity|]. intros y Hy. apply Ha. now right.
Qed.

Lemma down_In n lo k : In k (down n lo) <-> lo <= k <= n.
Proof.
  induction n as [|n IH]; unfold down; fold down.
  - destruct (Nat.ltb_spec 0 lo); cbn [In]; lia.
  - destruct (Nat.ltb_spec (S n) lo); cbn [In]; [lia|]. rewrite IH. lia.
Qed.

Lemma run_len_spec p s k : k <= run_len p s <-> k <= length s /\ all_in p (firstn k s).
Proof.
  unfold run_len. revert k. induction s as [|c s IH]; intros k; cbn [span].
  - cbn. split; [intros; split; [lia|]; destruct k; intros ? []|intros [? _]; lia].
  - destruct (p c) eqn:Ec.
    + destruct (span p s) as [a b] eqn:E. cbn [fst length] in *. destruct k as [|k].
      * cbn. split; [intros; split; [lia|intros ? []]|intros; lia].
      * cbn [firstn]. rewrite <- Nat.succ_le_mono, IH, <- Nat.succ_le_mono. split; intros [H1 H2]; (split; [assumption|]).
        -- intros x [<-|Hx]; auto.
        -- intros x Hx. apply H2. now right.
    + cbn [fst length]. destruct k as [|k].
      * cbn. split; [intros; split; [lia|intros ? []]|intros; lia].
      * split; [lia|]. intros [_ H]. specialize (H c (or_introl eq_refl)). congruence.
Qed.

Lemma classes_app ps qs s : classes_match (ps ++ qs) s = classes_match ps s && classes_match qs (skipn (length ps) s).
Proof.
  revert s. induction ps as [|p ps IH]; intros s; [reflexivity|]. destruct s as [|c s]; [reflexivity|].
  cbn [app classes_match length skipn]. rewrite IH. now destruct (p c).
Qed.
Lemma classes_repeat p n s : classes_match (repeat p n) s = true <-> n <= length s /\ all_in p (firstn n s).
Proof.
  revert s. induction n as [|n IH]; intros s.
  - cbn. split; [intros _; split; [lia|intros ? []]|reflexivity].
  - destruct s as [|c s]; cbn [repeat classes_match length firstn].
    + split; [discriminate|intros [? _]; lia].
    + rewrite andb_true_iff, IH, <- Nat.succ_le_mono. split.
      * intros (H1 & H2 & H3). split; [assumption|]. intros x [<-|Hx]; auto.
      * intros [H1 H2]. split; [apply H2; now left|]. split; [assumption|]. intros x Hx. apply H2. now right.
Qed.
Lemma classes_len ps s : classes_match ps s = true -> length ps <= length s.
Proof.
  revert s. induction ps as [|p ps IH]; intros s H; [cbn; lia|]. destruct s as [|c s]; [discriminate|].
  cbn [classes_match] in H. apply andb_true_iff in H as [_ H]. apply IH in H. cbn. lia.
Qed.
(** Only the first [length ps] characters matter. *)
Lemma classes_firstn ps s k : length ps <= k -> classes_match ps (firstn k s) = classes_match ps s.
Proof.
  revert s k. induction ps as [|p ps IH]; intros s k H; [reflexivity|]. destruct k as [|k]; [cbn in H; lia|].
  destruct s as [|c s]; [reflexivity|]. cbn [firstn classes_match]. cbn [length] in H. rewrite IH by lia. reflexivity.
Qed.
Lemma classes_prefix ps v r : length ps <= length v -> classes_match ps (v ++ r) = classes_match ps v.
Proof.
  intros H. rewrite <- (classes_firstn ps (v ++ r) (length v)) by assumption.
  rewrite firstn_app, Nat.sub_diag, firstn_all. cbn. now rewrite app_nil_r.
Qed.

(** A fixed-length group in front. *)
Lemma classes_group p n v r : length v = n ->
  (forall qs, classes_match (repeat p n ++ qs) (v ++ r) = true <-> all_in p v /\ classes_match qs r = true).
Proof.
  intros Hl qs. rewrite classes_app, andb_true_iff, repeat_length, classes_repeat.
  rewrite skipn_app, firstn_app. rewrite Hl, Nat.sub_diag. rewrite <- Hl, firstn_all, skipn_all. cbn [firstn skipn app].
  rewrite app_nil_r, app_length. split.
  - intros [[_ H] H']. auto.
  - intros [H H']. split; [split; [lia|assumption]|assumption].
Qed.
Lemma classes_lit c qs r : classes_match (N.eqb c :: qs) (c :: r) = classes_match qs r.
Proof. cbn. now rewrite N.eqb_refl. Qed.

(** Splitting a text that satisfies a class sequence. *)
Lemma classes_group_inv p n qs s : classes_match (repeat p n ++ qs) s = true ->
  exists v r, s = v ++ r /\ length v = n /\ all_in p v /\ classes_match qs r = true.
Proof.
  rewrite classes_app, andb_true_iff, repeat_length, classes_repeat. intros [[H1 H2] H3].
  exists (firstn n s), (skipn n s). split; [now rewrite firstn_skipn|]. split; [now apply firstn_length_le|]. auto.
Qed.
Lemma classes_lit_inv c qs s : classes_match (N.eqb c :: qs) s = true ->
  exists r, s = c :: r /\ classes_match qs r = true.
Proof.
  destruct s as [|x s]; [discriminate|]. cbn. rewrite andb_true_iff. intros [H1 H2]. apply N.eqb_eq in H1. subst. eauto.
Qed.

Lemma uuid_len v : in_conv CUuid v -> length v = 36.
Proof.
  intros (a & b & c & d & e & -> & (Ha & _) & (Hb & _) & (Hc & _) & (Hd & _) & (He & _)).
  rewrite !app_length, Ha, Hb, Hc, Hd, He. reflexivity.
Qed.
Lemma uuid_classes_spec s : classes_match uuid_classes s = true <-> 36 <= length s /\ in_conv CUuid (firstn 36 s).
Proof.
  split.
  - intros H. pose proof (classes_len _ _ H) as Hl. change (length uuid_classes) with 36 in Hl. split; [assumption|].
    unfold uuid_classes, hyphen in H.
    apply classes_group_inv in H as (a & r & -> & La & Ha & H). apply classes_lit_inv in H as (r1 & -> & H).
    apply classes_group_inv in H as (b & r2 & -> & Lb & Hb & H). apply classes_lit_inv in H as (r3 & -> & H).
    apply classes_group_inv in H as (c & r4 & -> & Lc & Hc & H). apply classes_lit_inv in H as (r5 & -> & H).
    apply classes_group_inv in H as (d & r6 & -> & Ld & Hd & H). apply classes_lit_inv in H as (r7 & -> & H).
    rewrite <- (app_nil_r (repeat is_hex_lower 12)) in H.
    apply classes_group_inv in H as (e & r8 & -> & Le & He & _).
    exists a, b, c, d, e.
    split; [|unfold hexn; auto 8].
    change (u "-") with [45%N]. cbn [app].
    replace (a ++ 45%N :: b ++ 45%N :: c ++ 45%N :: d ++ 45%N :: e ++ r8)
      with ((a ++ 45%N :: b ++ 45%N :: c ++ 45%N :: d ++ 45%N :: e) ++ r8)
      by (repeat (rewrite <- app_assoc; cbn [app]); reflexivity).
    assert (length (a ++ 45%N :: b ++ 45%N :: c ++ 45%N :: d ++ 45%N :: e) = 36) as L.
    { repeat (rewrite app_length; cbn [length]). rewrite La, Lb, Lc, Ld, Le. reflexivity. }
    rewrite firstn_app, L. rewrite <- L at 1. rewrite firstn_all. rewrite Nat.sub_diag. apply app_nil_r.
  - intros [_ (a & b & c & d & e & E & (La & Ha) & (Lb & Hb) & (Lc & Hc) & (Ld & Hd) & (Le & He))].
    rewrite <- (classes_firstn uuid_classes s 36) by (cbn; lia). rewrite E. unfold uuid_classes, hyphen.
    change (u "-") with [45%N]. cbn [app].
    apply classes_group; [assumption|]. split; [assumption|]. rewrite classes_lit.
    apply classes_group; [assumption|]. split; [assumption|]. rewrite classes_lit.
    apply classes_group; [assumption|]. split; [assumption|]. rewrite classes_lit.
    apply classes_group; [assumption|]. split; [assumption|]. rewrite classes_lit.
    rewrite <- (app_nil_r e), <- (app_nil_r (repeat is_hex_lower 12)).
    apply classes_group; [assumption|]. split; [assumption|reflexivity].
Qed.

Lemma datetime_inv s : classes_match datetime_classes s = true ->
  exists y mo d h mi sec r, s = y ++ 45%N :: mo ++ 45%N :: d ++ 84%N :: h ++ 58%N :: mi ++ 58%N :: sec ++ r /\
    dign 4 y /\ dign 2 mo /\ dign 2 d /\ dign 2 h /\ dign 2 mi /\ dign 2 sec.
Proof.
  intros H. unfold datetime_classes, hyphen in H.
  apply classes_group_inv in H as (y & r & -> & L1 & H1 & H). apply classes_lit_inv in H as (r1 & -> & H).
  apply classes_group_inv in H as (mo & r2 & -> & L2 & H2 & H). apply classes_lit_inv in H as (r3 & -> & H).
  apply classes_group_inv in H as (d & r4 & -> & L3 & H3 & H). apply classes_lit_inv in H as (r5 & -> & H).
  apply classes_group_inv in H as (h & r6 & -> & L4 & H4 & H). apply classes_lit_inv in H as (r7 & -> & H).
  apply classes_group_inv in H as (mi & r8 & -> & L5 & H5 & H). apply classes_lit_inv in H as (r9 & -> & H).
  rewrite <- (app_nil_r (repeat is_digit 2)) in H.
  apply classes_group_inv in H as (sec & r10 & -> & L6 & H6 & _).
  exists y, mo, d, h, mi, sec, r10. split; [reflexivity|]. unfold dign. auto 12.
Qed.
Lemma datetime_intro y mo d h mi sec r :
  dign 4 y -> dign 2 mo -> dign 2 d -> dign 2 h -> dign 2 mi -> dign 2 sec ->
  classes_match datetime_classes (y ++ 45%N :: mo ++ 45%N :: d ++ 84%N :: h ++ 58%N :: mi ++ 58%N :: sec ++ r) = true.
Proof.
  intros [L1 H1] [L2 H2] [L3 H3] [L4 H4] [L5 H5] [L6 H6]. unfold datetime_classes, hyphen. cbn [app].
  apply classes_group; [assumption|]. split; [assumption|]. rewrite classes_lit.
  apply classes_group; [assumption|]. split; [assumption|]. rewrite classes_lit.
  apply classes_group; [assumption|]. split; [assumption|]. rewrite classes_lit.
  apply classes_group; [assumption|]. split; [assumption|]. rewrite classes_lit.
  apply classes_group; [assumption|]. split; [assumption|]. rewrite classes_lit.
  rewrite <- (app_nil_r (repeat is_digit 2)).
  apply classes_group; [assumption|]. split; [assumption|reflexivity].
Qed.

Lemma digits_iff v : digits v <-> 1 <= length v /\ all_in is_digit v.
Proof. unfold digits. destruct v; cbn; split; intros [? ?]; split; auto; try lia; try discriminate; try congruence. Qed.

(** Optional fraction. *)
Lemma opt_frac_spec first s k n : k <= length s ->
  In n (opt_frac first s k) <-> k <= n <= length s /\ is_frac first (firstn (n - k) (skipn k s)).
Proof.
  intros Hk. unfold opt_frac.
  assert (length (skipn k s) = length s - k) as L by apply skipn_length.
  destruct (skipn k s) as [|c r] eqn:E.
  - cbn [length] in L. cbn [In]. rewrite firstn_nil. split.
    + intros [<-|[]]. split; [lia|now left].
    + intros [H _]. left. lia.
  - cbn [length] in L. destruct (first c) eqn:Ef.
    + rewrite in_app_iff, in_map_iff. cbn [In]. split.
      * intros [(j & <- & Hj)|[<-|[]]].
        -- apply down_In in Hj. destruct Hj as [Hj1 Hj2]. apply run_len_spec in Hj2 as [Hj2 Hj3].
           split; [lia|]. right. exists c, (firstn j r). replace (k + 1 + j - k) with (S j) by lia. cbn [firstn].
           split; [reflexivity|]. split; [assumption|]. apply digits_iff. rewrite firstn_length_le by assumption. auto.
        -- split; [lia|]. left. now rewrite Nat.sub_diag.
      * intros [H1 [H2|(c' & d & H2 & H3 & H4)]].
        -- right; left. destruct (n - k) eqn:En; [lia|]. discriminate.
        -- left. exists (n - k - 1). destruct (n - k) as [|j] eqn:En; [discriminate|]. cbn [firstn] in H2.
           injection H2 as <- H2. split; [lia|]. apply down_In. replace (S j - 1) with j by lia.
           apply digits_iff in H4 as [H4 H5]. subst d. rewrite firstn_length in H4. split; [lia|].
           apply run_len_spec. split; [lia|assumption].
    + cbn [In]. split.
      * intros [<-|[]]. split; [lia|]. left. now rewrite Nat.sub_diag.
      * intros [H1 [H2|(c' & d & H2 & H3 & H4)]].
        -- left. destruct (n - k) eqn:En; [lia|]. discriminate.
        -- destruct (n - k) as [|j]; [discriminate|]. cbn [firstn] in H2. injection H2 as <- _. congruence.
Qed.

Lemma firstn_split (k n : nat) (s : str) : k <= n -> firstn n s = firstn k s ++ firstn (n - k) (skipn k s).
Proof.
  intros H. rewrite <- (firstn_skipn k s) at 1. rewrite firstn_app. rewrite firstn_firstn.
  replace (Init.Nat.min n k) with k by lia. rewrite firstn_length.
  destruct (Nat.le_ge_cases k (length s)) as [L|L].
  - now replace (n - Init.Nat.min k (length s)) with (n - k) by lia.
  - rewrite (skipn_all2 s) by lia. now rewrite !firstn_nil.
Qed.

Lemma prefs_spec c s k : In k (prefs c s) <-> k <= length s /\ in_conv c (firstn k s).
Proof.
  destruct c; cbn [prefs in_conv].
  - rewrite down_In, and_comm, run_len_spec. split.
    + intros [[H1 H2] H3]. split; [assumption|]. split.
      * intros E. apply (f_equal (@length N)) in E. rewrite firstn_length_le in E by assumption. cbn in E. lia.
      * intros Hin. apply H2 in Hin. unfold not_slash, is_slash in Hin. now rewrite N.eqb_refl in Hin.
    + intros [H1 [H2 H3]]. split; [split; [assumption|]|].
      * intros x Hx. unfold not_slash, is_slash. destruct (N.eqb_spec x slash); [subst; tauto|reflexivity].
      * destruct k; [|lia]. now cbn in H2.
  - rewrite down_In. split.
    + intros [_ H]. apply run_len_spec in H as [H1 H2]. split; [assumption|]. intros Hin. apply H2 in Hin. discriminate.
    + intros [H1 H2]. split; [lia|]. apply run_len_spec. split; [assumption|]. intros x Hx. unfold not_nl.
      destruct (N.eqb_spec x 10); [subst; tauto|reflexivity].
  - rewrite down_In, digits_iff. split.
    + intros [H0 H]. apply run_len_spec in H as [H1 H2]. rewrite firstn_length_le by assumption. auto.
    + intros [H1 [H2 H3]]. rewrite firstn_length_le in H2 by assumption. split; [assumption|]. apply run_len_spec. auto.
  - rewrite in_flat_map. split.
    + intros (j & Hj & Hk). apply down_In in Hj as [Hj0 Hj]. apply run_len_spec in Hj as [Hj1 Hj2].
      apply opt_frac_spec in Hk; [|assumption]. destruct Hk as [Hk1 Hk2]. split; [lia|].
      exists (firstn j s), (firstn (k - j) (skipn j s)). split; [apply firstn_split; lia|]. split; [|assumption].
      apply digits_iff. rewrite firstn_length_le by assumption. auto.
    + intros [H1 (i & f & E & Hi & Hf)]. apply digits_iff in Hi as [Hi1 Hi2].
      assert (length i <= k) as Lk.
      { apply (f_equal (@length N)) in E. rewrite firstn_length_le, app_length in E by assumption. lia. }
      rewrite (firstn_split (length i) k) in E by assumption.
      assert (length (firstn (length i) s) = length i) as Li by (apply firstn_length_le; lia).
      assert (firstn (length i) s = i) as Ei.
      { apply (f_equal (firstn (length i))) in E. rewrite !firstn_app in E. rewrite Li, Nat.sub_diag in E.
        cbn [firstn] in E. rewrite !app_nil_r in E. rewrite firstn_firstn, Nat.min_id, firstn_all in E. exact E. }
      rewrite Ei in E. apply app_inv_head in E.
      exists (length i). split.
      * apply down_In. split; [assumption|]. apply run_len_spec. split; [lia|]. now rewrite Ei.
      * apply opt_frac_spec; [lia|]. split; [lia|]. now rewrite E.
  - destruct (classes_match uuid_classes s) eqn:E.
    + apply uuid_classes_spec in E as [E1 E2]. cbn [In]. split.
      * intros [<-|[]]. auto.
      * intros [H1 H2]. left. apply uuid_len in H2. rewrite firstn_length_le in H2 by assumption. congruence.
    + split; [intros []|]. intros [H1 H2]. pose proof (uuid_len _ H2) as L. rewrite firstn_length_le in L by assumption. subst k.
      assert (classes_match uuid_classes s = true) as Hc by (now apply uuid_classes_spec). congruence.
  - destruct (classes_match datetime_classes s) eqn:E.
    + pose proof (classes_len _ _ E) as Ls. change (length datetime_classes) with 19 in Ls.
      rewrite opt_frac_spec by assumption. split.
      * intros [H1 H2]. split; [lia|].
        rewrite <- (classes_firstn _ _ 19) in E by (cbn; lia).
        pose proof (firstn_length_le s Ls) as Lf.
        destruct (datetime_inv _ E) as (y & mo & d & h & mi & sec & r & Er & D1 & D2 & D3 & D4 & D5 & D6).
        assert (r = []) as ->.
        { apply (f_equal (@length N)) in Er. rewrite Lf in Er. repeat (rewrite app_length in Er; cbn [length] in Er).
          destruct D1 as [L1 _], D2 as [L2 _], D3 as [L3 _], D4 as [L4 _], D5 as [L5 _], D6 as [L6 _].
          rewrite L1, L2, L3, L4, L5, L6 in Er. destruct r; [reflexivity|cbn in Er; lia]. }
        exists y, mo, d, h, mi, sec, (firstn (k - 19) (skipn 19 s)).
        split; [|auto 10]. rewrite (firstn_split 19 k) by lia. rewrite Er.
        rewrite app_nil_r. change (u "-") with [45%N]. change (u "T") with [84%N]. change (u ":") with [58%N].
        repeat (rewrite <- app_assoc; cbn [app]). reflexivity.
      * intros [H1 (y & mo & d & h & mi & sec & f & Ef & D1 & D2 & D3 & D4 & D5 & D6 & Hf)].
        set (b := y ++ u "-" ++ mo ++ u "-" ++ d ++ u "T" ++ h ++ u ":" ++ mi ++ u ":" ++ sec).
        assert (length b = 19) as Lb.
        { unfold b. rewrite !app_length. destruct D1 as [-> _], D2 as [-> _], D3 as [-> _], D4 as [-> _], D5 as [-> _], D6 as [-> _]. reflexivity. }
        assert (firstn k s = b ++ f) as Eb by (rewrite Ef; unfold b; now rewrite <- !app_assoc).
        clearbody b. clear Ef.
        assert (19 <= k) as Lk.
        { apply (f_equal (@length N)) in Eb. rewrite firstn_length_le, app_length in Eb by assumption. lia. }
        split; [lia|]. rewrite (firstn_split 19 k) in Eb by assumption.
        assert (firstn 19 s = b) as E19.
        { apply (f_equal (firstn 19)) in Eb. rewrite !firstn_app in Eb. rewrite Lb, firstn_length_le in Eb by lia.
          rewrite Nat.sub_diag in Eb. change (firstn 0 (firstn (k - 19) (skipn 19 s))) with (@nil N) in Eb. 
          change (firstn 0 f) with (@nil N) in Eb. rewrite !app_nil_r, firstn_firstn in Eb.
          change (Init.Nat.min 19 19) with 19 in Eb. rewrite <- Lb in Eb at 2. now rewrite firstn_all in Eb. }
        rewrite E19 in Eb. apply app_inv_head in Eb. now rewrite Eb.
    + split; [intros []|]. intros [H1 (y & mo & d & h & mi & sec & f & Ef & D1 & D2 & D3 & D4 & D5 & D6 & Hf)].
      assert (classes_match datetime_classes (firstn k s) = true) as Hc by (rewrite Ef; change (u "-") with [45%N]; change (u "T") with [84%N]; change (u ":") with [58%N]; cbn [app]; now apply datetime_intro).
      pose proof (classes_len _ _ Hc) as Hl. change (length datetime_classes) with 19 in Hl. rewrite firstn_length_le in Hl by assumption.
      rewrite classes_firstn in Hc by (cbn; lia). congruence.
Qed.

(** * The matcher *)
Lemma first_some_some {A B} (f : A -> option B) l b : first_some f l = Some b -> exists a, In a l /\ f a = Some b.
Proof.
  induction l as [|a l IH]; cbn [first_some]; [discriminate|]. destruct (f a) eqn:E.
  - intros [= <-]. exists a. split; [now left|assumption].
  - intros H. destruct (IH H) as (x & Hx & Ex). exists x. split; [now right|assumption].
Qed.
Lemma first_some_none {A B} (f : A -> option B) l a : In a l -> f a <> None -> first_some f l <> None.
Proof.
  induction l as [|x l IH]; cbn [first_some]; [intros []|]. intros [->|H] Hf.
  - destruct (f a); congruence.
  - destruct (f x); [discriminate|auto].
Qed.

Definition rx_of (t : template) : list relem :=
  flat_map (fun p => [RLit (fst (fst p)); RCap (snd (fst p)) (snd p)]) (fst t) ++ [RLit (snd t)].

Lemma prefixb_skipn l s : prefixb l s = true -> s = l ++ skipn (length l) s.
Proof. intros H. apply prefixb_iff in H as [r ->]. rewrite skipn_app, skipn_all, Nat.sub_diag. reflexivity. Qed.

Definition or_nl (p q : str) : Prop := p = q \/ p = q ++ [10%N].

Lemma rmatch_sound ps tail : forall s vs, rmatch (rx_of (ps, tail)) s = Some vs ->
  suits (ps, tail) vs /\ or_nl s (filled (ps, tail) vs).
Proof.
  unfold rx_of, suits, filled. cbn [fst snd]. induction ps as [|[[l n] c] ps IH]; intros s vs.
  - cbn [flat_map app rmatch]. destruct (prefixb tail s) eqn:E; [|discriminate].
    intros H. apply prefixb_skipn in E. set (r := skipn (length tail) s) in *. clearbody r.
    destruct r as [|x [|y r]]; [| |discriminate].
    + injection H as <-. split; [constructor|]. left. rewrite E. now rewrite app_nil_r.
    + destruct (N.eqb_spec x 10) as [->|]; [|discriminate]. injection H as <-. split; [constructor|]. right. exact E.
  - cbn [flat_map fst snd app rmatch]. destruct (prefixb l s) eqn:E; [|discriminate].
    apply prefixb_skipn in E. set (r := skipn (length l) s) in *. clearbody r. intros H.
    apply first_some_some in H as (k & Hk & H). apply prefs_spec in Hk as [Hk1 Hk2].
    destruct (rmatch _ (skipn k r)) as [vs'|] eqn:Er; [|discriminate]. injection H as <-.
    destruct (IH _ _ Er) as [H1 H2]. split; [constructor; [cbn; auto|assumption]|].
    cbn [filled_parts]. subst s. rewrite <- (firstn_skipn k r) at 1. rewrite <- !app_assoc.
    destruct H2 as [H2|H2]; rewrite H2; [left; now rewrite <- ?app_assoc|right]. rewrite <- !app_assoc. reflexivity.
Qed.

Lemma firstn_prefix (v r : str) : firstn (length v) (v ++ r) = v.
Proof. rewrite firstn_app, firstn_all, Nat.sub_diag. cbn. apply app_nil_r. Qed.
Lemma skipn_prefix (v r : str) : skipn (length v) (v ++ r) = r.
Proof. rewrite skipn_app, skipn_all, Nat.sub_diag. reflexivity. Qed.

Lemma rmatch_complete ps tail : forall vs s, suits (ps, tail) vs -> or_nl s (filled (ps, tail) vs) ->
  rmatch (rx_of (ps, tail)) s <> None.
Proof.
  unfold rx_of, suits, filled. cbn [fst snd]. induction ps as [|[[l n] c] ps IH]; intros vs s Hs Ho.
  - inversion Hs; subst. cbn [flat_map app rmatch]. cbn [filled_parts app] in Ho. destruct Ho as [-> | ->].
    + assert (prefixb tail tail = true) as -> by (apply prefixb_iff; exists []; now rewrite app_nil_r). rewrite skipn_all. discriminate.
    + assert (prefixb tail (tail ++ [10%N]) = true) as -> by (apply prefixb_iff; eauto). rewrite skipn_prefix. discriminate.
  - inversion Hs as [|? [n' v] ? vs' [Hn Hv] Hs' E1 E2]; subst. cbn [fst snd] in Hn, Hv.
    cbn [flat_map fst snd app rmatch]. cbn [filled_parts] in Ho.
    assert (exists r, s = l ++ v ++ r /\ or_nl r (filled_parts ps vs' ++ tail)) as (r & -> & Hr).
    { destruct Ho as [-> | ->].
      - exists (filled_parts ps vs' ++ tail). split; [now rewrite <- !app_assoc|now left].
      - exists ((filled_parts ps vs' ++ tail) ++ [10%N]). split; [now rewrite <- !app_assoc|now right]. }
    assert (prefixb l (l ++ v ++ r) = true) as -> by (apply prefixb_iff; eauto). rewrite skipn_prefix.
    apply (first_some_none _ _ (length v)).
    + apply prefs_spec. rewrite firstn_prefix, app_length. split; [lia|assumption].
    + rewrite skipn_prefix. specialize (IH vs' r Hs' Hr). destruct (rmatch _ r); [discriminate|congruence].
Qed.

(** * Compiling a written template *)
Lemma param_at_plain c r : is_open c = false -> param_at (c :: r) = None.
Proof. intros H. cbn [param_at]. now rewrite H. Qed.

Lemma ident_app n c r : is_ident n -> is_word c = false -> ident (n ++ c :: r) = Some (n, c :: r).
Proof.
  destruct n as [|x n]; intros H Hc; [destruct H|]. destruct H as [H1 H2]. cbn [app ident]. rewrite H1.
  now rewrite span_app.
Qed.
Lemma conv_name_ident c : is_ident (conv_name c).
Proof. destruct c; (split; [reflexivity|]; intros x Hx; vm_compute in Hx; decompose [or] Hx; subst; try reflexivity; contradiction). Qed.

Lemma param_at_written n c r : is_ident n ->
  param_at (u "{" ++ n ++ u ":" ++ conv_name c ++ u "}" ++ r) = Some (n, conv_name c, r).
Proof.
  intros Hn. change (u "{") with [123%N]. change (u ":") with [58%N]. change (u "}") with [125%N]. cbn [app].
  cbn [param_at]. change (is_open 123) with true. cbv iota.
  rewrite (ident_app n 58) by (auto; reflexivity). change (is_close 58) with false. cbv iota.
  change ((58 =? 58)%N) with true. cbv iota.
  rewrite (ident_app (conv_name c) 125) by (reflexivity || apply conv_name_ident). reflexivity.
Qed.

Lemma scan_plain l : forall f lit s, plain l -> scan (length l + f) lit (l ++ s) = scan f (lit ++ l) s.
Proof.
  induction l as [|c l IH]; intros f lit s H; [cbn; now rewrite app_nil_r|].
  cbn [length app]. rewrite Nat.add_succ_l. cbn [scan].
  rewrite param_at_plain by (specialize (H c (or_introl eq_refl)); now apply negb_true_iff in H).
  rewrite IH by (intros x Hx; apply H; now right). now rewrite <- app_assoc.
Qed.

Lemma scan_written ps tail : forall f lit,
  (forall l n c, In (l, n, c) ps -> plain l /\ is_ident n) -> plain tail ->
  length (written_parts ps ++ tail) < f ->
  scan f lit (written_parts ps ++ tail) =
  match ps with
  | [] => ([], lit ++ tail)
  | (l, n, c) :: ps' => ((lit ++ l, n, conv_name c) :: map (fun p => (fst (fst p), snd (fst p), conv_name (snd p))) ps', tail)
  end.
Proof.
  induction ps as [|[[l n] c] ps IH]; intros f lit Hw Ht Hf.
  - cbn [written_parts app]. cbn [written_parts app] in Hf.
    replace f with (length tail + S (f - length tail - 1)) by lia. 
    pose proof (scan_plain tail (S (f - length tail - 1)) lit [] Ht) as E. rewrite app_nil_r in E. rewrite E. reflexivity.
  - cbn [written_parts]. destruct (Hw l n c (or_introl eq_refl)) as [Hl Hn].
    cbn [written_parts] in Hf. rewrite <- !app_assoc in Hf |- *. rewrite app_length in Hf.
    replace f with (length l + S (f - length l - 1)) by lia. rewrite scan_plain by assumption.
    cbn [scan]. rewrite param_at_written by assumption.
    rewrite !app_length in Hf. rewrite IH; [|intros l0 n0 c0 Hin; apply (Hw l0 n0 c0); now right|assumption|rewrite app_length; change (length (u "{")) with 1 in Hf; lia].
    destruct ps as [|[[l2 n2] c2] ps]; reflexivity.
Qed.

Lemma close_not_word e : is_close e = true -> is_word e = false.
Proof. unfold is_close. rewrite orb_true_iff, !N.eqb_eq. intros [-> | ->]; reflexivity. Qed.
Lemma close_not_colon e : is_close e = true -> (e =? 58)%N = false.
Proof. unfold is_close. rewrite orb_true_iff, !N.eqb_eq. intros [-> | ->]; reflexivity. Qed.

Lemma param_at_typed n c o e r : is_ident n -> is_open o = true -> is_close e = true ->
  param_at ([o] ++ n ++ u ":" ++ conv_name c ++ [e] ++ r) = Some (n, conv_name c, r).
Proof.
  intros Hn Ho He. change (u ":") with [58%N]. cbn [app param_at]. rewrite Ho.
  rewrite (ident_app n 58) by (auto; reflexivity). change (is_close 58) with false. cbv iota.
  change ((58 =? 58)%N) with true. cbv iota.
  rewrite (ident_app (conv_name c) e) by (apply conv_name_ident || now apply close_not_word). now rewrite He.
Qed.
Lemma param_at_untyped n o e r : is_ident n -> is_open o = true -> is_close e = true ->
  param_at ([o] ++ n ++ [e] ++ r) = Some (n, conv_name CStr, r).
Proof.
  intros Hn Ho He. cbn [app param_at]. rewrite Ho.
  rewrite (ident_app n e) by (auto; now apply close_not_word). now rewrite He.
Qed.

Lemma scan_spelled ps w : spelled_parts ps w -> forall tail f lit,
  (forall l n c, In (l, n, c) ps -> plain l /\ is_ident n) -> plain tail ->
  length (w ++ tail) < f ->
  scan f lit (w ++ tail) =
  match ps with
  | [] => ([], lit ++ tail)
  | (l, n, c) :: ps' => ((lit ++ l, n, conv_name c) :: map (fun p => (fst (fst p), snd (fst p), conv_name (snd p))) ps', tail)
  end.
Proof.
  induction 1 as [|l n c ps o e s Ho He Hs IH|l n ps o e s Ho He Hs IH]; intros tail f lit Hw Ht Hf.
  - cbn [app] in *. replace f with (length tail + S (f - length tail - 1)) by lia.
    pose proof (scan_plain tail (S (f - length tail - 1)) lit [] Ht) as E. rewrite app_nil_r in E. rewrite E. reflexivity.
  - destruct (Hw l n c (or_introl eq_refl)) as [Hl Hn].
    rewrite <- !app_assoc in Hf |- *. rewrite app_length in Hf.
    replace f with (length l + S (f - length l - 1)) by lia. rewrite scan_plain by assumption.
    cbn [scan]. rewrite param_at_typed by assumption.
    rewrite !app_length in Hf. rewrite IH; [|intros l0 n0 c0 Hin; apply (Hw l0 n0 c0); now right|assumption|rewrite app_length; cbn [length] in Hf; lia].
    destruct ps as [|[[l2 n2] c2] ps]; reflexivity.
  - destruct (Hw l n CStr (or_introl eq_refl)) as [Hl Hn].
    rewrite <- !app_assoc in Hf |- *. rewrite app_length in Hf.
    replace f with (length l + S (f - length l - 1)) by lia. rewrite scan_plain by assumption.
    cbn [scan]. rewrite param_at_untyped by assumption.
    rewrite !app_length in Hf. rewrite IH; [|intros l0 n0 c0 Hin; apply (Hw l0 n0 c0); now right|assumption|rewrite app_length; cbn [length] in Hf; lia].
    destruct ps as [|[[l2 n2] c2] ps]; reflexivity.
Qed.

Lemma compile_spelled t s :
  (forall l n c, In (l, n, c) (fst t) -> plain l /\ is_ident n) -> plain (snd t) ->
  (exists q, written t = slash :: q) -> spelled t s ->
  compile_path s = compile_path (written t).
Proof.
  intros H1 H2 (q & H3) (w & Hw & ->). destruct t as [ps tail]. cbn [fst snd] in *.
  assert (prefixb [slash] (w ++ tail) = true) as P.
  { unfold written in H3. cbn [fst snd] in H3. destruct Hw as [|l n c ps o e s Ho He|l n ps o e s Ho He].
    - cbn in H3. cbn. rewrite H3. reflexivity.
    - destruct (H1 l n c (or_introl eq_refl)) as [Hl _]. destruct l as [|x l].
      + cbn in H3. discriminate.
      + cbn in H3. injection H3 as -> _. reflexivity.
    - destruct (H1 l n CStr (or_introl eq_refl)) as [Hl _]. destruct l as [|x l].
      + cbn in H3. discriminate.
      + cbn in H3. injection H3 as -> _. reflexivity. }
  unfold compile_path. rewrite P. rewrite H3. cbn [prefixb]. change (N.eqb slash slash) with true. cbn [andb negb].
  rewrite <- H3. unfold finditer, written. cbn [fst snd].
  rewrite (scan_written ps tail) by (auto; cbn; lia). rewrite (scan_spelled ps w Hw) by (auto; cbn; lia). reflexivity.
Qed.

Lemma get_transformer_name c : get_transformer (conv_name c) = Some c.
Proof. destruct c; reflexivity. Qed.

Fixpoint format_parts (ps : list (str * str * conv)) : str :=
  match ps with
  | [] => []
  | (l, n, _) :: ps' => l ++ u "{" ++ n ++ u "}" ++ format_parts ps'
  end.

Lemma dset_new {V} k (v : V) d : ~ In k (dkeys d) -> dset k v d = d ++ [(k, v)].
Proof.
  induction d as [|[k' v'] d IH]; intros H; [reflexivity|]. cbn [dset app].
  destruct (seqb k k') eqn:E; [apply seqb_eq in E; subst; exfalso; apply H; now left|].
  rewrite IH; [reflexivity|]. intros Hin. apply H. now right.
Qed.

Lemma generate_written ps : forall rx fmt cs,
  NoDup (names ps) -> (forall n, In n (names ps) -> ~ In n (dkeys cs)) ->
  generate (map (fun p => (fst (fst p), snd (fst p), conv_name (snd p))) ps) rx fmt cs false =
  Some (rx ++ flat_map (fun p => [RLit (fst (fst p)); RCap (snd (fst p)) (snd p)]) ps,
        fmt ++ format_parts ps, cs ++ convs_of ps, false).
Proof.
  induction ps as [|[[l n] c] ps IH]; intros rx fmt cs Hnd Hk.
  - cbn. now rewrite !app_nil_r.
  - cbn [map fst snd generate]. rewrite get_transformer_name.
    assert (~ In n (dkeys cs)) as Hn by (apply Hk; now left).
    assert (dmem n cs = false) as ->.
    { unfold dmem. destruct (dget n cs) eqn:E; [|reflexivity]. apply dget_Some_In in E. exfalso. apply Hn. apply (in_map fst) in E. exact E. }
    rewrite dset_new by assumption. cbn [orb]. inversion Hnd; subst.
    rewrite IH; [|assumption|].
    + cbn [flat_map fst snd format_parts convs_of map]. rewrite <- !app_assoc. reflexivity.
    + intros x Hx. unfold dkeys. rewrite map_app, in_app_iff. intros [Hin|[<-|[]]]; [|cbn in *; tauto].
      apply (Hk x); [now right|exact Hin].
Qed.

Lemma compile_written t : wf_template t ->
  compile_path (written t) = Compiled (rx_of t) (format_parts (fst t) ++ snd t) (convs_of (fst t)).
Proof.
  destruct t as [ps tail]. intros (H1 & H2 & H3 & (q & H4)). cbn [fst snd] in *.
  unfold compile_path. assert (prefixb [slash] (written (ps, tail)) = true) as -> by (rewrite H4; reflexivity).
  unfold finditer. rewrite (scan_written ps tail) by (auto; cbn; lia).
  cbn [negb].
  destruct ps as [|[[l n] c] ps].
  - reflexivity.
  - cbn [app]. pose proof (generate_written ((l, n, c) :: ps) [] [] [] H3 ltac:(intros ? ? [])) as G.
    match goal with |- context [generate ?a ?b ?c0 ?d ?e] => replace (generate a b c0 d e) with
      (Some (flat_map (fun p => [RLit (fst (fst p)); RCap (snd (fst p)) (snd p)]) ((l, n, c) :: ps),
        format_parts ((l, n, c) :: ps), convs_of ((l, n, c) :: ps), false)) by (symmetry; exact G) end.
    reflexivity.
Qed.

(** * Unambiguous templates have at most one instance per path *)
Lemma delim_unique_run p a x r b y r' : all_in p a -> all_in p b -> p x = false -> p y = false ->
  a ++ x :: r = b ++ y :: r' -> a = b.
Proof.
  revert b. induction a as [|c a IH]; intros b Ha Hb Hx Hy E; destruct b as [|d b]; cbn in E.
  - reflexivity.
  - injection E as -> _. rewrite (Hb d (or_introl eq_refl)) in Hx. discriminate.
  - injection E as -> _. rewrite (Ha y (or_introl eq_refl)) in Hy. discriminate.
  - injection E as -> E. f_equal. eapply IH; eauto; intros z Hz; [apply Ha|apply Hb]; now right.
Qed.

Definition delim_class (c : conv) : N -> bool :=
  match c with CStr => not_slash | CInt => is_digit | CFloat => fun x => (is_digit x || N.eqb x 46)%bool | _ => fun _ => true end.
Lemma in_conv_class c v : c <> CUuid -> c <> CPath -> c <> CDatetime -> in_conv c v -> all_in (delim_class c) v.
Proof.
  destruct c; cbn; intros; try congruence; intros x Hx; try reflexivity.
  - destruct H2 as [_ H2]. unfold not_slash, is_slash. destruct (N.eqb_spec x slash); [subst; tauto|reflexivity].
  - now apply H2.
  - destruct H2 as (i & f & -> & [_ Hi] & Hf). apply in_app_or in Hx as [Hx|Hx].
    + now rewrite (Hi x Hx).
    + destruct Hf as [->|(c & d & -> & Hc & [_ Hd])]; [destruct Hx|]. destruct Hx as [<-|Hx].
      * apply N.eqb_eq in Hc. subst. reflexivity.
      * now rewrite (Hd x Hx).
Qed.
Lemma delims_class c x : c <> CUuid -> delimits c x -> delim_class c x = false.
Proof.
  destruct c; cbn; intros H D; try congruence; try contradiction.
  - subst. reflexivity.
  - destruct D as [-> D]. destruct (N.eqb_spec x 46); [congruence|reflexivity].
Qed.

Lemma delim_unique c v v' x r x' r' : in_conv c v -> in_conv c v' -> delimits c x -> delimits c x' ->
  v ++ x :: r = v' ++ x' :: r' -> v = v'.
Proof.
  intros Hv Hv' Hx Hx' E.
  assert (c <> CUuid -> c <> CPath -> c <> CDatetime -> v = v') as G.
  { intros H1 H2 H3. apply (delim_unique_run (delim_class c) v x r v' x' r');
      auto using in_conv_class, delims_class. }
  destruct c; try contradiction; try (apply G; discriminate).
  apply uuid_len in Hv. apply uuid_len in Hv'.
  apply (f_equal (firstn 36)) in E. rewrite <- Hv in E at 1. rewrite <- Hv' in E. now rewrite !firstn_prefix in E.
Qed.

Lemma instance_unique t : unambiguous t -> forall vs vs' p, instance t vs p -> instance t vs' p -> vs = vs'.
Proof.
  destruct t as [ps tail]. unfold unambiguous, instance, suits, filled. cbn [fst snd].
  induction ps as [|[[l n] c] ps IH]; intros Hd vs vs' p [Hs E] [Hs' E'].
  - inversion Hs; inversion Hs'; reflexivity.
  - inversion Hs as [|? [n1 v] ? vs1 [Hn Hv] Hs1]; subst. inversion Hs' as [|? [n2 v'] ? vs2 [Hn' Hv'] Hs2]; subst.
    cbn [fst snd] in *. subst n1 n2. cbn [filled_parts] in E'. rewrite <- !app_assoc in E'. apply app_inv_head in E'.
    destruct Hd as [Hd Hd'].
    assert (v = v') as ->.
    { destruct ps as [|[[l2 n2] c2] ps].
      - inversion Hs1; inversion Hs2; subst. cbn [filled_parts app] in E'. destruct tail as [|x tail].
        + now rewrite !app_nil_r in E'.
        + exact (delim_unique c v v' x tail x tail Hv Hv' Hd Hd E').
      - inversion Hs1 as [|? [m1 w1] ? ws1 _ _]; subst. inversion Hs2 as [|? [m2 w2] ? ws2 _ _]; subst.
        destruct l2 as [|x l2]; [contradiction|]. cbn [filled_parts app] in E'.
        eapply delim_unique; eauto. }
    apply app_inv_head in E'. f_equal. eapply IH; eauto.
Qed.
