From Verif Require Import PyStr PyStrFacts RangesModel RangesSpec.
From Coq Require Import ZifyBool ZifyNat ZifyN.
Open Scope Z_scope.

(** ** list facts about the specification predicates *)
Lemma ascending_snoc l r :
  ascending (l ++ [r]) <-> ascending l /\ (forall x, In x l -> r_stop x < r_start r).
Proof.
  induction l as [|a l IH]; cbn.
  - split; [intros _; split; [constructor|intros x []]|].
    intros _. constructor; [intros x []|constructor].
  - split.
    + intros H. inversion H as [|r0 rs Hh Ht]; subst. apply IH in Ht as [Ht1 Ht2].
      split; [constructor; [|assumption]|].
      * intros x Hx. apply Hh, in_app_iff. now left.
      * intros x [<-|Hx]; [|auto]. apply Hh, in_app_iff. right; now left.
    + intros [H Hr]. inversion H as [|r0 rs Hh Ht]; subst. constructor.
      * intros x Hx. apply in_app_iff in Hx as [Hx|[<-|[]]]; auto.
      * apply IH. split; auto.
Qed.

Lemma separated_snoc l r :
  separated (l ++ [r]) <-> separated l /\ (forall x, In x l -> r_stop x + 1 < r_start r).
Proof.
  induction l as [|a l IH]; cbn.
  - split; [intros _; split; [constructor|intros x []]|].
    intros _. constructor; [intros x []|constructor].
  - split.
    + intros H. inversion H as [|r0 rs Hh Ht]; subst. apply IH in Ht as [Ht1 Ht2].
      split; [constructor; [|assumption]|].
      * intros x Hx. apply Hh, in_app_iff. now left.
      * intros x [<-|Hx]; [|auto]. apply Hh, in_app_iff. right; now left.
    + intros [H Hr]. inversion H as [|r0 rs Hh Ht]; subst. constructor.
      * intros x Hx. apply in_app_iff in Hx as [Hx|[<-|[]]]; auto.
      * apply IH. split; auto.
Qed.

Lemma covers_app l1 l2 b : covers (l1 ++ l2) b <-> covers l1 b \/ covers l2 b.
Proof.
  unfold covers. split.
  - intros (r & Hr & Hb). apply in_app_iff in Hr as [Hr|Hr]; [left|right]; eauto.
  - intros [(r & Hr & Hb)|(r & Hr & Hb)]; exists r; rewrite in_app_iff; auto.
Qed.

Lemma covers_one r b : covers [r] b <-> r_start r <= b <= r_stop r.
Proof.
  unfold covers. split; [intros (x & [<-|[]] & H); exact H|]. intros H. exists r. cbn. auto.
Qed.

Lemma covers_nil b : covers [] b <-> False.
Proof. unfold covers. split; [intros (r & [] & _)|intros []]. Qed.

(** ** counting bytes *)
Fixpoint zseq (a : Z) (n : nat) : list Z :=
  match n with O => [] | S m => a :: zseq (a + 1) m end.
Lemma zseq_In a n b : In b (zseq a n) <-> a <= b < a + Z.of_nat n.
Proof. revert a; induction n as [|n IH]; intros a; cbn; [lia|]. rewrite IH. lia. Qed.
Lemma zseq_NoDup a n : NoDup (zseq a n).
Proof.
  revert a; induction n as [|n IH]; intros a; cbn; constructor; auto. rewrite zseq_In. lia.
Qed.
Lemma zseq_length a n : length (zseq a n) = n.
Proof. revert a; induction n as [|n IH]; intros a; cbn; auto. Qed.

Fixpoint sum_len (rs : list range) : Z :=
  match rs with [] => 0 | r :: rs' => range_len r + sum_len rs' end.
Lemma sum_len_app l1 l2 : sum_len (l1 ++ l2) = sum_len l1 + sum_len l2.
Proof.
  induction l1 as [|r l IH]; cbn; [reflexivity|]. rewrite IH. lia.
Qed.

Definition proper (r : range) : Prop := r_start r <= r_stop r.

Lemma ascending_byte_count rs :
  ascending rs -> (forall r, In r rs -> proper r) -> byte_count rs (sum_len rs).
Proof.
  induction 1 as [|r rs Hh Ht IH]; intros Hp.
  - exists []. repeat split; try constructor; cbn; try tauto. apply covers_nil.
  - destruct IH as (l & Hnd & Hin & Hlen); [intros; apply Hp; now right|].
    assert (proper r) as Hpr by (apply Hp; now left). unfold proper in Hpr.
    exists (zseq (r_start r) (Z.to_nat (range_len r)) ++ l). unfold range_len in *.
    repeat split.
    + revert Hnd Hin. generalize l. intros l' Hnd Hin.
      assert (forall x, In x (zseq (r_start r) (Z.to_nat (r_stop r - r_start r + 1))) -> ~ In x l') as Hd.
      { intros x Hx Hx'. apply Hin in Hx' as (r' & Hr' & Hb).
        apply zseq_In in Hx. specialize (Hh r' Hr'). lia. }
      clear Hin. pose proof (zseq_NoDup (r_start r) (Z.to_nat (r_stop r - r_start r + 1))) as Hz.
      induction Hz as [|x z Hx Hz IHz]; [exact Hnd|]. cbn. constructor.
      * rewrite in_app_iff. intros [H|H]; [auto|]. exact (Hd x (or_introl eq_refl) H).
      * apply IHz. intros y Hy. apply Hd. now right.
    + intros H. apply in_app_iff in H as [H|H].
      * apply zseq_In in H. exists r. split; [now left|]. lia.
      * apply Hin in H as (r' & Hr' & Hb). exists r'. split; [now right|assumption].
    + intros (r' & [<-|Hr'] & Hb); apply in_app_iff.
      * left. apply zseq_In. lia.
      * right. apply Hin. exists r'. auto.
    + cbn [sum_len]. rewrite app_length, zseq_length, <- Hlen. unfold range_len. lia.
Qed.

(** ** one range text *)
Lemma parse_range_intern_denotes t max r : parse_range_intern t max = Some r -> denotes max t r.
Proof.
  unfold parse_range_intern. set (s := strip t).
  destruct (prefixb (u "-") s) eqn:Hp.
  - destruct (int_parse s) as [v|] eqn:Hi; cbn; [|discriminate].
    intros E; injection E as <-. replace (max + v) with (max - (- v)) by lia.
    apply prefixb_iff in Hp as (y & Hy). apply (den_suffix _ _ y); [exact Hy|].
    fold s. rewrite Hi. f_equal. lia.
  - destruct (suffixb (u "-") s) eqn:Hs.
    + apply suffixb_iff in Hs as (x & Hx). change (u "-") with [45%N] in Hx.
      rewrite Hx, removelast_last.
      destruct (int_parse x) as [v|] eqn:Hi; cbn; [|discriminate].
      intros E; injection E as <-. now apply (den_open _ _ x).
    + destruct (rsplit1 45 s) as [[x y]|] eqn:Hr.
      * destruct (int_parse x) as [a|] eqn:Ha; [|discriminate].
        destruct (int_parse y) as [b|] eqn:Hb; [|discriminate].
        intros E; injection E as <-.
        unfold rsplit1 in Hr. destruct (split1 45 (rev s)) as [[p q]|] eqn:Hq; [|discriminate].
        injection Hr as <- <-. apply split1_some in Hq as [Hq Hn].
        apply (den_closed _ _ (rev q) (rev p)); auto.
        -- fold s. rewrite <- (rev_involutive s), Hq, rev_app_distr. cbn.
           rewrite <- app_assoc. reflexivity.
        -- now rewrite <- in_rev.
      * apply rsplit1_none in Hr. destruct (int_parse s) as [a|] eqn:Ha; [|discriminate].
        intros E; injection E as <-. now apply den_single.
Qed.

Lemma parse_range_val t max r : parse_range t max = RangeVal r ->
  denotes max t r /\ satisfiable max r.
Proof.
  unfold parse_range, satisfiable. destruct (parse_range_intern t max) as [rv|] eqn:E; [|discriminate].
  destruct (Z.ltb_spec (r_stop rv) (r_start rv)); [discriminate|].
  destruct (Z.ltb_spec (r_start rv) 0); [discriminate|].
  destruct (Z.ltb_spec max (r_start rv)); [discriminate|].
  destruct (Z.ltb_spec max (r_stop rv)); [discriminate|]. cbn.
  intros E'; injection E' as <-. split; [now apply parse_range_intern_denotes|lia].
Qed.

Lemma digit_not_dash c : is_digit c = true -> c <> 45%N.
Proof. unfold is_digit. lia. Qed.

Lemma dec_no_char n c : is_digit c = false -> ~ In c (dec n).
Proof.
  intros H Hin. pose proof (forallb_In _ _ _ (dec_digits n) Hin). congruence.
Qed.

Lemma is_space_dash : is_space 45 = false. Proof. reflexivity. Qed.

Lemma strip_dec_hd n (s : str) :
  match rev (dec n ++ s) with c :: _ => is_space c = false | [] => True end ->
  strip (dec n ++ s) = dec n ++ s.
Proof.
  intros H. apply strip_by_id; [|exact H].
  destruct (dec_hd n) as (c & t & -> & Hc). cbn. now apply is_digit_not_space.
Qed.

Lemma rev_dec_last n : exists c r, rev (dec n) = c :: r /\ is_digit c = true.
Proof.
  pose proof (dec_digits n) as H. rewrite <- forallb_rev in H.
  destruct (rev (dec n)) as [|c r] eqn:E.
  - exfalso. apply (dec_nonnil n). rewrite <- (rev_involutive (dec n)), E. reflexivity.
  - exists c, r. split; [reflexivity|]. cbn in H. now apply andb_true_iff in H.
Qed.

Lemma prefixb_dash_dec n s : prefixb (u "-") (dec n ++ s) = false.
Proof.
  destruct (dec_hd n) as (c & t & -> & Hc). change (u "-") with [45%N]. cbn [app prefixb].
  pose proof (digit_not_dash c Hc). destruct (N.eqb_spec 45 c); [congruence|reflexivity].
Qed.

Lemma suffixb_dash_last s c : c <> 45%N -> suffixb (u "-") (s ++ [c]) = false.
Proof.
  intros H. destruct (suffixb (u "-") (s ++ [c])) eqn:E; [|reflexivity].
  apply suffixb_iff in E as (t & Ht). change (u "-") with [45%N] in Ht.
  apply app_inj_tail in Ht as [_ Ht]. congruence.
Qed.

Lemma parse_range_intern_closed a b max :
  parse_range_intern (render_rspec (Closed a b)) max = Some (mkRange (Z.of_N a) (Z.of_N b)).
Proof.
  unfold parse_range_intern, render_rspec.
  destruct (rev_dec_last b) as (c & r & Hr & Hc).
  assert (dec b = rev r ++ [c]) as Hb by (rewrite <- (rev_involutive (dec b)), Hr; reflexivity).
  rewrite strip_dec_hd.
  2:{ rewrite rev_app_distr, rev_app_distr, Hr. cbn. now apply is_digit_not_space. }
  rewrite prefixb_dash_dec.
  replace (suffixb (u "-") (dec a ++ u "-" ++ dec b)) with false.
  2:{ rewrite Hb, !app_assoc. symmetry. apply suffixb_dash_last. now apply digit_not_dash. }
  change (u "-" ++ dec b) with (45%N :: dec b).
  rewrite rsplit1_app by (apply dec_no_char; reflexivity).
  now rewrite !int_parse_dec0.
Qed.

Lemma parse_range_intern_open a max :
  parse_range_intern (render_rspec (OpenFrom a)) max = Some (mkRange (Z.of_N a) max).
Proof.
  unfold parse_range_intern, render_rspec.
  rewrite strip_dec_hd by (rewrite rev_app_distr; reflexivity).
  rewrite prefixb_dash_dec.
  assert (suffixb (u "-") (dec a ++ u "-") = true) as -> by (apply suffixb_iff; eauto).
  change (u "-") with [45%N]. rewrite removelast_last.
  now rewrite int_parse_dec0.
Qed.

Lemma parse_range_rspec r max : satisfiable max (rspec_range max r) ->
  parse_range (render_rspec r) max = RangeVal (rspec_range max r).
Proof.
  unfold parse_range, satisfiable. intros (H1 & H2 & H3).
  assert (parse_range_intern (render_rspec r) max = Some (rspec_range max r)) as ->.
  { destruct r; [apply parse_range_intern_closed|apply parse_range_intern_open]. }
  destruct (Z.ltb_spec (r_stop (rspec_range max r)) (r_start (rspec_range max r))); [lia|].
  destruct (Z.ltb_spec (r_start (rspec_range max r)) 0); [lia|].
  destruct (Z.ltb_spec max (r_start (rspec_range max r))); [lia|].
  destruct (Z.ltb_spec max (r_stop (rspec_range max r))); [lia|]. reflexivity.
Qed.

(** ** the first loop *)
Record LInv (asc merge : bool) (max : Z) (seen : list range) (size : Z)
    (ranges : list range) (last : option range) : Prop := {
  li_cover : forall b, covers (push_last ranges last) b <-> covers seen b;
  li_ok : forall r, In r (push_last ranges last) -> satisfiable max r;
  li_asc : asc = true -> ascending (push_last ranges last);
  li_sep : asc = true -> merge = true -> separated (push_last ranges last);
  li_size : size = sum_len (push_last ranges last);
  li_last : last = None -> ranges = [] /\ seen = [] }.

Lemma LInv_init asc merge max : LInv asc merge max [] 0 [] None.
Proof.
  constructor; cbn [push_last]; auto; try (intros; constructor; fail); try tauto.
  intros r [].
Qed.

Lemma LInv_step asc merge max seen size ranges last rv :
  LInv asc merge max seen size ranges last -> satisfiable max rv ->
  asc_violation asc last rv = false ->
  match mergeable merge last rv with
  | Some l => LInv asc merge max (seen ++ [rv]) (size + range_len rv) ranges
                (Some (mkRange (r_start l) (r_stop rv)))
  | None => LInv asc merge max (seen ++ [rv]) (size + range_len rv) (push_last ranges last) (Some rv)
  end.
Proof.
  intros [Hcov Hok Hasc Hsep Hsize Hlast] Hs Hv.
  destruct last as [l|]; cbn [mergeable push_last asc_violation] in *.
  2:{ destruct (Hlast eq_refl) as [-> ->]. cbn [push_last app] in *.
      constructor; cbn [push_last app].
      - reflexivity.
      - intros r [<-|[]]. exact Hs.
      - intros _. apply (ascending_snoc [] rv). split; [constructor|intros x []].
      - intros _ _. apply (separated_snoc [] rv). split; [constructor|intros x []].
      - subst size. cbn. lia.
      - discriminate. }
  assert (satisfiable max l) as Hl by (apply Hok, in_app_iff; right; now left).
  destruct (merge && (r_stop l =? r_start rv - 1)) eqn:Hm; cbn [mergeable].
  - apply andb_true_iff in Hm as [-> Hm]. apply Z.eqb_eq in Hm.
    unfold satisfiable in *.
    constructor; cbn [push_last].
    + intros b. rewrite !covers_app, <- Hcov, covers_app, !covers_one. cbn.
      split; [intros [H|H]|intros [[H|H]|H]]; auto; [|right; lia|right; lia].
      destruct (Z_le_gt_dec b (r_stop l)); [left; right; lia|right; lia].
    + intros r Hr. apply in_app_iff in Hr as [Hr|[<-|[]]].
      * apply Hok, in_app_iff. now left.
      * unfold satisfiable. cbn. lia.
    + intros Ha. specialize (Hasc Ha). apply ascending_snoc in Hasc as [H1 H2].
      apply ascending_snoc. split; [assumption|]. exact H2.
    + intros Ha Hmt. specialize (Hsep Ha Hmt). apply separated_snoc in Hsep as [H1 H2].
      apply separated_snoc. split; [assumption|]. exact H2.
    + rewrite sum_len_app in *. cbn in *. unfold range_len in *. cbn. lia.
    + discriminate.
  - constructor; cbn [push_last].
    + intros b. rewrite !covers_app, <- Hcov, covers_app. tauto.
    + intros r Hr. apply in_app_iff in Hr as [Hr|[<-|[]]]; auto.
    + intros Ha. subst asc. cbn in Hv. apply Z.leb_gt in Hv.
      specialize (Hasc eq_refl). apply ascending_snoc. split; [assumption|].
      intros x Hx. apply in_app_iff in Hx as [Hx|[<-|[]]]; [|lia].
      apply ascending_snoc in Hasc as [_ H2]. specialize (H2 x Hx).
      unfold satisfiable in Hl. lia.
    + intros Ha Hmt. subst asc merge. cbn in Hv, Hm. apply Z.leb_gt in Hv. apply Z.eqb_neq in Hm.
      specialize (Hsep eq_refl eq_refl). apply separated_snoc. split; [assumption|].
      intros x Hx. apply in_app_iff in Hx as [Hx|[<-|[]]]; [|lia].
      apply separated_snoc in Hsep as [_ H2]. specialize (H2 x Hx).
      unfold satisfiable in Hl. lia.
    + rewrite sum_len_app. cbn. unfold range_len in *. lia.
    + discriminate.
Qed.

Lemma prv_loop_inv asc merge mr max defs : forall count seen size ranges last size' ranges' last',
  prv_loop asc merge mr max count defs size ranges last = LoopOk size' ranges' last' ->
  LInv asc merge max seen size ranges last ->
  exists rvs, Forall2 (fun t r => parse_range t max = RangeVal r) defs rvs /\
              LInv asc merge max (seen ++ rvs) size' ranges' last' /\
              (forall m, mr = Some m -> defs <> [] -> count + Z.of_nat (length defs) <= m + 1).
Proof.
  induction defs as [|t defs IH]; intros count seen size ranges last size' ranges' last' H Hinv;
    cbn [prv_loop] in H.
  - injection H as <- <- <-. exists []. rewrite app_nil_r.
    split; [constructor|]. split; [exact Hinv|]. intros; congruence.
  - assert (Hcnt : forall m, mr = Some m -> count <= m).
    { intros m ->. destruct (Z.ltb_spec m count); [discriminate|lia]. }
    destruct (match mr with Some m => m <? count | None => false end); [discriminate|].
    destruct (parse_range t max) as [rv| |] eqn:Hp; try discriminate.
    destruct (asc_violation asc last rv) eqn:Hv; [discriminate|].
    destruct (parse_range_val _ _ _ Hp) as [_ Hsat].
    pose proof (LInv_step asc merge max seen size ranges last rv Hinv Hsat Hv) as Hst.
    assert (exists rvs, Forall2 (fun t r => parse_range t max = RangeVal r) defs rvs /\
              LInv asc merge max ((seen ++ [rv]) ++ rvs) size' ranges' last' /\
              (forall m, mr = Some m -> defs <> [] -> (count + 1) + Z.of_nat (length defs) <= m + 1))
      as (rvs & Hf & Hi & Hc).
    { destruct (mergeable merge last rv); exact (IH _ _ _ _ _ _ _ _ H Hst). }
    exists (rv :: rvs). rewrite <- app_assoc in Hi. cbn [app] in Hi.
    split; [constructor; assumption|]. split; [exact Hi|].
    intros m Hm _. specialize (Hcnt m Hm). cbn [length].
    destruct defs as [|t' defs']; [cbn; lia|]. specialize (Hc m Hm ltac:(discriminate)). lia.
Qed.

Lemma split_char_defs_nonnil rest : split_char 44 rest <> [].
Proof. apply split_char_nonnil. Qed.

Lemma proper_of_sat max r : satisfiable max r -> proper r.
Proof. unfold satisfiable, proper. lia. Qed.

(** Arbitrary accepted headers, ascending mode. *)
Lemma asc_accepted hv mv mr merge c :
  parse_range_value (Some hv) mv true mr merge = PrvOk c ->
  exists rest asked,
    (hv = cr_unit c ++ 61%N :: rest \/ (cr_unit c = [] /\ ~ In 61%N hv /\ rest = hv)) /\
    dget (cr_unit c) mv = Some (cr_max c) /\
    Forall2 (denotes (cr_max c)) (split_char 44 rest) asked /\
    (forall b, covers (cr_ranges c) b <-> covers asked b) /\
    ascending (cr_ranges c) /\ (merge = true -> separated (cr_ranges c)) /\
    Forall (satisfiable (cr_max c)) (cr_ranges c) /\
    byte_count (cr_ranges c) (cr_size c) /\
    (forall m, mr = Some m -> Z.of_nat (length asked) <= m).
Proof.
  unfold parse_range_value. destruct hv as [|h0 hv0]; [intros H; discriminate H|].
  cbv beta iota zeta.
  set (hv := h0 :: hv0). clearbody hv. clear h0 hv0.
  match goal with |- context [let '(_, _) := ?e in _] => destruct e as [unit rest] eqn:Hsp end.
  cbv beta iota zeta.
  destruct (dget unit mv) as [max|] eqn:Hd; [|discriminate].
  destruct (prv_loop true merge mr max 1 (split_char 44 rest) 0 [] None) as [| |size ranges last] eqn:Hl;
    try discriminate.
  intros E; injection E as <-. cbn [cr_unit cr_max cr_size cr_ranges].
  destruct (prv_loop_inv _ _ _ _ _ _ _ _ _ _ _ _ _ Hl (LInv_init true merge max)) as (rvs & Hf & Hi & Hc).
  cbn [app] in Hi. destruct Hi as [Hcov Hok Hasc Hsep Hsize Hlast].
  exists rest, rvs. repeat split.
  - destruct (split1 61 hv) as [[x y]|] eqn:E1.
    + injection Hsp as -> ->. left. apply split1_some in E1. tauto.
    + injection Hsp as <- <-. right. apply split1_none in E1. auto.
  - exact Hd.
  - clear -Hf. induction Hf as [|t r ts rs H1 H2 IH]; constructor; auto.
    apply parse_range_val in H1. tauto.
  - apply Hcov.
  - apply Hcov.
  - auto.
  - auto.
  - apply Forall_forall. exact Hok.
  - rewrite Hsize. apply ascending_byte_count; [auto|].
    intros r Hr. eapply proper_of_sat, Hok, Hr.
  - intros m Hm. specialize (Hc m Hm (split_char_defs_nonnil rest)).
    apply Forall2_len in Hf. lia.
Qed.

(** ** completeness for rendered headers *)
Lemma render_header_parts rs :
  rs <> [] -> split1 61 (render_header rs) = Some (u "bytes", join (u ",") (map render_rspec rs)).
Proof.
  intros _. unfold render_header. change (u "bytes=") with (u "bytes" ++ [61%N]).
  rewrite <- app_assoc. cbn [app]. apply split1_app. cbn. intros H.
  repeat (destruct H as [H|H]; [discriminate|]). exact H.
Qed.

Lemma render_rspec_no_comma r : ~ In 44%N (render_rspec r).
Proof.
  assert (Hd : forall n, ~ In 44%N (dec n)) by (intros n; apply dec_no_char; reflexivity).
  assert (Hu : ~ In 44%N (u "-")) by (cbn; intros [H|[]]; discriminate).
  destruct r as [a b|a]; cbn [render_rspec]; rewrite ?in_app_iff.
  - pose proof (Hd a); pose proof (Hd b). tauto.
  - pose proof (Hd a). tauto.
Qed.

Lemma split_rendered rs : rs <> [] ->
  split_char 44 (join (u ",") (map render_rspec rs)) = map render_rspec rs.
Proof.
  intros H. apply (split_char_join 44).
  - destruct rs; [congruence|discriminate].
  - intros w Hw. apply in_map_iff in Hw as (r & <- & _). apply render_rspec_no_comma.
Qed.

Fixpoint chain (prev : option Z) (rvs : list range) : bool :=
  match rvs with
  | [] => true
  | r :: rest => match prev with Some p => p <? r_start r | None => true end && chain (Some (r_stop r)) rest
  end.

Lemma chain_ascending rvs : (forall r, In r rvs -> proper r) ->
  forall p, chain p rvs = true <->
     ascending rvs /\ (forall q, p = Some q -> forall r, In r rvs -> q < r_start r).
Proof.
  intros Hp; induction rvs as [|r rvs IH]; intros p; cbn [chain].
  - split; [intros _; split; [constructor|intros q _ r []]|reflexivity].
  - assert (Hp' : forall x, In x rvs -> proper x) by (intros; apply Hp; now right).
    specialize (IH Hp'). assert (proper r) as Hr by (apply Hp; now left). unfold proper in Hr.
    rewrite andb_true_iff, (IH (Some (r_stop r))). split.
    + intros (H1 & Ha & Hq). split.
      * constructor; [|assumption]. intros x Hx. exact (Hq _ eq_refl x Hx).
      * intros q -> x [<-|Hx]; [now apply Z.ltb_lt|].
        specialize (Hq _ eq_refl x Hx). apply Z.ltb_lt in H1. lia.
    + intros (Ha & Hq). inversion Ha as [|r0 rs Hh Ht]; subst. repeat split; auto.
      * destruct p as [q|]; [|reflexivity]. apply Z.ltb_lt. apply (Hq q eq_refl). now left.
      * intros q E. injection E as <-. exact Hh.
Qed.

Definition over (mr : option Z) (count : Z) : bool :=
  match mr with Some m => m <? count | None => false end.

Lemma prv_loop_complete merge mr max rs : forall count size ranges last,
  (forall r, In r rs -> satisfiable max (rspec_range max r)) ->
  (exists s' r' l', prv_loop true merge mr max count (map render_rspec rs) size ranges last = LoopOk s' r' l') /\
    chain (option_map r_stop last) (map (rspec_range max) rs) = true /\
    over mr (count + Z.of_nat (length rs) - 1) && negb (match rs with [] => true | _ => false end) = false
  \/
  prv_loop true merge mr max count (map render_rspec rs) size ranges last = LoopNone /\
    (chain (option_map r_stop last) (map (rspec_range max) rs) = false \/
     over mr (count + Z.of_nat (length rs) - 1) = true).
Proof.
  induction rs as [|r rs IH]; intros count size ranges last Hs.
  - left. cbn. repeat split; eauto. now rewrite andb_false_r.
  - cbn [map prv_loop]. fold (over mr count).
    destruct (over mr count) eqn:Ho.
    { right. split; [reflexivity|]. right. unfold over in *. destruct mr; [|discriminate].
      cbn [length]. lia. }
    rewrite parse_range_rspec by (apply Hs; now left).
    set (rv := rspec_range max r).
    destruct (asc_violation true last rv) eqn:Hv.
    { right. split; [reflexivity|]. left. destruct last as [l|]; cbn in Hv; [|discriminate].
      cbn [option_map chain]. apply Z.leb_le in Hv.
      fold rv. destruct (Z.ltb_spec (r_stop l) (r_start rv)); [lia|reflexivity]. }
    assert (forall rg la, option_map r_stop la = Some (r_stop rv) ->
      (exists s' r' l', prv_loop true merge mr max (count + 1) (map render_rspec rs)
           (size + range_len rv) rg la = LoopOk s' r' l') /\
        chain (option_map r_stop last) (rv :: map (rspec_range max) rs) = true /\
        over mr (count + Z.of_nat (length (r :: rs)) - 1) && true = false
      \/ prv_loop true merge mr max (count + 1) (map render_rspec rs) (size + range_len rv) rg la = LoopNone /\
        (chain (option_map r_stop last) (rv :: map (rspec_range max) rs) = false \/
         over mr (count + Z.of_nat (length (r :: rs)) - 1) = true)) as Hgen.
    { intros rg la Hla.
      destruct (IH (count + 1) (size + range_len rv) rg la (fun x Hx => Hs x (or_intror Hx)))
        as [(He & Hc & Hov)|(He & Hc)].
      - left. split; [exact He|]. split.
        + cbn [chain]. rewrite Hla in Hc. rewrite Hc, andb_true_r.
          destruct last as [l|]; cbn in *; [|reflexivity].
          apply Z.ltb_lt. apply Z.leb_gt in Hv. lia.
        + rewrite andb_true_r. destruct rs as [|r2 rs2].
          * cbn [length]. unfold over in *. destruct mr; [|reflexivity]. lia.
          * rewrite andb_true_r in Hov. rewrite <- Hov. f_equal. cbn [length]. lia.
      - right. split; [exact He|]. rewrite Hla in Hc. destruct Hc as [Hc|Hc].
        + left. cbn [chain]. rewrite Hc, andb_false_r. reflexivity.
        + right. rewrite <- Hc. f_equal. cbn [length]. lia. }
    cbn [negb].
    destruct (mergeable merge last rv) as [l|] eqn:Hm.
    + apply Hgen. reflexivity.
    + apply Hgen. reflexivity.
Qed.

Lemma asc_rendered rs max mr merge :
  rs <> [] -> (forall r, In r rs -> satisfiable max (rspec_range max r)) ->
  (ascending (map (rspec_range max) rs) /\ (forall m, mr = Some m -> Z.of_nat (length rs) <= m) ->
   exists c, parse_range_value (Some (render_header rs)) (bytes_max max) true mr merge = PrvOk c /\
     (forall b, covers (cr_ranges c) b <-> covers (map (rspec_range max) rs) b) /\
     byte_count (map (rspec_range max) rs) (cr_size c)) /\
  (~ (ascending (map (rspec_range max) rs) /\ (forall m, mr = Some m -> Z.of_nat (length rs) <= m)) ->
   parse_range_value (Some (render_header rs)) (bytes_max max) true mr merge = PrvNone).
Proof.
  intros Hne Hs.
  assert (Hp : forall r, In r (map (rspec_range max) rs) -> proper r).
  { intros r Hr. apply in_map_iff in Hr as (x & <- & Hx). eapply proper_of_sat, Hs, Hx. }
  assert (E : parse_range_value (Some (render_header rs)) (bytes_max max) true mr merge =
    match prv_loop true merge mr max 1 (map render_rspec rs) 0 [] None with
    | LoopNone => PrvNone | LoopNotSatisfiable => PrvNotSatisfiable
    | LoopOk size ranges last => PrvOk (mkCR (u "bytes") max size (push_last ranges last))
    end).
  { unfold parse_range_value.
    destruct (render_header rs) as [|h0 hv0] eqn:E0; [discriminate E0|].
    cbv beta iota zeta. rewrite <- E0.
    rewrite render_header_parts by assumption. unfold bytes_max.
    cbn [dget]. rewrite seqb_refl. rewrite split_rendered by assumption. reflexivity. }
  rewrite E. clear E.
  destruct (prv_loop_complete merge mr max rs 1 0 [] None Hs) as [((s' & r' & l' & He) & Hc & Ho)|(He & Hc)].
  - cbn [option_map] in Hc. apply (chain_ascending _ Hp) in Hc as [Hasc _].
    assert (Hmr : forall m, mr = Some m -> Z.of_nat (length rs) <= m).
    { intros m ->. cbn [over] in Ho. destruct rs; [congruence|]. cbn [negb] in Ho.
      rewrite andb_true_r in Ho. apply Z.ltb_ge in Ho. lia. }
    split; [|intros Hn; exfalso; apply Hn; auto].
    intros _. rewrite He. eexists. split; [reflexivity|]. cbn [cr_ranges cr_size].
    destruct (prv_loop_inv _ _ _ _ _ _ _ _ _ _ _ _ _ He (LInv_init true merge max)) as (rvs & Hf & Hi & _).
    assert (rvs = map (rspec_range max) rs) as ->.
    { clear -Hf Hs. revert rvs Hf. induction rs as [|r rs IH]; intros rvs Hf; inversion Hf; subst; [reflexivity|].
      cbn. f_equal.
      - rewrite parse_range_rspec in H1 by (apply Hs; now left). congruence.
      - apply IH; [intros; apply Hs; now right|assumption]. }
    cbn [app] in Hi. destruct Hi as [Hcov Hok Ha2 Hsep Hsize Hlast].
    split; [exact Hcov|].
    rewrite Hsize. pose proof (ascending_byte_count _ (Ha2 eq_refl) (fun r Hr => proper_of_sat _ _ (Hok r Hr))) as Hb.
    destruct Hb as (l & H1 & H2 & H3). exists l. repeat split; auto.
    + intros Hx. apply Hcov, H2, Hx.
    + intros Hx. apply H2, Hcov, Hx.
  - rewrite He. split; [|reflexivity]. intros [Hasc Hmr]. exfalso. destruct Hc as [Hc|Hc].
    + assert (chain None (map (rspec_range max) rs) = true); [|cbn in Hc; congruence].
      apply (chain_ascending _ Hp). split; [assumption|discriminate].
    + unfold over in Hc. destruct mr as [m|]; [|discriminate].
      specialize (Hmr m eq_refl). lia.
Qed.

(** ** suffix ranges *)
Lemma suffix_intern n max :
  parse_range_intern (45%N :: dec n) max = Some (mkRange (max - Z.of_N n) max).
Proof.
  unfold parse_range_intern.
  assert (strip (45%N :: dec n) = 45%N :: dec n) as ->.
  { apply strip_by_id; [reflexivity|]. destruct (rev_dec_last n) as (c & r & Hr & Hc).
    cbn [rev]. rewrite Hr. cbn. now apply is_digit_not_space. }
  change (prefixb (u "-") (45%N :: dec n)) with true. cbv beta iota.
  rewrite int_parse_neg. cbn [option_map]. do 2 f_equal.
Qed.

Lemma suffix_value n max mr merge asc :
  mr <> Some 0 -> (forall m, mr = Some m -> 0 <= m) -> 0 <= max ->
  parse_range_value (Some (u "bytes=-" ++ dec n)) (bytes_max max) asc mr merge =
  if Z.of_N n <=? max
  then PrvOk (mkCR (u "bytes") max (Z.of_N n + 1) [mkRange (max - Z.of_N n) max])
  else PrvNone.
Proof.
  intros Hmr Hpos Hmax. unfold parse_range_value. cbn [u app].
  change (split1 61 _) with (split1 61 (u "bytes" ++ 61%N :: 45%N :: dec n)).
  rewrite split1_app by (cbn; intros H; repeat (destruct H as [H|H]; [discriminate|]); exact H).
  cbn [dget bytes_max]. rewrite seqb_refl.
  assert (split_char 44 (45%N :: dec n) = [45%N :: dec n]) as ->.
  { apply split_char_free. intros [H|H]; [discriminate|]. revert H. apply dec_no_char. reflexivity. }
  cbn [prv_loop].
  assert (match mr with Some m => m <? 1 | None => false end = false) as ->.
  { destruct mr as [m|]; [|reflexivity]. specialize (Hpos m eq_refl).
    assert (m <> 0) by congruence. lia. }
  unfold parse_range. rewrite suffix_intern. cbn [r_start r_stop].
  destruct (Z.ltb_spec max (max - Z.of_N n)); [lia|].
  destruct (Z.ltb_spec (max - Z.of_N n) 0).
  - destruct (Z.leb_spec (Z.of_N n) max); [lia|reflexivity].
  - destruct (Z.leb_spec (Z.of_N n) max); [|lia].
    destruct (Z.ltb_spec max max); [lia|]. cbn [orb asc_violation mergeable push_last app].
    destruct asc.
    + unfold range_len. cbn [r_start r_stop]. do 2 f_equal. lia.
    + cbn [sort_ranges fold_right insert_range norm_loop r_start r_stop].
      destruct (Z.leb_spec (max - Z.of_N n) max); [|lia].
      cbn [mergeable push_last app]. unfold range_len; cbn [r_start r_stop].
      do 2 f_equal. lia.
Qed.

(** ** unordered mode *)
Lemma insert_range_In r l x : In x (insert_range r l) <-> x = r \/ In x l.
Proof.
  induction l as [|y l IH]; cbn.
  - intuition congruence.
  - destruct (range_leb r y); cbn; [intuition congruence|]. rewrite IH. intuition congruence.
Qed.

Lemma sort_ranges_In l x : In x (sort_ranges l) <-> In x l.
Proof.
  induction l as [|y l IH]; cbn; [tauto|]. rewrite insert_range_In, IH. intuition congruence.
Qed.

Lemma covers_ext l1 l2 b : (forall x, In x l1 <-> In x l2) -> covers l1 b <-> covers l2 b.
Proof. intros H. unfold covers. split; intros (r & Hr & Hb); exists r; split; auto; now apply H. Qed.

Lemma insert_sorted r l : starts_sorted l -> starts_sorted (insert_range r l).
Proof.
  induction 1 as [|y l Hh Ht IH]; cbn.
  - constructor; [intros x []|constructor].
  - destruct (range_leb r y) eqn:E; unfold range_leb in E.
    + constructor; [|now constructor]. intros x [<-|Hx]; [lia|]. specialize (Hh x Hx). lia.
    + constructor; [|assumption]. intros x Hx. apply insert_range_In in Hx as [->|Hx]; [lia|auto].
Qed.

Lemma sort_sorted l : starts_sorted (sort_ranges l).
Proof. induction l as [|r l IH]; cbn; [constructor|]. now apply insert_sorted. Qed.

Lemma starts_sorted_snoc l r :
  starts_sorted l -> (forall x, In x l -> r_start x <= r_start r) -> starts_sorted (l ++ [r]).
Proof.
  induction 1 as [|y l Hh Ht IH]; intros H; cbn.
  - constructor; [intros x []|constructor].
  - constructor.
    + intros x Hx. apply in_app_iff in Hx as [Hx|[<-|[]]]; [auto|]. apply H. now left.
    + apply IH. intros x Hx. apply H. now right.
Qed.

Lemma starts_sorted_snoc_inv l r :
  starts_sorted (l ++ [r]) -> starts_sorted l /\ (forall x, In x l -> r_start x <= r_start r).
Proof.
  induction l as [|y l IH]; cbn; intros H.
  - split; [constructor|intros x []].
  - inversion H as [|r0 rs Hh Ht]; subst. destruct (IH Ht) as [H1 H2]. split.
    + constructor; [|assumption]. intros x Hx. apply Hh, in_app_iff. now left.
    + intros x [<-|Hx]; [|auto]. apply Hh, in_app_iff. right; now left.
Qed.

(** Invariant of the second loop. *)
Record NInv (merge : bool) (max : Z) (seen : list range) (size : Z) (ranges : list range) (last : option range) : Prop := {
  ni_cover : forall b, covers (push_last ranges last) b <-> covers seen b;
  ni_ok : forall r, In r (push_last ranges last) -> satisfiable max r;
  ni_sorted : starts_sorted (push_last ranges last);
  ni_none : last = None -> ranges = [] /\ seen = [];
  ni_disj : (forall s, In s seen -> r_stop s < max) -> ascending (push_last ranges last);
  ni_size : merge = false -> size = sum_len (push_last ranges last) }.

Lemma NInv_init merge max : NInv merge max [] 0 [] None.
Proof.
  constructor; cbn [push_last]; auto; try (intros; constructor; fail); try tauto.
  intros r [].
Qed.

Lemma norm_loop_inv merge max l : forall seen size ranges last size' ranges' last',
  norm_loop merge max l size ranges last = (size', ranges', last') ->
  (forall r, In r l -> satisfiable max r) -> starts_sorted l ->
  (forall la r b, last = Some la -> In r l -> r_start r <= b <= r_stop la -> covers seen b) ->
  NInv merge max seen size ranges last ->
  NInv merge max (seen ++ l) size' ranges' last'.
Proof.
  induction l as [|rv0 l IH]; intros seen size ranges last size' ranges' last' H Hs Hso Hreach Hinv.
  - cbn in H. injection H as <- <- <-. now rewrite app_nil_r.
  - cbn [norm_loop] in H.
    inversion Hso as [|r0 rs0 Hhd Htl]; subst r0 rs0.
    assert (satisfiable max rv0) as Hsat by (apply Hs; now left).
    assert (Hs' : forall r, In r l -> satisfiable max r) by (intros; apply Hs; now right).
    replace (seen ++ rv0 :: l) with ((seen ++ [rv0]) ++ l) by (now rewrite <- app_assoc).
    (* any new last range ending where rv0 ends satisfies the reach condition *)
    assert (Hreach_new : forall la', r_stop la' = r_stop rv0 -> forall la r b, Some la' = Some la -> In r l ->
              r_start r <= b <= r_stop la -> covers (seen ++ [rv0]) b).
    { intros la' Hst la r b E Hr Hb. injection E as <-. apply covers_app. right. apply covers_one.
      specialize (Hhd r Hr). lia. }
    destruct Hinv as [Hcov Hok Hsort Hnone Hdisj Hsize].
    destruct last as [la|].
    2:{ destruct (Hnone eq_refl) as [-> ->].
        destruct (Z.leb_spec (r_start rv0) (r_stop rv0)) as [_|Hbad]; [|unfold satisfiable in Hsat; lia].
        cbn [mergeable push_last app] in H.
        refine (IH _ _ _ _ _ _ _ H Hs' Htl (Hreach_new rv0 eq_refl) _).
        constructor; cbn [push_last app] in *.
        + reflexivity.
        + intros r [<-|[]]; assumption.
        + constructor; [intros x []|constructor].
        + discriminate.
        + intros _. apply (ascending_snoc [] rv0). split; [constructor|intros x []].
        + intros Hm. rewrite (Hsize Hm). cbn. lia. }
    assert (satisfiable max la) as Hsatl by (apply Hok; cbn [push_last]; apply in_app_iff; right; now left).
    assert (Hlap : (forall s, In s seen -> r_stop s < max) -> r_stop la < max).
    { intros Hsm. assert (covers seen (r_stop la)) as (s & Hin & Hb).
      { apply Hcov. cbn [push_last]. apply covers_app. right. apply covers_one.
        unfold satisfiable in Hsatl. lia. }
      specialize (Hsm s Hin). lia. }
    unfold satisfiable in Hsat, Hsatl.
    cbn [push_last] in Hcov, Hok, Hsort, Hdisj, Hsize.
    assert (Hold : forall b, r_start rv0 <= b <= r_stop la -> covers (ranges ++ [la]) b).
    { intros b Hb. apply Hcov. apply (Hreach la rv0 b eq_refl); [now left|exact Hb]. }
    destruct (starts_sorted_snoc_inv _ _ Hsort) as [Hsr Hsl].
    remember (match Some la with
              | Some la => if r_start rv0 <=? r_stop la
                           then mkRange (Z.min (r_stop la + 1) max) (r_stop rv0) else rv0
              | None => rv0 end) as rv eqn:Erv.
    assert (Hrv : r_stop rv = r_stop rv0 /\ r_start rv0 <= r_start rv /\ r_start la <= r_start rv /\
                  (r_stop la < max -> r_stop la < r_start rv) /\
                  r_start rv <= max).
    { rewrite Erv. destruct (Z.leb_spec (r_start rv0) (r_stop la)); cbn [r_start r_stop]; lia. }
    assert (Hnew : forall b, r_start rv0 <= b <= r_stop rv0 -> r_stop la < b -> r_start rv <= b).
    { intros b Hb Hlb. rewrite Erv.
      destruct (Z.leb_spec (r_start rv0) (r_stop la)); cbn [r_start r_stop]; lia. }
    clear Erv. destruct Hrv as (Hr1 & Hr2 & Hr3 & Hr4 & Hr5).
    destruct (Z.leb_spec (r_start rv) (r_stop rv)) as [Hval|Hinval].
    + unfold mergeable in H. destruct (merge && (r_stop la =? r_start rv - 1)) eqn:Hm.
      * apply andb_true_iff in Hm as [-> Hm]. apply Z.eqb_eq in Hm.
        refine (IH _ _ _ _ _ _ _ H Hs' Htl (Hreach_new _ _) _); [exact Hr1|].
        constructor; cbn [push_last].
        -- intros b. rewrite !covers_app, <- Hcov, !covers_app, !covers_one. cbn [r_start r_stop].
           split.
           ++ intros [Hc|Hc]; [tauto|]. destruct (Z_le_gt_dec b (r_stop la)); [left; right; lia|right; lia].
           ++ intros [[Hc|Hc]|Hc]; [tauto|right; lia|].
              destruct (Z_le_gt_dec b (r_stop la)).
              ** assert (covers (ranges ++ [la]) b) as Ho by (apply Hold; lia).
                 rewrite covers_app, covers_one in Ho. destruct Ho as [Ho|Ho]; [tauto|right; lia].
              ** right. lia.
        -- intros r Hr. apply in_app_iff in Hr as [Hr|[<-|[]]].
           ++ apply Hok, in_app_iff. now left.
           ++ unfold satisfiable. cbn. lia.
        -- apply starts_sorted_snoc; [assumption|]. exact Hsl.
        -- discriminate.
        -- intros Hsm. assert (ascending (ranges ++ [la])) as Ha.
           { apply Hdisj. intros s Hin. apply Hsm, in_app_iff. now left. }
           apply ascending_snoc in Ha as [Ha1 Ha2]. apply ascending_snoc. split; [assumption|exact Ha2].
        -- discriminate.
      * refine (IH _ _ _ _ _ _ _ H Hs' Htl (Hreach_new _ Hr1) _).
        constructor; cbn [push_last].
        -- intros b. rewrite !covers_app, <- Hcov, !covers_app, !covers_one. split.
           ++ intros [Hc|Hc]; [tauto|right; lia].
           ++ intros [Hc|Hc]; [tauto|].
              destruct (Z_le_gt_dec b (r_stop la)).
              ** assert (covers (ranges ++ [la]) b) as Ho by (apply Hold; lia).
                 rewrite covers_app, covers_one in Ho. tauto.
              ** right. specialize (Hnew b). lia.
        -- intros r Hr. apply in_app_iff in Hr as [Hr|[<-|[]]]; [auto|].
           unfold satisfiable. lia.
        -- apply starts_sorted_snoc; [assumption|].
           intros x Hx. apply in_app_iff in Hx as [Hx|[<-|[]]]; [|lia]. specialize (Hsl x Hx). lia.
        -- discriminate.
        -- intros Hsm. assert (Hsm' : forall s, In s seen -> r_stop s < max)
             by (intros s Hin; apply Hsm, in_app_iff; now left).
           specialize (Hdisj Hsm'). specialize (Hlap Hsm'). specialize (Hr4 Hlap).
           apply ascending_snoc. split; [assumption|]. intros x Hx.
           apply in_app_iff in Hx as [Hx|[<-|[]]]; [|lia].
           apply ascending_snoc in Hdisj as [_ Hd]. specialize (Hd x Hx). lia.
        -- intros Hmf. rewrite (Hsize Hmf), !sum_len_app. cbn. lia.
    + refine (IH _ _ _ _ _ _ _ H Hs' Htl _ _).
      * intros la' r b E Hr Hb. apply covers_app. left. apply (Hreach la' r b E); [now right|exact Hb].
      * constructor; cbn [push_last]; auto.
        -- intros b. rewrite (covers_app seen), covers_one, <- Hcov. split; [tauto|].
           intros [Hc|Hc]; [assumption|]. apply Hold. lia.
        -- discriminate.
        -- intros Hsm. apply Hdisj. intros s Hin. apply Hsm, in_app_iff. now left.
Qed.

Lemma unordered_accepted hv mv mr merge c :
  parse_range_value (Some hv) mv false mr merge = PrvOk c ->
  exists rest asked,
    (hv = cr_unit c ++ 61%N :: rest \/ (cr_unit c = [] /\ ~ In 61%N hv /\ rest = hv)) /\
    Forall2 (denotes (cr_max c)) (split_char 44 rest) asked /\
    (forall b, covers (cr_ranges c) b <-> covers asked b) /\
    Forall (satisfiable (cr_max c)) (cr_ranges c) /\
    starts_sorted (cr_ranges c) /\
    ((forall r, In r asked -> r_stop r < cr_max c) -> ascending (cr_ranges c) /\
       (merge = false -> byte_count (cr_ranges c) (cr_size c))).
Proof.
  unfold parse_range_value. destruct hv as [|h0 hv0]; [intros H; discriminate H|].
  cbv beta iota zeta.
  set (hv := h0 :: hv0). clearbody hv. clear h0 hv0.
  match goal with |- context [let '(_, _) := ?e in _] => destruct e as [unit rest] eqn:Hsp end.
  cbv beta iota zeta.
  destruct (dget unit mv) as [max|] eqn:Hd; [|discriminate].
  destruct (prv_loop false merge mr max 1 (split_char 44 rest) 0 [] None) as [| |size ranges last] eqn:Hl;
    try discriminate.
  destruct (norm_loop merge max (sort_ranges (push_last ranges last)) 0 [] None) as [[size2 ranges2] last2] eqn:Hn.
  intros E; injection E as <-. cbn [cr_unit cr_max cr_size cr_ranges].
  destruct (prv_loop_inv _ _ _ _ _ _ _ _ _ _ _ _ _ Hl (LInv_init false merge max)) as (rvs & Hf & Hi & Hc).
  cbn [app] in Hi. destruct Hi as [Hcov Hok Hasc Hsep Hsize Hlast].
  assert (Hi2 : NInv merge max ([] ++ sort_ranges (push_last ranges last)) size2 ranges2 last2).
  { refine (norm_loop_inv _ _ _ _ _ _ _ _ _ _ Hn _ (sort_sorted _) _ (NInv_init merge max)).
    - intros r Hr. apply Hok. now apply sort_ranges_In.
    - discriminate. }
  cbn [app] in Hi2. destruct Hi2 as [Hcov2 Hok2 Hsort2 _ Hdisj2 Hsize2].
  assert (Hcv : forall b, covers (push_last ranges2 last2) b <-> covers rvs b).
  { intros b. rewrite Hcov2, <- Hcov. apply covers_ext. intros x. apply sort_ranges_In. }
  exists rest, rvs. repeat split.
  - destruct (split1 61 hv) as [[x y]|] eqn:E1.
    + injection Hsp as -> ->. left. apply split1_some in E1. tauto.
    + injection Hsp as <- <-. right. apply split1_none in E1. auto.
  - clear -Hf. induction Hf as [|t r ts rs H1 H2 IH]; constructor; auto.
    apply parse_range_val in H1. tauto.
  - apply Hcv.
  - apply Hcv.
  - apply Forall_forall. exact Hok2.
  - exact Hsort2.
  - apply Hdisj2. intros s Hin. apply -> sort_ranges_In in Hin.
    specialize (Hok s Hin). unfold satisfiable in Hok.
    assert (covers rvs (r_stop s)) as (r & Hr & Hb).
    { apply Hcov. exists s. split; [assumption|lia]. }
    specialize (H r Hr). lia.
  - intros Hm. rewrite (Hsize2 Hm). apply ascending_byte_count.
    + apply Hdisj2. intros s Hin. apply -> sort_ranges_In in Hin.
      specialize (Hok s Hin). unfold satisfiable in Hok.
      assert (covers rvs (r_stop s)) as (r & Hr & Hb).
      { apply Hcov. exists s. split; [assumption|lia]. }
      specialize (H r Hr). lia.
    + intros r Hr. eapply proper_of_sat, Hok2, Hr.
Qed.
