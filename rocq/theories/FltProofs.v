(** Facts about [FltModel]: rounding, the nearest float, and the decimal texts. *)
From Coq Require Import QArith Qround Qpower Lqa.
From Verif Require Import PyStr PyStrFacts FltModel.
Open Scope Z_scope.

(** ** Powers of two *)
Lemma pow2_add a b : (pow2 (a + b) == pow2 a * pow2 b)%Q.
Proof. apply Qpower_plus. discriminate. Qed.
Lemma pow2_pos e : (0 < pow2 e)%Q.
Proof. apply Qpower_0_lt. reflexivity. Qed.
Lemma pow2_Z n : 0 <= n -> (pow2 n == inject_Z (2 ^ n))%Q.
Proof. intros H. unfold pow2. symmetry. exact (Zpower_Qpower 2 n H). Qed.
Lemma pow2_ge1 n : 0 <= n -> (1 <= pow2 n)%Q.
Proof. intros H. rewrite pow2_Z by exact H. change 1%Q with (inject_Z 1). rewrite <- Zle_Qle. pose proof (Z.pow_pos_nonneg 2 n). lia. Qed.
Lemma pow2_le a b : a <= b -> (pow2 a <= pow2 b)%Q.
Proof.
  intros H. replace b with (a + (b - a)) by lia. rewrite pow2_add. pose proof (pow2_pos a). pose proof (pow2_ge1 (b - a) ltac:(lia)). nra.
Qed.
Lemma pow2_S a : (pow2 (a + 1) == 2 * pow2 a)%Q.
Proof. rewrite pow2_add. change (pow2 1) with (2 # 1)%Q. ring. Qed.
Lemma pow2_lt_inv a b : (pow2 a < pow2 b)%Q -> a < b.
Proof. intros H. destruct (Z_lt_le_dec a b) as [|G]; [assumption|]. apply pow2_le in G. lra. Qed.

(** ** Rounding *)
Lemma round_unique x k : (- (1 # 2) < x - inject_Z k)%Q -> (x - inject_Z k < 1 # 2)%Q -> round x = k.
Proof.
  intros A B. unfold round. pose proof (Qfloor_le x) as L. pose proof (Qlt_floor x) as U.
  rewrite inject_Z_plus in U. change (inject_Z 1) with 1%Q in U.
  assert (Qfloor x = k \/ Qfloor x = k - 1) as F.
  { assert (Qfloor x < k + 1). { rewrite Zlt_Qlt, inject_Z_plus. change (inject_Z 1) with 1%Q. lra. }
    assert (k - 2 < Qfloor x). { rewrite Zlt_Qlt. unfold Z.sub. rewrite inject_Z_plus. change (inject_Z (- (2))) with (- (2))%Q. lra. }
    lia. }
  destruct F as [F|F]; rewrite F in *.
  - assert (((x - inject_Z k)%Q ?= (1 # 2)%Q)%Q = Lt) as ->; [|reflexivity]. apply Qlt_alt. exact B.
  - assert (((x - inject_Z (k - 1))%Q ?= (1 # 2)%Q)%Q = Gt) as ->; [|lia].
    apply Qgt_alt. unfold Z.sub. rewrite inject_Z_plus. change (inject_Z (- (1))) with (- (1))%Q. lra.
Qed.
Lemma round_near x : (- (1 # 2) <= x - inject_Z (round x))%Q /\ (x - inject_Z (round x) <= 1 # 2)%Q.
Proof.
  unfold round. pose proof (Qfloor_le x) as L. pose proof (Qlt_floor x) as U.
  rewrite inject_Z_plus in U. change (inject_Z 1) with 1%Q in U.
  destruct (Qcompare (x - inject_Z (Qfloor x)) (1 # 2)) eqn:E.
  - apply Qeq_alt in E. destruct (Z.even (Qfloor x)); rewrite ?inject_Z_plus; change (inject_Z 1) with 1%Q; lra.
  - apply Qlt_alt in E. lra.
  - apply Qgt_alt in E. rewrite inject_Z_plus. change (inject_Z 1) with 1%Q. lra.
Qed.
Lemma round_Z x k : (x == inject_Z k)%Q -> round x = k.
Proof. intros E. apply round_unique; lra. Qed.
Lemma Qfloor_compat x y : (x == y)%Q -> Qfloor x = Qfloor y.
Proof. intros E. now rewrite E. Qed.
Lemma round_compat x y : (x == y)%Q -> round x = round y.
Proof.
  intros E. unfold round. rewrite (Qfloor_compat x y E).
  assert (Qcompare (x - inject_Z (Qfloor y)) (1 # 2) = Qcompare (y - inject_Z (Qfloor y)) (1 # 2)) as ->; [|reflexivity].
  apply Qcompare_comp; [|reflexivity]. now rewrite E.
Qed.

(** ** The exponent *)
Lemma flog_spec x : (0 < x)%Q -> (pow2 (flog x) <= x)%Q /\ (x < pow2 (flog x + 1))%Q.
Proof.
  intros P. assert (0 < Qnum x) as PN. { unfold Qlt in P. cbn in P. lia. }
  unfold flog. set (a := Z.log2 (Qnum x)). set (b := Z.log2 (Zpos (Qden x))).
  pose proof (Z.log2_spec (Qnum x) PN) as [A1 A2]. pose proof (Z.log2_spec (Zpos (Qden x)) ltac:(lia)) as [B1 B2].
  fold a in A1, A2. fold b in B1, B2. pose proof (Z.log2_nonneg (Qnum x)) as NA. pose proof (Z.log2_nonneg (Zpos (Qden x))) as NB. fold a in NA. fold b in NB.
  assert (x * inject_Z (Zpos (Qden x)) == inject_Z (Qnum x))%Q as X. { unfold Qeq, Qmult, inject_Z. cbn. lia. }
  assert (pow2 (a - b) * pow2 b == pow2 a)%Q as D. { rewrite <- pow2_add. now replace (a - b + b) with a by lia. }
  assert (pow2 a <= inject_Z (Qnum x))%Q as QA1 by (rewrite pow2_Z by lia; now rewrite <- Zle_Qle).
  assert (inject_Z (Qnum x) < 2 * pow2 a)%Q as QA2 by (rewrite <- pow2_S, pow2_Z by lia; now rewrite <- Zlt_Qlt).
  assert (pow2 b <= inject_Z (Zpos (Qden x)))%Q as QB1 by (rewrite pow2_Z by lia; now rewrite <- Zle_Qle).
  assert (inject_Z (Zpos (Qden x)) < 2 * pow2 b)%Q as QB2 by (rewrite <- pow2_S, pow2_Z by lia; now rewrite <- Zlt_Qlt).
  pose proof (pow2_pos b) as PB. pose proof (pow2_pos a) as PA. pose proof (pow2_pos (a - b)) as PD.
  destruct (Qle_bool (pow2 (a - b)) x) eqn:E.
  - apply Qle_bool_iff in E. split; [exact E|]. rewrite pow2_S. nra.
  - assert (x < pow2 (a - b))%Q as L. { apply Qnot_le_lt. intros C. apply Qle_bool_iff in C. congruence. }
    replace (a - b - 1 + 1) with (a - b) by lia. split; [|exact L].
    assert (pow2 (a - b) == 2 * pow2 (a - b - 1))%Q as H. { rewrite <- pow2_S. now replace (a - b - 1 + 1) with (a - b) by lia. }
    pose proof (pow2_pos (a - b - 1)) as PE. nra.
Qed.
Lemma flog_unique x l : (pow2 l <= x)%Q -> (x < pow2 (l + 1))%Q -> flog x = l.
Proof.
  intros A B. pose proof (pow2_pos l). destruct (flog_spec x ltac:(lra)) as [C D].
  assert (l < flog x + 1) by (apply pow2_lt_inv; lra). assert (flog x < l + 1) by (apply pow2_lt_inv; lra). lia.
Qed.

(** ** The nearest float *)
Lemma pos_num x : (0 < x)%Q -> (Qnum x =? 0) = false.
Proof. intros P. unfold Qlt in P. cbn in P. lia. Qed.
(** A number in the middle of the floats with this exponent, or their lower end, is read as the float next to it. *)
Lemma nearest_close x m e : 2 ^ 52 <= m < 2 ^ 53 -> -1074 < e <= 971 ->
  (- pow2 (e - 2) < x - inject_Z m * pow2 e)%Q -> (x - inject_Z m * pow2 e < pow2 (e - 2))%Q -> nearest x = Fin false m e.
Proof.
  intros M E A B. pose proof (pow2_pos (e - 2)) as P. pose proof (pow2_pos e) as P0.
  assert (pow2 e == 4 * pow2 (e - 2))%Q as F4.
  { replace e with (e - 2 + 1 + 1) at 1 by lia. rewrite !pow2_S. ring. }
  assert (inject_Z (2 ^ 52) <= inject_Z m)%Q as M1 by (rewrite <- Zle_Qle; lia).
  assert (inject_Z m <= inject_Z (2 ^ 53) - 1)%Q as M2.
  { setoid_replace (inject_Z (2 ^ 53) - 1)%Q with (inject_Z (2 ^ 53 - 1)) by reflexivity. rewrite <- Zle_Qle. lia. }
  assert (pow2 (e + 52) == inject_Z (2 ^ 52) * pow2 e)%Q as H52 by (rewrite pow2_add; change (pow2 52) with (inject_Z (2 ^ 52)); ring).
  assert (pow2 (e + 52 + 1) == inject_Z (2 ^ 53) * pow2 e)%Q as H53 by (replace (e + 52 + 1) with (e + 53) by lia; rewrite pow2_add; change (pow2 53) with (inject_Z (2 ^ 53)); ring).
  assert (1 <= inject_Z (2 ^ 52))%Q as B52 by (change 1%Q with (inject_Z 1); rewrite <- Zle_Qle; lia).
  assert (inject_Z (2 ^ 53) == 2 * inject_Z (2 ^ 52))%Q as D53 by reflexivity.
  set (c52 := inject_Z (2 ^ 52)) in *. set (c53 := inject_Z (2 ^ 53)) in *. set (q := inject_Z m) in *.
  assert (0 < x)%Q as PX by nra.
  unfold nearest. rewrite pos_num by exact PX.
  destruct (Qlt_le_dec x (pow2 (e + 52))) as [L|G].
  - (* just below the power of two *)
    assert (flog x = e + 51) as ->.
    { apply flog_unique.
      - assert (pow2 (e + 51) == (1 # 2) * pow2 (e + 52))%Q as ->. { replace (e + 52) with (e + 51 + 1) by lia. rewrite pow2_S. ring. } nra.
      - replace (e + 51 + 1) with (e + 52) by lia. exact L. }
    replace (Z.max (-1074) (e + 51 - 52)) with (e - 1) by lia.
    assert (pow2 e == 2 * pow2 (e - 1))%Q as F2 by (rewrite <- pow2_S; now replace (e - 1 + 1) with e by lia).
    pose proof (pow2_pos (e - 1)) as P1.
    assert (m = 2 ^ 52) as Em.
    { destruct (Z.eq_dec m (2 ^ 52)) as [|N]; [assumption|]. exfalso.
      assert (c52 + 1 <= q)%Q. { unfold c52, q. setoid_replace (inject_Z (2 ^ 52) + 1)%Q with (inject_Z (2 ^ 52 + 1)) by reflexivity. rewrite <- Zle_Qle. lia. }
      nra. }
    assert (round (x / pow2 (e - 1)) = 2 ^ 53) as ->.
    { assert (x / pow2 (e - 1) * pow2 (e - 1) == x)%Q as D by (field; lra).
      assert (q == c52)%Q as Q52 by (unfold q, c52; now rewrite Em).
      set (y := (x / pow2 (e - 1))%Q) in *. apply round_unique; fold c53.
      - assert (x > c52 * pow2 e - pow2 (e - 2))%Q as GX by (rewrite <- Q52; lra).
        assert (pow2 (e - 2) == (1 # 2) * pow2 (e - 1))%Q as H2 by lra.
        assert ((c53 - (1 # 2)) * pow2 (e - 1) < y * pow2 (e - 1))%Q by nra.
        assert (c53 - (1 # 2) < y)%Q by (apply (Qmult_lt_r _ _ (pow2 (e - 1))); assumption). lra.
      - assert (y * pow2 (e - 1) < c53 * pow2 (e - 1))%Q by nra.
        assert (y < c53)%Q by (apply (Qmult_lt_r _ _ (pow2 (e - 1))); assumption). lra. }
    rewrite Z.eqb_refl. replace (e - 1 + 1) with e by lia. destruct (971 <? e) eqn:K; [lia|]. now rewrite Em.
  - assert (flog x = e + 52) as ->. { apply flog_unique; [exact G|]. rewrite H53. nra. }
    replace (Z.max (-1074) (e + 52 - 52)) with e by lia.
    assert (round (x / pow2 e) = m) as ->.
    { assert (x / pow2 e * pow2 e == x)%Q as D by (field; lra). set (y := (x / pow2 e)%Q) in *. apply round_unique; fold q.
      - assert ((q - (1 # 4)) * pow2 e < y * pow2 e)%Q by nra.
        assert (q - (1 # 4) < y)%Q by (apply (Qmult_lt_r _ _ (pow2 e)); assumption). lra.
      - assert (y * pow2 e < (q + (1 # 4)) * pow2 e)%Q by nra.
        assert (y < q + (1 # 4))%Q by (apply (Qmult_lt_r _ _ (pow2 e)); assumption). lra. }
    destruct (m =? 2 ^ 53) eqn:K; [lia|]. destruct (971 <? e) eqn:K2; [lia|reflexivity].
Qed.
Lemma nearest_small x m : 0 <= m < 2 ^ 53 -> (x == inject_Z m * pow2 (-1074))%Q -> nearest x = Fin false m (-1074).
Proof.
  intros M X. pose proof (pow2_pos (-1074)) as P. unfold nearest. destruct (Qnum x =? 0) eqn:Z0.
  - assert (x == 0)%Q as X0. { unfold Qeq. cbn. lia. }
    assert (inject_Z m == 0)%Q as I0 by nra. assert (m = 0) as -> by (unfold Qeq, inject_Z in I0; cbn in I0; lia). reflexivity.
  - assert (0 < m) as PM.
    { destruct (Z.eq_dec m 0) as [->|N]; [|lia]. exfalso. assert (x == 0)%Q as X0 by (rewrite X; ring). unfold Qeq in X0. cbn in X0. lia. }
    assert (0 < inject_Z m)%Q as PQ by (change 0%Q with (inject_Z 0); now rewrite <- Zlt_Qlt).
    assert (0 < x)%Q as PX by nra.
    assert (flog x - 52 <= -1074) as L.
    { destruct (flog_spec x PX) as [F _]. enough (flog x < -1021) by lia. apply pow2_lt_inv.
      assert (pow2 (-1021) == inject_Z (2 ^ 53) * pow2 (-1074))%Q as ->.
      { replace (-1021) with (-1074 + 53) by lia. rewrite pow2_add. change (pow2 53) with (inject_Z (2 ^ 53)). ring. }
      assert (inject_Z m < inject_Z (2 ^ 53))%Q by (rewrite <- Zlt_Qlt; lia). nra. }
    rewrite Z.max_l by exact L. rewrite (round_Z (x / pow2 (-1074)) m).
    + destruct (m =? 2 ^ 53) eqn:K; [lia|]. reflexivity.
    + rewrite X. field. lra.
Qed.
(** A float is read from its own value. *)
Definition canonical (m e : Z) : Prop := 0 <= m < 2 ^ 53 /\ -1074 <= e <= 971 /\ (2 ^ 52 <= m \/ e = -1074).
Lemma nearest_exact x m e : canonical m e -> (x == inject_Z m * pow2 e)%Q -> nearest x = Fin false m e.
Proof.
  intros (M & E & C) X. destruct (Z.eq_dec e (-1074)) as [->|N]; [now apply nearest_small|].
  pose proof (pow2_pos (e - 2)). apply nearest_close; try lia; rewrite X; lra.
Qed.
(** What is read is the number, rounded: at most half a unit in the last place off. *)
Lemma nearest_half x m e neg : (0 <= x)%Q -> nearest x = Fin neg m e -> neg = false /\ canonical m e /\
  (- pow2 (e - 1) <= x - inject_Z m * pow2 e)%Q /\ (x - inject_Z m * pow2 e <= pow2 (e - 1))%Q.
Proof.
  intros PX. unfold nearest. destruct (Qnum x =? 0) eqn:Z0.
  { intros H. injection H as <- <- <-. assert (x == 0)%Q as X0. { unfold Qeq. cbn. lia. }
    split; [reflexivity|]. split; [unfold canonical; lia|]. pose proof (pow2_pos (-1074 - 1)).
    change (inject_Z 0) with 0%Q. rewrite X0. generalize dependent (pow2 (-1074 - 1)). generalize (pow2 (-1074)). intros; lra. }
  assert (0 < x)%Q as P. { unfold Qle in PX. unfold Qlt. cbn in *. lia. }
  destruct (flog_spec x P) as [F1 F2]. set (e0 := Z.max (-1074) (flog x - 52)).
  pose proof (pow2_pos e0) as P0. assert (x / pow2 e0 * pow2 e0 == x)%Q as D by (field; lra).
  destruct (round_near (x / pow2 e0)) as [R1 R2]. set (y := (x / pow2 e0)%Q) in *. set (r := round y) in *.
  assert (pow2 e0 == 2 * pow2 (e0 - 1))%Q as H2 by (rewrite <- pow2_S; now replace (e0 - 1 + 1) with e0 by lia).
  pose proof (pow2_pos (e0 - 1)) as P1.
  assert (- pow2 (e0 - 1) <= x - inject_Z r * pow2 e0)%Q as A1 by nra.
  assert (x - inject_Z r * pow2 e0 <= pow2 (e0 - 1))%Q as A2 by nra.
  assert (0 <= y)%Q as PY by nra.
  assert (y < inject_Z (2 ^ 53))%Q as UY.
  { apply (Qmult_lt_r _ _ (pow2 e0)); [exact P0|]. rewrite D. change (inject_Z (2 ^ 53)) with (pow2 53). rewrite <- pow2_add.
    apply Qlt_le_trans with (pow2 (flog x + 1)); [exact F2|]. apply pow2_le. lia. }
  assert (0 <= r <= 2 ^ 53) as RB.
  { split.
    - enough (-1 < r) by lia. rewrite Zlt_Qlt. change (inject_Z (-1)) with (- (1))%Q. lra.
    - enough (r < 2 ^ 53 + 1) by lia. rewrite Zlt_Qlt, inject_Z_plus. change (inject_Z 1) with 1%Q. lra. }
  assert (2 ^ 52 <= r \/ e0 = -1074) as RL.
  { destruct (Z_le_gt_dec (flog x - 52) (-1074)) as [L|G]; [right; unfold e0; lia|]. left.
    assert (e0 = flog x - 52) as Ee by (unfold e0; lia).
    assert (inject_Z (2 ^ 52) <= y)%Q.
    { apply (Qmult_le_r _ _ (pow2 e0)); [exact P0|]. rewrite D. change (inject_Z (2 ^ 52)) with (pow2 52). rewrite <- pow2_add.
      replace (52 + e0) with (flog x) by lia. exact F1. }
    enough (2 ^ 52 - 1 < r) by lia. rewrite Zlt_Qlt. setoid_replace (inject_Z (2 ^ 52 - 1)) with (inject_Z (2 ^ 52) - 1)%Q by reflexivity. lra. }
  assert (-1074 <= e0) by (unfold e0; lia).
  destruct (r =? 2 ^ 53) eqn:K.
  - apply Z.eqb_eq in K. destruct (971 <? e0 + 1) eqn:K2; [discriminate|]. intros H'. injection H' as <- <- <-.
    split; [reflexivity|]. split; [unfold canonical; lia|]. rewrite K in A1, A2.
    assert (inject_Z (2 ^ 52) * pow2 (e0 + 1) == inject_Z (2 ^ 53) * pow2 e0)%Q as ->.
    { rewrite pow2_S. setoid_replace (inject_Z (2 ^ 53)) with (2 * inject_Z (2 ^ 52))%Q by reflexivity. ring. }
    replace (e0 + 1 - 1) with e0 by lia. lra.
  - destruct (971 <? e0) eqn:K2; [discriminate|]. intros H'. injection H' as <- <- <-.
    split; [reflexivity|]. split; [unfold canonical; lia|]. auto.
Qed.
