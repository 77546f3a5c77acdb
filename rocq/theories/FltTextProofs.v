(** The decimal texts of [FltModel]. *)
From Coq Require Import QArith Qround Qpower Lqa.
From Verif Require Import PyStr PyStrFacts FltModel FltSpec FltProofs.
Open Scope Z_scope.

Lemma pow10_Z n : Z.of_N (pow10 n) = 10 ^ Z.of_nat n.
Proof. induction n as [|n IH]; [reflexivity|]. cbn [pow10]. rewrite N2Z.inj_mul, IH, Nat2Z.inj_succ, Z.pow_succ_r by lia. reflexivity. Qed.
Lemma digits_val_cat a b : digits_val (a ++ b) = (digits_val a * pow10 (length b) + digits_val b)%N.
Proof. unfold digits_val at 1. rewrite digits_val_app, fold_digits_acc. reflexivity. Qed.
Lemma pad_length n : forall k, length (pad n k) = n.
Proof. induction n as [|n IH]; intros k; [reflexivity|]. cbn [pad]. rewrite app_length, IH. cbn. lia. Qed.
Lemma pad_digits n : forall k, forallb is_digit (pad n k) = true.
Proof.
  induction n as [|n IH]; intros k; [reflexivity|]. cbn [pad]. rewrite forallb_app, IH. cbn. unfold is_digit.
  pose proof (N.mod_lt k 10). lia.
Qed.
Lemma pad_val n : forall k, (k < pow10 n)%N -> digits_val (pad n k) = k.
Proof.
  induction n as [|n IH]; intros k K; cbn [pow10] in K; [cbn; lia|]. cbn [pad]. rewrite digits_val_cat, IH by (apply N.div_lt_upper_bound; lia).
  cbn [length pow10]. unfold digits_val. cbn [fold_left]. pose proof (N.mod_lt k 10). pose proof (N.div_mod k 10). lia.
Qed.
Lemma zeros_val z : forallb (N.eqb 48) z = true -> digits_val z = 0%N.
Proof.
  induction z as [|c z IH]; [reflexivity|]. cbn [forallb]. intros H. apply andb_true_iff in H as [H1 H2]. apply N.eqb_eq in H1 as <-.
  change (48%N :: z) with ([48%N] ++ z). rewrite digits_val_cat, (IH H2). cbn. lia.
Qed.
Lemma no_dot s : forallb is_digit s = true -> ~ In 46%N s.
Proof. intros D I. apply (proj1 (forallb_forall _ _) D) in I. discriminate I. Qed.
Lemma find_dot a b : ~ In 46%N a -> find (u ".") (a ++ 46%N :: b) = Some (length a).
Proof.
  change (u ".") with [46%N]. induction a as [|c a IH]; intros F; [reflexivity|]. cbn [app find prefixb].
  destruct (N.eqb_spec 46 c) as [<-|N]; [destruct F; now left|]. cbn [andb]. rewrite IH; [reflexivity|]. intros I. apply F. now right.
Qed.
Lemma find_no_dot a : ~ In 46%N a -> find (u ".") a = None.
Proof.
  change (u ".") with [46%N]. induction a as [|c a IH]; intros F; [reflexivity|]. cbn [find prefixb].
  destruct (N.eqb_spec 46 c) as [<-|N]; [destruct F; now left|]. cbn [andb]. rewrite IH; [reflexivity|]. intros I. apply F. now right.
Qed.
(** The number of digits with a fraction. *)
Lemma decimal_frac i f : forallb is_digit i = true ->
  (decimal (i ++ 46%N :: f) * inject_Z (10 ^ Z.of_nat (length f)) == inject_Z (Z.of_N (digits_val (i ++ f))))%Q.
Proof.
  intros D. unfold decimal. rewrite (find_dot i f (no_dot i D)).
  replace (firstn (length i) (i ++ 46%N :: f)) with i by (rewrite firstn_app, Nat.sub_diag, firstn_all; cbn; now rewrite app_nil_r).
  replace (skipn (S (length i)) (i ++ 46%N :: f)) with f.
  2:{ change (46%N :: f) with ([46%N] ++ f). rewrite app_assoc, skipn_app, skipn_all2 by (rewrite app_length; cbn; lia).
      rewrite app_length. cbn [length app]. now replace (S (length i) - (length i + 1))%nat with 0%nat by lia. }
  set (w := 10 ^ Z.of_nat (length f)). assert (0 < w) by (apply Z.pow_pos_nonneg; lia).
  unfold Qeq, Qmult, inject_Z. cbn [Qnum Qden]. rewrite Z.mul_1_r, Pos.mul_1_r, Z2Pos.id by assumption. lia.
Qed.
Lemma decimal_int i : forallb is_digit i = true -> decimal i = inject_Z (Z.of_N (digits_val i)).
Proof. intros D. unfold decimal. now rewrite (find_no_dot i (no_dot i D)). Qed.

(** ** Stripping *)
Lemma rstrip_stop p s c w : p c = false -> forallb p w = true -> rstrip_by p (s ++ c :: w) = s ++ [c].
Proof.
  intros C W. change (c :: w) with ([c] ++ w). rewrite app_assoc, rstrip_by_app by exact W. unfold rstrip_by.
  rewrite rev_app_distr. cbn [rev app lstrip_by]. rewrite C. cbn [rev]. now rewrite rev_involutive.
Qed.
Lemma last_digit s : s <> [] -> forallb is_digit s = true -> exists s' c, s = s' ++ [c] /\ is_digit c = true.
Proof.
  intros N D. destruct (exists_last N) as (s' & c & ->). exists s', c. split; [reflexivity|].
  rewrite forallb_app in D. cbn [forallb] in D. apply andb_true_iff in D as [_ D]. now apply andb_true_iff in D as [D _].
Qed.
(** What is left of a number with a fraction when zeros and then the dot are stripped. *)
Lemma strip_shape i f : i <> [] -> forallb is_digit i = true -> forallb is_digit f = true ->
  (exists z, forallb (N.eqb 48) z = true /\ f = z /\ rstrip_by (N.eqb 46) (rstrip_by (N.eqb 48) (i ++ 46%N :: f)) = i) \/
  (exists g z, g <> [] /\ forallb (N.eqb 48) z = true /\ f = g ++ z /\ rstrip_by (N.eqb 46) (rstrip_by (N.eqb 48) (i ++ 46%N :: f)) = i ++ 46%N :: g).
Proof.
  intros NI DI DF. destruct (forallb (N.eqb 48) f) eqn:AZ.
  - left. exists f. split; [exact AZ|]. split; [reflexivity|]. rewrite (rstrip_stop _ i 46%N f eq_refl AZ).
    destruct (last_digit i NI DI) as (i' & c & -> & C). rewrite <- app_assoc. cbn [app].
    apply rstrip_stop; [|reflexivity]. unfold is_digit in C. lia.
  - right. assert (exists g c z, f = g ++ c :: z /\ (48 =? c)%N = false /\ forallb (N.eqb 48) z = true) as (g & c & z & -> & C & Z).
    { clear DF. induction f as [|x f IH]; [discriminate|]. cbn [forallb] in AZ. destruct (forallb (N.eqb 48) f) eqn:A.
      - exists [], x, f. split; [reflexivity|]. split; [|exact A]. now rewrite andb_true_r in AZ.
      - destruct (IH eq_refl) as (g & c & z & -> & C & Z). exists (x :: g), c, z. auto. }
    exists (g ++ [c]), z. split; [now destruct g|]. split; [exact Z|]. split; [now rewrite <- app_assoc|].
    change (i ++ 46%N :: g ++ c :: z) with (i ++ (46%N :: g) ++ c :: z). rewrite app_assoc.
    rewrite (rstrip_stop (N.eqb 48) (i ++ 46%N :: g) c z C Z).
    rewrite (rstrip_stop (N.eqb 46) (i ++ 46%N :: g) c []); [now rewrite <- app_assoc| |reflexivity].
    rewrite forallb_app in DF. cbn [forallb] in DF. unfold is_digit in DF. lia.
Qed.

(** The text of a float that is not negative, and the number it stands for. *)
Definition scaled (m e : Z) : Z := round (inject_Z m * pow2 e * inject_Z (10 ^ 20)).
Lemma scaled_nonneg m e : 0 <= m -> 0 <= scaled m e.
Proof.
  intros M. unfold scaled. destruct (round_near (inject_Z m * pow2 e * inject_Z (10 ^ 20))) as [_ R].
  set (r := round _) in *. pose proof (pow2_pos e) as P.
  assert (0 <= inject_Z m)%Q by (change 0%Q with (inject_Z 0); now rewrite <- Zle_Qle).
  assert (0 < inject_Z (10 ^ 20))%Q by reflexivity.
  assert (0 <= inject_Z m * pow2 e)%Q by nra. assert (0 <= inject_Z m * pow2 e * inject_Z (10 ^ 20))%Q by nra.
  enough (-1 < r) by lia. rewrite Zlt_Qlt. change (inject_Z (-1)) with (- (1))%Q. lra.
Qed.
Lemma write_text m e : 0 <= m -> exists t i f, write (Fin false m e) = Some t /\ t = i ++ f /\ i <> [] /\ forallb is_digit i = true /\
  (f = [] \/ exists g, f = 46%N :: g /\ g <> [] /\ forallb is_digit g = true) /\
  (decimal t * inject_Z (10 ^ 20) == inject_Z (scaled m e))%Q.
Proof.
  intros M. pose proof (scaled_nonneg m e M) as K. unfold write. cbn [andb]. unfold fixed20. fold (scaled m e).
  set (k := scaled m e) in *. set (i := dec (Z.to_N (k / 10 ^ 20))). set (f := pad 20 (Z.to_N (k mod 10 ^ 20))).
  cbn [app]. change (u "." ++ f) with (46%N :: f).
  assert (i <> []) as NI by apply dec_nonnil. assert (forallb is_digit i = true) as DI by apply dec_digits.
  assert (forallb is_digit f = true) as DF by apply pad_digits.
  assert (Z.of_N (digits_val (i ++ f)) = k) as V.
  { rewrite digits_val_cat. unfold i, f. rewrite dec_val, pad_length, pad_val.
    - rewrite N2Z.inj_add, N2Z.inj_mul, pow10_Z, !Z2N.id by (apply Z.mod_pos_bound || apply Z.div_pos; lia).
      change (10 ^ Z.of_nat 20) with (10 ^ 20). pose proof (Z.div_mod k (10 ^ 20)). lia.
    - apply N2Z.inj_lt. rewrite pow10_Z, Z2N.id by (apply Z.mod_pos_bound; lia). apply Z.mod_pos_bound. reflexivity. }
  assert (length f = 20)%nat as LF by apply pad_length.
  destruct (strip_shape i f NI DI DF) as [(z & Z & Ef & ->)|(g & z & NG & Z & Ef & ->)].
  - exists i, i, []. split; [reflexivity|]. rewrite app_nil_r. split; [reflexivity|]. split; [exact NI|]. split; [exact DI|]. split; [now left|].
    rewrite (decimal_int i DI). rewrite <- V, digits_val_cat, LF, Ef, (zeros_val z Z), N.add_0_r, N2Z.inj_mul, inject_Z_mult, pow10_Z.
    reflexivity.
  - exists (i ++ 46%N :: g), i, (46%N :: g). split; [reflexivity|]. split; [reflexivity|]. split; [exact NI|]. split; [exact DI|].
    split. { right. exists g. rewrite Ef, forallb_app in DF. apply andb_true_iff in DF as [DG _]. auto. }
    assert (Z.of_nat (length g) + Z.of_nat (length z) = 20) as LL by (rewrite <- Nat2Z.inj_add, <- app_length, <- Ef, LF; reflexivity).
    rewrite <- V, Ef, app_assoc, digits_val_cat, (zeros_val z Z), N.add_0_r, N2Z.inj_mul, inject_Z_mult, pow10_Z.
    rewrite <- (decimal_frac i g DI). rewrite <- LL, Z.pow_add_r, inject_Z_mult by lia. ring.
Qed.

(** ** The round trip *)
Lemma scaled_near m e x : (x * inject_Z (10 ^ 20) == inject_Z (scaled m e))%Q ->
  (- (1 # 2) <= (inject_Z m * pow2 e - x) * inject_Z (10 ^ 20))%Q /\ ((inject_Z m * pow2 e - x) * inject_Z (10 ^ 20) <= 1 # 2)%Q.
Proof.
  intros X. unfold scaled in X. destruct (round_near (inject_Z m * pow2 e * inject_Z (10 ^ 20))) as [A B]. rewrite <- X in A, B.
  set (y := (inject_Z m * pow2 e)%Q) in *. set (w := inject_Z (10 ^ 20)) in *.
  assert ((y - x) * w == y * w - x * w)%Q as -> by ring. lra.
Qed.
(** Floats that 20 decimals tell from their neighbours, or name exactly. *)
Definition told (m e : Z) : Prop :=
  (2 ^ 52 <= m /\ -65 <= e) \/ exists k, (inject_Z m * pow2 e * inject_Z (10 ^ 20) == inject_Z k)%Q.
Lemma read_write m e t : canonical m e -> told m e -> write (Fin false m e) = Some t -> read t = Fin false m e.
Proof.
  intros C T W. destruct (write_text m e ltac:(destruct C; lia)) as (t' & i & f & W' & _ & _ & _ & _ & X).
  assert (t' = t) as -> by congruence. unfold read. destruct T as [[M E]|(k & K)].
  - destruct C as (M' & E' & _). destruct (scaled_near m e _ X) as [A B].
    assert (pow2 (-67) <= pow2 (e - 2))%Q as P by (apply pow2_le; lia).
    assert (1 # 2 < pow2 (-67) * inject_Z (10 ^ 20))%Q as L by reflexivity.
    assert (0 < inject_Z (10 ^ 20))%Q as PW by reflexivity.
    set (y := (inject_Z m * pow2 e)%Q) in *. set (x := decimal t) in *. set (w := inject_Z (10 ^ 20)) in *. set (p := pow2 (-67)) in *.
    assert (p * w <= pow2 (e - 2) * w)%Q as PL by nra.
    apply nearest_close; try lia; fold y.
    + apply (Qmult_lt_r _ _ w PW). lra.
    + apply (Qmult_lt_r _ _ w PW). lra.
  - apply nearest_exact; [exact C|]. assert (scaled m e = k) as S by (unfold scaled; now apply round_Z). rewrite S, <- K in X.
    assert (~ inject_Z (10 ^ 20) == 0)%Q as NZ by discriminate. apply (Qmult_inj_r _ _ _ NZ). exact X.
Qed.

(** ** In terms of the specification *)
Lemma told_apart_told m e : is_float m e -> told_apart m e -> told m e.
Proof.
  intros (M & E & C) [L|T]; [left|right; exact T]. unfold value in L. change (Qpower 2 e) with (pow2 e) in L.
  change (1 # 8192)%Q with (pow2 (-13)) in L.
  assert (inject_Z m * pow2 e < pow2 (53 + e))%Q as U.
  { rewrite pow2_add. change (pow2 53) with (inject_Z (2 ^ 53)). apply (Qmult_lt_r _ _ (pow2 e) (pow2_pos e)). rewrite <- Zlt_Qlt. lia. }
  assert (-13 < 53 + e) as B by (apply pow2_lt_inv; eapply Qle_lt_trans; eassumption). split; [|lia].
  destruct C as [C|C]; [exact C|lia].
Qed.
Lemma float_roundtrip m e t : is_float m e -> told_apart m e -> write (Fin false m e) = Some t -> read t = Fin false m e.
Proof. intros F T. apply read_write; [exact F|]. now apply told_apart_told. Qed.
Lemma decimal_stands i f : forallb is_digit i = true -> stands_for i f (decimal (match f with [] => i | _ => i ++ 46%N :: f end)).
Proof.
  intros D. unfold stands_for. destruct f as [|c f].
  - rewrite app_nil_r, (decimal_int i D). change (10 ^ Z.of_nat (length [])) with 1. ring.
  - now apply decimal_frac.
Qed.
Lemma stands_nonneg i f x : stands_for i f x -> (0 <= x)%Q.
Proof.
  unfold stands_for. intros S. assert (0 < inject_Z (10 ^ Z.of_nat (length f)))%Q as P.
  { change 0%Q with (inject_Z 0). rewrite <- Zlt_Qlt. apply Z.pow_pos_nonneg; lia. }
  assert (0 <= inject_Z (Z.of_N (digits_val (i ++ f))))%Q as Q. { change 0%Q with (inject_Z 0). rewrite <- Zle_Qle. lia. }
  rewrite <- S in Q. apply (Qmult_le_r 0 x _ P). lra.
Qed.
Lemma nearest_kinds x : (exists m e, nearest x = Fin false m e) \/ nearest x = Inf false.
Proof.
  unfold nearest. destruct (Qnum x =? 0); [eauto|]. destruct (round _ =? 2 ^ 53).
  - destruct (971 <? _); eauto.
  - destruct (971 <? _); eauto.
Qed.
Lemma nearest_huge x : (inject_Z (2 ^ 1024) <= x)%Q -> nearest x = Inf false.
Proof.
  intros H. assert (0 < x)%Q as P by (eapply Qlt_le_trans; [|exact H]; reflexivity).
  destruct (flog_spec x P) as [_ F]. assert (1024 < flog x + 1) as L.
  { apply pow2_lt_inv. rewrite (pow2_Z 1024) by lia. eapply Qle_lt_trans; eassumption. }
  unfold nearest. rewrite (pos_num x P). set (e := Z.max (-1074) (flog x - 52)). assert (971 < e) by lia.
  destruct (round _ =? 2 ^ 53); [assert ((971 <? e + 1) = true) as -> by lia|assert ((971 <? e) = true) as -> by lia]; reflexivity.
Qed.
(** Below the largest float the reading is finite. *)
Lemma nearest_finite x : (0 <= x)%Q -> (x <= inject_Z ((2 ^ 53 - 1) * 2 ^ 971))%Q -> nearest x <> Inf false.
Proof.
  intros PX H. unfold nearest. destruct (Qnum x =? 0) eqn:Z0; [discriminate|].
  assert (0 < x)%Q as P. { unfold Qle in PX. unfold Qlt. cbn in *. lia. }
  destruct (flog_spec x P) as [F1 F2]. set (e := Z.max (-1074) (flog x - 52)).
  assert (flog x <= 1023) as L.
  { enough (flog x < 1024) by lia. apply pow2_lt_inv. eapply Qle_lt_trans; [exact F1|]. eapply Qle_lt_trans; [exact H|].
    rewrite (pow2_Z 1024) by lia. rewrite <- Zlt_Qlt. reflexivity. }
  destruct (Z.eqb_spec (round (x / pow2 e)) (2 ^ 53)) as [R|R].
  2:{ assert ((971 <? e) = false) as -> by lia. discriminate. }
  assert ((971 <? e + 1) = false) as ->; [|discriminate].
  destruct (Z.eq_dec e 971) as [E|]; [|lia]. exfalso. rewrite E in R.
  destruct (round_near (x / pow2 971)) as [R1 _]. rewrite R in R1.
  assert (x / pow2 971 <= inject_Z (2 ^ 53 - 1))%Q as B.
  { apply (Qmult_le_r _ _ (pow2 971) (pow2_pos 971)). rewrite inject_Z_mult in H. rewrite (pow2_Z 971) by lia.
    assert (x / inject_Z (2 ^ 971) * inject_Z (2 ^ 971) == x)%Q as -> by (field; discriminate). exact H. }
  set (y := (x / pow2 971)%Q) in *. change (inject_Z (2 ^ 53 - 1)) with (inject_Z (2 ^ 53) - 1)%Q in B. lra.
Qed.
