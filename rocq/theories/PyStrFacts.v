(** Facts about the Python string library of PyStr.v. *)
From Verif Require Import PyStr.
From Coq Require Import ZifyBool ZifyNat ZifyN.
Ltac Zify.zify_post_hook ::= Z.div_mod_to_equations.

Lemma seqb_refl s : seqb s s = true.
Proof. induction s as [|a s IH]; cbn; [reflexivity|]. now rewrite N.eqb_refl, IH. Qed.

Lemma seqb_eq s t : seqb s t = true <-> s = t.
Proof.
  split; [|intros ->; apply seqb_refl].
  revert t; induction s as [|a s IH]; intros [|b t]; cbn; try discriminate; auto.
  intros H. apply andb_true_iff in H as [H1 H2].
  apply N.eqb_eq in H1. f_equal; auto.
Qed.

Lemma seqb_neq s t : seqb s t = false <-> s <> t.
Proof.
  rewrite <- not_true_iff_false, seqb_eq. reflexivity.
Qed.

Lemma seqb_spec s t : reflect (s = t) (seqb s t).
Proof.
  destruct (seqb s t) eqn:E; constructor.
  - now apply seqb_eq.
  - now apply seqb_neq.
Qed.

Lemma seqb_sym s t : seqb s t = seqb t s.
Proof.
  destruct (seqb_spec s t) as [->|H]; [now rewrite seqb_refl|].
  symmetry. apply seqb_neq. auto.
Qed.

Definition str_eq_dec : forall s t : str, {s = t} + {s <> t} := list_eq_dec N.eq_dec.

Lemma smem_In x xs : smem x xs = true <-> In x xs.
Proof.
  unfold smem. rewrite existsb_exists. split.
  - intros (y & Hy & E). apply seqb_eq in E. now subst.
  - intros H. exists x. split; [assumption|apply seqb_refl].
Qed.

Lemma smem_not_In x xs : smem x xs = false <-> ~ In x xs.
Proof. rewrite <- not_true_iff_false, smem_In. reflexivity. Qed.

Lemma cmem_In c s : cmem c s = true <-> In c s.
Proof.
  unfold cmem. rewrite existsb_exists. split.
  - intros (y & Hy & E). apply N.eqb_eq in E. now subst.
  - intros H. exists c. split; [assumption|apply N.eqb_refl].
Qed.

Lemma cmem_not_In c s : cmem c s = false <-> ~ In c s.
Proof. rewrite <- not_true_iff_false, cmem_In. reflexivity. Qed.

Lemma Forall2_len {A B} (R : A -> B -> Prop) l1 l2 : Forall2 R l1 l2 -> length l1 = length l2.
Proof. induction 1; cbn; auto. Qed.

(** ** prefix / suffix *)
Lemma prefixb_iff p s : prefixb p s = true <-> exists t, s = p ++ t.
Proof.
  revert s; induction p as [|a p IH]; intros s; cbn.
  - split; [exists s; reflexivity|reflexivity].
  - destruct s as [|b s].
    + split; [discriminate|intros (t & Ht); discriminate].
    + rewrite andb_true_iff, N.eqb_eq, IH. split.
      * intros (-> & t & ->). now exists t.
      * intros (t & Ht). injection Ht as -> ->. split; [reflexivity|now exists t].
Qed.

Lemma prefixb_app p s : prefixb p (p ++ s) = true.
Proof. apply prefixb_iff. now exists s. Qed.

Lemma prefixb_length p s : prefixb p s = true -> length p <= length s.
Proof. rewrite prefixb_iff. intros (t & ->). rewrite app_length. lia. Qed.

Lemma suffixb_iff p s : suffixb p s = true <-> exists t, s = t ++ p.
Proof.
  unfold suffixb. rewrite prefixb_iff. split.
  - intros (t & Ht). exists (rev t).
    rewrite <- (rev_involutive s), Ht, rev_app_distr, rev_involutive. reflexivity.
  - intros (t & ->). exists (rev t). now rewrite rev_app_distr.
Qed.

(** ** find *)
Lemma find_some p s i : find p s = Some i ->
  s = firstn i s ++ p ++ skipn (i + length p) s /\
  (forall j, j < i -> prefixb p (skipn j s) = false) /\ i + length p <= length s.
Proof.
  revert i; induction s as [|a s IH]; intros i; cbn [find].
  - destruct p; cbn; [|discriminate].
    intros E; injection E as <-. cbn. repeat split; auto; lia.
  - destruct (prefixb p (a :: s)) eqn:Hp.
    + intros E; injection E as <-. apply prefixb_iff in Hp as (t & Ht).
      rewrite Ht. cbn. rewrite skipn_app, skipn_all, Nat.sub_diag. cbn.
      repeat split; auto; [intros; lia|rewrite app_length; lia].
    + destruct (find p s) as [k|] eqn:Hf; cbn; [|discriminate].
      intros E; injection E as <-. destruct (IH k eq_refl) as (H1 & H2 & H3).
      cbn. repeat split.
      * f_equal. exact H1.
      * intros [|j] Hj; cbn; [exact Hp|apply H2; lia].
      * lia.
Qed.

Lemma find_none p s : find p s = None -> forall x y, s <> x ++ p ++ y.
Proof.
  induction s as [|a s IH]; cbn [find].
  - destruct p; cbn; [discriminate|]. intros _ [|? x] y H; discriminate.
  - destruct (prefixb p (a :: s)) eqn:Hp; [discriminate|].
    destruct (find p s); [discriminate|]. intros _ [|b x] y H.
    + cbn in H. rewrite H, prefixb_app in Hp. discriminate.
    + cbn in H. injection H as _ H. exact (IH eq_refl x y H).
Qed.

Lemma find_nil_l s : find [] s = Some 0.
Proof. destruct s; reflexivity. Qed.

(** ** split on a character *)
Lemma split_char_nonnil c s : split_char c s <> [].
Proof.
  destruct s as [|a s]; cbn; [discriminate|].
  destruct (N.eqb a c); [discriminate|].
  destruct (split_char c s); discriminate.
Qed.

Lemma split_char_free c s : ~ In c s -> split_char c s = [s].
Proof.
  induction s as [|a s IH]; cbn; intros H; [reflexivity|].
  destruct (N.eqb_spec a c) as [->|Hne]; [exfalso; apply H; now left|].
  rewrite IH; [reflexivity|]. intro; apply H; now right.
Qed.

Lemma split_char_app c w s : ~ In c w -> split_char c (w ++ c :: s) = w :: split_char c s.
Proof.
  induction w as [|a w IH]; cbn; intros H.
  - now rewrite N.eqb_refl.
  - destruct (N.eqb_spec a c) as [->|Hne]; [exfalso; apply H; now left|].
    rewrite IH; [reflexivity|]. intro; apply H; now right.
Qed.

Lemma split_char_join c (l : list str) :
  l <> [] -> (forall w, In w l -> ~ In c w) -> split_char c (join [c] l) = l.
Proof.
  induction l as [|w l IH]; intros Hne Hf; [congruence|].
  destruct l as [|w' l].
  - cbn [join]. apply split_char_free, Hf. now left.
  - cbn [join app]. cbn [join app] in IH.
    rewrite split_char_app by (apply Hf; now left).
    rewrite IH; [reflexivity|discriminate|]. intros x Hx. apply Hf. now right.
Qed.

Lemma join_split_char c s : join [c] (split_char c s) = s.
Proof.
  induction s as [|a s IH]; [reflexivity|]. cbn [split_char].
  destruct (N.eqb_spec a c) as [->|Hne].
  - pose proof (split_char_nonnil c s).
    destruct (split_char c s) as [|w ws]; [congruence|].
    cbn [join app] in *. f_equal. exact IH.
  - pose proof (split_char_nonnil c s).
    destruct (split_char c s) as [|w ws]; [congruence|].
    destruct ws as [|w2 ws]; cbn [join app] in *; f_equal; exact IH.
Qed.

Lemma split_char_parts_free c s w : In w (split_char c s) -> ~ In c w.
Proof.
  revert w; induction s as [|a s IH]; cbn; intros w.
  - intros [<-|[]] [].
  - destruct (N.eqb_spec a c) as [->|Hne].
    + intros [<-|Hw]; [intros []|now apply IH].
    + pose proof (split_char_nonnil c s).
      destruct (split_char c s) as [|x xs]; [congruence|].
      intros [<-|Hw].
      * intros [<-|Hx]; [congruence|]. revert Hx. apply IH. now left.
      * apply IH. now right.
Qed.

Lemma split1_none c s : split1 c s = None <-> ~ In c s.
Proof.
  induction s as [|a s IH]; cbn; [split; auto|].
  destruct (N.eqb_spec a c) as [->|Hne].
  - split; [discriminate|]. intros H; exfalso; apply H; now left.
  - destruct (split1 c s) as [[x y]|] eqn:E.
    + split; [discriminate|]. intros H. exfalso.
      destruct IH as [_ IH]. enough (Some (x, y) = None) by discriminate.
      apply IH. intro; apply H; now right.
    + split; [|reflexivity]. intros _ [->|Hin]; [congruence|].
      now apply IH in Hin.
Qed.

Lemma split1_some c s x y : split1 c s = Some (x, y) <-> s = x ++ c :: y /\ ~ In c x.
Proof.
  split.
  - revert x y; induction s as [|a s IH]; cbn; [discriminate|]. intros x y.
    destruct (N.eqb_spec a c) as [->|Hne].
    + intros E; injection E as <- <-. split; [reflexivity|intros []].
    + destruct (split1 c s) as [[x' y']|] eqn:E; [|discriminate].
      intros E'; injection E' as <- <-. destruct (IH x' y' eq_refl) as [-> Hn].
      split; [reflexivity|]. intros [->|Hin]; [congruence|auto].
  - intros (-> & Hn). induction x as [|a x IH]; cbn.
    + now rewrite N.eqb_refl.
    + destruct (N.eqb_spec a c) as [->|Hne]; [exfalso; apply Hn; now left|].
      rewrite IH; [reflexivity|]. intro; apply Hn; now right.
Qed.

Lemma split1_app c x y : ~ In c x -> split1 c (x ++ c :: y) = Some (x, y).
Proof. intros H. apply split1_some. auto. Qed.

Lemma rsplit1_none c s : rsplit1 c s = None <-> ~ In c s.
Proof.
  unfold rsplit1. destruct (split1 c (rev s)) as [[x y]|] eqn:E.
  - split; [discriminate|]. intros H. apply split1_some in E as [E _].
    exfalso; apply H. rewrite <- (rev_involutive s), E, <- in_rev.
    apply in_app_iff; right; now left.
  - split; [|reflexivity]. intros _. apply split1_none in E. now rewrite in_rev.
Qed.

Lemma rsplit1_app c x y : ~ In c y -> rsplit1 c (x ++ c :: y) = Some (x, y).
Proof.
  intros H. unfold rsplit1. rewrite rev_app_distr. cbn. rewrite <- app_assoc. cbn.
  rewrite split1_app by (now rewrite <- in_rev). now rewrite !rev_involutive.
Qed.

(** ** strip *)
Lemma lstrip_by_id p s : match s with c :: _ => p c = false | [] => True end -> lstrip_by p s = s.
Proof. destruct s as [|c s]; cbn; [reflexivity|]. now intros ->. Qed.

Lemma lstrip_by_all p s : forallb p s = true -> lstrip_by p s = [].
Proof.
  induction s as [|c s IH]; cbn; [reflexivity|].
  intros H. apply andb_true_iff in H as [-> H]. auto.
Qed.

Lemma lstrip_by_app p w s : forallb p w = true -> lstrip_by p (w ++ s) = lstrip_by p s.
Proof.
  induction w as [|c w IH]; cbn; [reflexivity|].
  intros H. apply andb_true_iff in H as [-> H]. auto.
Qed.

Lemma lstrip_by_decomp p s :
  exists w, s = w ++ lstrip_by p s /\ forallb p w = true /\
            match lstrip_by p s with c :: _ => p c = false | [] => True end.
Proof.
  induction s as [|c s IH]; cbn; [exists []; auto|].
  destruct (p c) eqn:E.
  - destruct IH as (w & Hw & Hp & Hh). exists (c :: w). cbn. rewrite E, <- Hw. auto.
  - exists []. cbn. now rewrite E.
Qed.

Lemma strip_by_id p s :
  match s with c :: _ => p c = false | [] => True end ->
  match rev s with c :: _ => p c = false | [] => True end -> strip_by p s = s.
Proof.
  intros H1 H2. unfold strip_by, rstrip_by. rewrite (lstrip_by_id p s H1).
  rewrite (lstrip_by_id p (rev s) H2). apply rev_involutive.
Qed.

Lemma forallb_rev {A} (p : A -> bool) l : forallb p (rev l) = forallb p l.
Proof.
  induction l as [|a l IH]; cbn; [reflexivity|].
  rewrite forallb_app, IH. cbn. rewrite andb_true_r. apply andb_comm.
Qed.

Lemma rstrip_by_app p w s : forallb p w = true -> rstrip_by p (s ++ w) = rstrip_by p s.
Proof.
  intros H. unfold rstrip_by. rewrite rev_app_distr, lstrip_by_app; [reflexivity|].
  now rewrite forallb_rev.
Qed.

Lemma rstrip_by_decomp p s :
  exists w, s = rstrip_by p s ++ w /\ forallb p w = true /\
            match rev (rstrip_by p s) with c :: _ => p c = false | [] => True end.
Proof.
  destruct (lstrip_by_decomp p (rev s)) as (w & Hw & Hp & Hh).
  exists (rev w). unfold rstrip_by. rewrite forallb_rev. repeat split; auto.
  - rewrite <- rev_app_distr, <- Hw. symmetry; apply rev_involutive.
  - now rewrite rev_involutive.
Qed.

Lemma strip_by_pad p a s b :
  forallb p a = true -> forallb p b = true ->
  match s with c :: _ => p c = false | [] => True end ->
  match rev s with c :: _ => p c = false | [] => True end ->
  strip_by p (a ++ s ++ b) = s.
Proof.
  intros Ha Hb H1 H2. unfold strip_by. rewrite lstrip_by_app by assumption.
  destruct s as [|c s].
  - cbn. rewrite (lstrip_by_all p b Hb). reflexivity.
  - rewrite lstrip_by_id by exact H1. rewrite rstrip_by_app by assumption.
    unfold rstrip_by. rewrite lstrip_by_id by exact H2. apply rev_involutive.
Qed.

(** ** case *)
Lemma lower_c_idem c : lower_c (lower_c c) = lower_c c.
Proof.
  unfold lower_c.
  destruct ((65 <=? c) && (c <=? 90))%N eqn:E; [|now rewrite E].
  destruct ((65 <=? c + 32) && (c + 32 <=? 90))%N eqn:E2; [|reflexivity]. lia.
Qed.

Lemma lower_idem s : lower (lower s) = lower s.
Proof. unfold lower. rewrite map_map. apply map_ext. apply lower_c_idem. Qed.

Lemma upper_c_idem c : upper_c (upper_c c) = upper_c c.
Proof.
  unfold upper_c.
  destruct ((97 <=? c) && (c <=? 122))%N eqn:E; [|now rewrite E].
  destruct ((97 <=? c - 32) && (c - 32 <=? 122))%N eqn:E2; [|reflexivity]. lia.
Qed.

Lemma upper_idem s : upper (upper s) = upper s.
Proof. unfold upper. rewrite map_map. apply map_ext. apply upper_c_idem. Qed.

(** ** decimal numbers *)
Lemma digits_val_app s t acc :
  fold_left (fun acc c => (acc * 10 + (c - 48))%N) (s ++ t) acc =
  fold_left (fun acc c => (acc * 10 + (c - 48))%N) t
    (fold_left (fun acc c => (acc * 10 + (c - 48))%N) s acc).
Proof. apply fold_left_app. Qed.

Fixpoint pow10 (n : nat) : N := match n with O => 1 | S m => 10 * pow10 m end.

Lemma fold_digits_acc s acc :
  fold_left (fun acc c => (acc * 10 + (c - 48))%N) s acc = (acc * pow10 (length s) + digits_val s)%N.
Proof.
  unfold digits_val. revert acc; induction s as [|c s IH]; intros acc; cbn [fold_left length pow10].
  - lia.
  - rewrite IH. rewrite (IH (0 * 10 + (c - 48))%N). lia.
Qed.

Lemma log2_div10 n : (n <> 0 -> n / 10 <> 0 -> N.log2 (n / 10) < N.log2 n)%N.
Proof.
  intros Hn Hd.
  assert (N.log2 (2 * (n / 10)) = N.succ (N.log2 (n / 10)))%N as E by (apply N.log2_double; lia).
  assert (N.log2 (2 * (n / 10)) <= N.log2 n)%N by (apply N.log2_le_mono; lia).
  lia.
Qed.

Lemma dec_aux_val fuel n acc :
  N.to_nat (N.log2 n) < fuel ->
  digits_val (dec_aux fuel n acc) = (n * pow10 (length acc) + digits_val acc)%N.
Proof.
  revert n acc; induction fuel as [|f IH]; intros n acc Hf; [lia|].
  cbn [dec_aux]. destruct (N.eqb_spec (n / 10) 0) as [H0|H0].
  - assert (n mod 10 = n)%N as E by lia. rewrite E.
    unfold digits_val at 1. cbn [fold_left]. rewrite fold_digits_acc. lia.
  - rewrite IH.
    + cbn [length pow10]. unfold digits_val at 1. cbn [fold_left]. rewrite fold_digits_acc.
      assert (n = 10 * (n / 10) + n mod 10)%N by lia.
      generalize dependent (n / 10)%N. generalize dependent (n mod 10)%N. intros m q Hq E.
      subst n. generalize (pow10 (length acc)), (digits_val acc). intros; nia.
    + assert (n <> 0)%N by (intro; subst; cbn in H0; lia).
      pose proof (log2_div10 n). lia.
Qed.

Lemma dec_val n : digits_val (dec n) = n.
Proof. unfold dec. rewrite dec_aux_val by lia. cbn. lia. Qed.

Lemma dec_aux_digits fuel n acc :
  forallb is_digit acc = true -> forallb is_digit (dec_aux fuel n acc) = true.
Proof.
  revert n acc; induction fuel as [|f IH]; intros n acc H; cbn [dec_aux]; [exact H|].
  assert (forallb is_digit ((48 + n mod 10)%N :: acc) = true).
  { cbn. rewrite H, andb_true_r. unfold is_digit. lia. }
  destruct (n / 10 =? 0)%N; auto.
Qed.

Lemma dec_digits n : forallb is_digit (dec n) = true.
Proof. apply dec_aux_digits. reflexivity. Qed.

Lemma dec_aux_nonnil fuel n acc : acc <> [] -> dec_aux fuel n acc <> [].
Proof.
  revert n acc; induction fuel as [|f IH]; intros n acc H; cbn [dec_aux]; [exact H|].
  destruct (n / 10 =? 0)%N; [discriminate|]. apply IH. discriminate.
Qed.

Lemma dec_nonnil n : dec n <> [].
Proof.
  unfold dec. cbn [dec_aux]. destruct (n / 10 =? 0)%N; [discriminate|].
  apply dec_aux_nonnil. discriminate.
Qed.

Lemma dec_inj n m : dec n = dec m -> n = m.
Proof. intros H. rewrite <- (dec_val n), <- (dec_val m). now rewrite H. Qed.

Lemma us_digits_digits s b : forallb is_digit s = true -> (s <> [] \/ b = true) ->
  us_digits b s = Some s.
Proof.
  revert b; induction s as [|c s IH]; intros b H Hne; cbn.
  - destruct Hne as [Hne| ->]; [congruence|reflexivity].
  - cbn in H. apply andb_true_iff in H as [-> H]. rewrite IH; auto.
Qed.

Lemma is_digit_not_space c : is_digit c = true -> is_space c = false.
Proof. unfold is_digit, is_space. lia. Qed.

Lemma is_digit_range c : is_digit c = true <-> (48 <= c <= 57)%N.
Proof. unfold is_digit. lia. Qed.

Lemma forallb_In {A} (p : A -> bool) l x : forallb p l = true -> In x l -> p x = true.
Proof. rewrite forallb_forall. auto. Qed.

Lemma dec_hd n : exists c s, dec n = c :: s /\ is_digit c = true.
Proof.
  pose proof (dec_nonnil n). pose proof (dec_digits n).
  destruct (dec n) as [|c s]; [congruence|]. exists c, s. split; [reflexivity|].
  cbn in *. now apply andb_true_iff in H0.
Qed.

Lemma digits_strip s a b : forallb is_digit s = true ->
  forallb is_space a = true -> forallb is_space b = true -> strip (a ++ s ++ b) = s.
Proof.
  intros Hs Ha Hb. apply strip_by_pad; auto.
  - destruct s as [|c s]; [exact I|]. cbn in Hs. apply andb_true_iff in Hs as [Hc _].
    now apply is_digit_not_space.
  - rewrite <- forallb_rev in Hs. destruct (rev s) as [|c r]; [exact I|].
    cbn in Hs. apply andb_true_iff in Hs as [Hc _]. now apply is_digit_not_space.
Qed.

Lemma int_parse_dec n a b : forallb is_space a = true -> forallb is_space b = true ->
  int_parse (a ++ dec n ++ b) = Some (Z.of_N n).
Proof.
  intros Ha Hb. unfold int_parse. rewrite digits_strip by (auto using dec_digits).
  pose proof (dec_hd n) as (c & s & E & Hc).
  pose proof (us_digits_digits (dec n) false (dec_digits n) (or_introl (dec_nonnil n))) as Hu.
  pose proof (dec_val n) as Hv. rewrite E in *.
  apply is_digit_range in Hc.
  destruct (N.eqb_spec c 45); [lia|]. destruct (N.eqb_spec c 43); [lia|].
  rewrite Hu. cbn [option_map]. now rewrite Hv.
Qed.

Lemma int_parse_dec0 n : int_parse (dec n) = Some (Z.of_N n).
Proof. pose proof (int_parse_dec n [] [] eq_refl eq_refl) as H. cbn in H. now rewrite app_nil_r in H. Qed.

Lemma int_parse_neg n : int_parse (45%N :: dec n) = Some (- Z.of_N n)%Z.
Proof.
  unfold int_parse.
  assert (strip (45%N :: dec n) = 45%N :: dec n) as ->.
  { apply strip_by_id; [reflexivity|].
    pose proof (dec_digits n) as H. pose proof (dec_nonnil n) as Hn.
    cbn [rev]. rewrite <- forallb_rev in H. destruct (rev (dec n)) as [|c r] eqn:E.
    - exfalso. apply Hn. rewrite <- (rev_involutive (dec n)), E. reflexivity.
    - cbn [app]. cbn [forallb] in H. apply andb_true_iff in H as [H _].
      now apply is_digit_not_space. }
  cbn [N.eqb Pos.eqb].
  rewrite (us_digits_digits (dec n) false (dec_digits n) (or_introl (dec_nonnil n))).
  cbn [option_map]. now rewrite dec_val.
Qed.

Lemma int_parse_decz z : int_parse (decz z) = Some z.
Proof.
  destruct z as [|p|p]; cbn [decz].
  - apply (int_parse_dec0 0).
  - apply (int_parse_dec0 (Npos p)).
  - apply (int_parse_neg (Npos p)).
Qed.

(** ** dict *)
Section DictFacts.
  Context {V : Type}.
  Implicit Type d : dict V.

  Lemma dget_dset_same k v d : dget k (dset k v d) = Some v.
  Proof.
    induction d as [|[k' v'] d IH]; cbn; [now rewrite seqb_refl|].
    destruct (seqb k k') eqn:E; cbn; rewrite E; auto.
  Qed.

  Lemma dget_dset_other k k0 v d : k <> k0 -> dget k (dset k0 v d) = dget k d.
  Proof.
    intros Hne. induction d as [|[k' v'] d IH]; cbn.
    - destruct (seqb_spec k k0); [congruence|reflexivity].
    - destruct (seqb_spec k0 k') as [->|H0]; cbn.
      + destruct (seqb_spec k k'); [congruence|reflexivity].
      + destruct (seqb_spec k k'); auto.
  Qed.

  Lemma dget_ddel_same k d : dget k (ddel k d) = None.
  Proof.
    induction d as [|[k' v'] d IH]; cbn; [reflexivity|].
    destruct (seqb k k') eqn:E; cbn; [exact IH|]. now rewrite E.
  Qed.

  Lemma dget_ddel_other k k0 d : k <> k0 -> dget k (ddel k0 d) = dget k d.
  Proof.
    intros Hne. induction d as [|[k' v'] d IH]; cbn; [reflexivity|].
    destruct (seqb_spec k0 k') as [->|H0]; cbn.
    - rewrite IH. destruct (seqb_spec k k'); [congruence|reflexivity].
    - destruct (seqb_spec k k'); auto.
  Qed.

  Lemma dget_None_keys k d : dget k d = None <-> ~ In k (dkeys d).
  Proof.
    induction d as [|[k' v'] d IH]; cbn; [split; auto|].
    destruct (seqb_spec k k') as [->|H].
    - split; [discriminate|]. intros Hn; exfalso; apply Hn; now left.
    - rewrite IH. split; [intros Hn [->|Hin]; auto|]. intros Hn Hin; apply Hn; now right.
  Qed.

  Lemma dget_Some_In k v d : dget k d = Some v -> In (k, v) d.
  Proof.
    induction d as [|[k' v'] d IH]; cbn; [discriminate|].
    destruct (seqb_spec k k') as [->|H].
    - intros E; injection E as ->. now left.
    - intros E. right. auto.
  Qed.

  Lemma dmem_iff k d : dmem k d = true <-> exists v, dget k d = Some v.
  Proof.
    unfold dmem. destruct (dget k d) as [v|].
    - split; [now exists v|reflexivity].
    - split; [discriminate|intros (v & Hv); discriminate].
  Qed.
End DictFacts.

(** ** lists *)
Lemma skipn_skipn {A} x y (l : list A) : skipn x (skipn y l) = skipn (x + y) l.
Proof.
  revert l; induction y as [|y IH]; intros l.
  - now rewrite Nat.add_0_r.
  - rewrite Nat.add_succ_r. destruct l; [now rewrite !skipn_nil|]. cbn. apply IH.
Qed.

(** ** replace *)
Lemma split_fuel_enough sep : sep <> [] -> forall n s f1 f2, length s <= n -> length s < f1 -> length s < f2 ->
  split_str_fuel f1 sep s = split_str_fuel f2 sep s.
Proof.
  intros Hs. induction n as [|n IH]; intros s f1 f2 Hn H1 H2.
  - destruct s; [|cbn in Hn; lia]. destruct f1, f2; try lia. cbn [split_str_fuel find].
    destruct sep; [congruence|reflexivity].
  - destruct f1 as [|f1], f2 as [|f2]; try lia. cbn [split_str_fuel].
    destruct (find sep s) as [i|] eqn:E; [|reflexivity]. f_equal.
    destruct (find_some _ _ _ E) as (_ & _ & L).
    assert (0 < length sep) by (destruct sep; [congruence|cbn; lia]).
    assert (length (skipn (i + length sep) s) = length s - (i + length sep)) as Ls by apply skipn_length.
    apply IH; lia.
Qed.
Lemma split_str_nonnil sep s : split_str sep s <> [].
Proof. unfold split_str. cbn [split_str_fuel]. destruct (find sep s); discriminate. Qed.
Lemma split_str_S f sep s : split_str_fuel (S f) sep s =
  match find sep s with
  | Some i => firstn i s :: split_str_fuel f sep (skipn (i + length sep) s)
  | None => [s]
  end.
Proof. reflexivity. Qed.
Lemma split_str_miss sep c s : sep <> [] -> prefixb sep (c :: s) = false ->
  split_str sep (c :: s) = match split_str sep s with w :: ws => (c :: w) :: ws | [] => [] end.
Proof.
  intros Hs Hp. unfold split_str. rewrite !split_str_S.
  assert (find sep (c :: s) = option_map S (find sep s)) as -> by (cbn [find]; now rewrite Hp).
  destruct (find sep s) as [i|] eqn:E; cbn [option_map]; [|reflexivity].
  cbn [firstn skipn Nat.add]. f_equal.
  destruct (find_some _ _ _ E) as (_ & _ & L).
  assert (0 < length sep) by (destruct sep; [congruence|cbn; lia]).
  assert (length (skipn (i + length sep) s) = length s - (i + length sep)) as Ls by apply skipn_length.
  apply (split_fuel_enough sep Hs (length s)); cbn [length]; lia.
Qed.
Lemma split_str_hit sep s : sep <> [] -> split_str sep (sep ++ s) = [] :: split_str sep s.
Proof.
  intros Hs. unfold split_str at 1. rewrite split_str_S.
  assert (find sep (sep ++ s) = Some 0) as ->.
  { pose proof (prefixb_app sep s) as Hp. destruct (sep ++ s) as [|x r]; unfold find; now rewrite Hp. }
  cbn [firstn Nat.add]. f_equal. rewrite skipn_app, skipn_all, Nat.sub_diag. cbn [app skipn].
  apply (split_fuel_enough sep Hs (length s)); [lia| |lia]. rewrite app_length. destruct sep; [congruence|cbn; lia].
Qed.
Lemma replace_nil old new : old <> [] -> replace old new [] = [].
Proof. intros H. destruct old; [congruence|]. reflexivity. Qed.
Lemma join_cons_hd (sep : str) c w ws : join sep ((c :: w) :: ws) = c :: join sep (w :: ws).
Proof. destruct ws; reflexivity. Qed.
Lemma replace_miss old new c s : old <> [] -> prefixb old (c :: s) = false ->
  replace old new (c :: s) = c :: replace old new s.
Proof.
  intros Ho Hp. unfold replace. rewrite split_str_miss by assumption.
  pose proof (split_str_nonnil old s). destruct (split_str old s) as [|w ws]; [congruence|]. apply join_cons_hd.
Qed.
Lemma replace_hit old new s : old <> [] -> replace old new (old ++ s) = new ++ replace old new s.
Proof.
  intros Ho. unfold replace. rewrite split_str_hit by assumption.
  pose proof (split_str_nonnil old s). destruct (split_str old s) as [|w ws]; [congruence|]. reflexivity.
Qed.
Lemma containsb_app p a b : containsb p (a ++ p ++ b) = true.
Proof.
  unfold containsb. destruct (find p (a ++ p ++ b)) eqn:E; [reflexivity|]. exfalso. exact (find_none _ _ E a b eq_refl).
Qed.
Lemma containsb_iff p s : containsb p s = true <-> exists a b, s = a ++ p ++ b.
Proof.
  split; [|intros (a & b & ->); apply containsb_app]. unfold containsb. destruct (find p s) eqn:E; [|discriminate].
  intros _. destruct (find_some _ _ _ E) as (H & _). eauto.
Qed.
