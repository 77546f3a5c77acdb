(** Decoding and encoding of headers. *)
From Verif Require Import PyStr PyStrFacts Utf8 Asgi HeaderModel HeaderSpec HeaderProofs HinModel HinSpec.
From Coq Require Import Lia.

Lemma decode_strict_says b t : decode_strict b = Good t <-> says b t.
Proof.
  unfold decode_strict. split.
  - destruct (seqb_spec (utf8_enc (utf8_dec b)) b) as [E|E]; [|discriminate]. intros X. injection X as <-. split; [intros c; apply dec_scalar|auto].
  - intros [C ->]. rewrite dec_enc by exact C. now rewrite seqb_refl.
Qed.
Lemma decode_strict_bad b : ~ utf8 b -> decode_strict b = Bad UnicodeDecodeError.
Proof.
  intros N. destruct (decode_strict b) as [t|f] eqn:E; [exfalso; apply N; exists t; now apply decode_strict_says|].
  unfold decode_strict in E. destruct (seqb _ _); [discriminate E|]. now injection E as <-.
Qed.
Lemma as_text_reads x t : as_text x = Good t <-> reads x t.
Proof. destruct x as [b|s]; cbn; [apply decode_strict_says|]. split; [intros E; now injection E|now intros ->]. Qed.
Lemma utf8_dec_b b : {utf8 b} + {~ utf8 b}.
Proof.
  destruct (decode_strict b) as [t|f] eqn:E; [left; exists t; now apply decode_strict_says|right].
  intros [t H]. apply decode_strict_says in H. congruence.
Qed.

Lemma from_pairs_good ps : (forall n v, In (n, v) ps -> utf8 n /\ utf8 v) ->
  from_pairs (map (fun p => (Bytes (fst p), Bytes (snd p))) ps) = Good (map (fun p => (utf8_dec (fst p), utf8_dec (snd p))) ps).
Proof.
  induction ps as [|[n v] ps IH]; intros H; [reflexivity|]. cbn.
  destruct (H n v (or_introl eq_refl)) as [[tn [C1 ->]] [tv [C2 ->]]].
  rewrite !dec_enc by assumption. rewrite (proj2 (decode_strict_says _ tn)) by (split; auto). cbn.
  rewrite (proj2 (decode_strict_says _ tv)) by (split; auto). cbn. rewrite IH; [reflexivity|]. intros; apply H; now right.
Qed.
Lemma from_pairs_bad ps n v : In (n, v) ps -> ~ (utf8 n /\ utf8 v) ->
  from_pairs (map (fun p => (Bytes (fst p), Bytes (snd p))) ps) = Bad UnicodeDecodeError.
Proof.
  induction ps as [|[n0 v0] ps IH]; intros I N; [destruct I|]. cbn.
  destruct (utf8_dec_b n0) as [[t T]|B]; [|now rewrite decode_strict_bad by exact B].
  rewrite (proj2 (decode_strict_says _ t) T). cbn.
  destruct (utf8_dec_b v0) as [[s S]|B]; [|now rewrite decode_strict_bad by exact B].
  rewrite (proj2 (decode_strict_says _ s) S). cbn.
  destruct I as [E|I]; [injection E as -> ->; exfalso; apply N; split; eexists; eassumption|]. now rewrite IH.
Qed.

Lemma scalar_surrogate c : scalar c -> surrogate c = false.
Proof. intros H. unfold surrogate. apply between_false. unfold scalar in H. lia. Qed.
Lemma encode_strict_good t : characters t -> encode_strict t = Good (utf8_enc t).
Proof.
  intros C. unfold encode_strict. replace (existsb surrogate t) with false; [reflexivity|]. symmetry.
  destruct (existsb surrogate t) eqn:E; [|reflexivity]. apply existsb_exists in E as (c & I & S). now rewrite scalar_surrogate in S by now apply C.
Qed.
Lemma encode_escape_good t : characters t -> encode_escape t = Good (utf8_enc t).
Proof.
  induction t as [|c t IH]; intros C; [reflexivity|]. cbn [encode_escape].
  assert (S : scalar c) by (apply C; now left). rewrite between_false by (unfold scalar in S; lia). rewrite scalar_surrogate by exact S.
  rewrite IH by (intros x I; apply C; now right). reflexivity.
Qed.
Lemma encode_items_good l : (forall k v, In (k, v) l -> characters k /\ characters v) ->
  encode_items l = Good (map (fun e => (utf8_enc (fst e), utf8_enc (snd e))) l).
Proof.
  induction l as [|[k v] l IH]; intros H; [reflexivity|]. cbn [encode_items]. destruct (H k v (or_introl eq_refl)) as [K V].
  rewrite encode_strict_good, encode_escape_good by assumption. cbn [rbind]. rewrite IH by (intros; apply H; now right). reflexivity.
Qed.

(** ** Names *)
Lemma plain_ascii n : plain_name n -> ascii_str n.
Proof. intros P c I. now apply P. Qed.
Lemma lower_plain n : plain_name n -> lower n = n.
Proof.
  induction n as [|c n IH]; intros P; [reflexivity|]. cbn. unfold lower in IH. rewrite IH by (intros x I; apply P; now right). f_equal.
  destruct (P c (or_introl eq_refl)) as [_ N]. unfold lower_c. destruct ((65 <=? c) && (c <=? 90))%N eqn:E; [|reflexivity]. exfalso. apply N.
  apply andb_true_iff in E as [E1 E2]. apply N.leb_le in E1, E2. split; assumption.
Qed.
Lemma ascii_utf8 n : ascii_str n -> says n n.
Proof. intros A. split; [intros c I; left; apply A in I; lia|now rewrite enc_ascii]. Qed.

(** The lines of one name among those that are given on. *)
Lemma lines_flat h ks n : NoDup ks -> (forall k, In k ks -> lower k = k) ->
  lines_under n (flat_map (fun k => map (pair k) (hgetall k h)) ks) = if in_dec (list_eq_dec N.eq_dec) n ks then map (pair n) (hgetall n h) else [].
Proof.
  intros ND _. induction ks as [|k ks IH]; [reflexivity|]. inversion_clear ND as [|? ? NI ND'].
  cbn [flat_map]. unfold lines_under in *. rewrite filter_app, IH by assumption. clear IH.
  assert (F : filter (fun e : str * str => seqb (fst e) n) (map (pair k) (hgetall k h)) = if seqb k n then map (pair k) (hgetall k h) else []).
  { induction (hgetall k h) as [|v l IHl]; cbn; [now destruct (seqb k n)|]. rewrite IHl. now destruct (seqb k n). }
  rewrite F. destruct (seqb_spec k n) as [->|NE].
  - destruct (in_dec (list_eq_dec N.eq_dec) n ks) as [I|_]; [contradiction|]. destruct (in_dec (list_eq_dec N.eq_dec) n (n :: ks)) as [_|N]; [apply app_nil_r|exfalso; apply N; now left].
  - destruct (in_dec (list_eq_dec N.eq_dec) n ks) as [I|N]; destruct (in_dec (list_eq_dec N.eq_dec) n (k :: ks)) as [I'|N']; cbn; try reflexivity.
    + exfalso. apply N'. now right.
    + destruct I' as [E|I']; [congruence|contradiction].
Qed.

Lemma getall_plain n h : (forall k v, In (k, v) h -> lower k = k) -> lower n = n -> map (pair n) (hgetall n h) = lines_under n h.
Proof.
  intros H L. unfold hgetall, lines_under, same_name. rewrite L. induction h as [|[k v] h IH]; [reflexivity|]. cbn [filter map fst snd].
  rewrite (H k v (or_introl eq_refl)). assert (T := IH (fun k' v' I => H k' v' (or_intror I))).
  destruct (seqb_spec k n) as [->|]; cbn [map snd]; now rewrite T.
Qed.

(** ** Escapes *)
Lemma escape_enc1 c r : scalar c -> decode_escape (enc1 c ++ r) = c :: decode_escape r.
Proof.
  intros Hs. unfold enc1.
  destruct (N.ltb_spec c 128) as [H1|H1].
  { cbn [app decode_escape]. replace (c <? 128)%N with true by (symmetry; apply N.ltb_lt; lia). reflexivity. }
  assert (D1 := N.div_mod' c 64). assert (M1 := N.mod_lt c 64 ltac:(lia)).
  assert (D2 := N.div_mod' (c / 64) 64). assert (M2 := N.mod_lt (c / 64) 64 ltac:(lia)).
  assert (D3 := N.div_mod' (c / 4096) 64). assert (M3 := N.mod_lt (c / 4096) 64 ltac:(lia)).
  assert (E1 : (c / 64 / 64 = c / 4096)%N) by (rewrite N.div_div by lia; reflexivity).
  assert (E2 : (c / 4096 / 64 = c / 262144)%N) by (rewrite N.div_div by lia; reflexivity).
  rewrite E1 in D2. rewrite E2 in D3.
  set (q1 := (c / 64)%N) in *. set (q2 := (c / 4096)%N) in *. set (q3 := (c / 262144)%N) in *.
  set (r1 := (c mod 64)%N) in *. set (r2 := (q1 mod 64)%N) in *. set (r3 := (q2 mod 64)%N) in *.
  destruct (N.ltb_spec c 2048) as [H2|H2].
  { cbn [app decode_escape].
    replace (192 + q1 <? 128)%N with false by (symmetry; apply N.ltb_ge; lia).
    rewrite between_true by lia. unfold cont. rewrite between_true by lia. f_equal. lia. }
  destruct (N.ltb_spec c 65536) as [H3|H3].
  { cbn [app decode_escape].
    replace (224 + q2 <? 128)%N with false by (symmetry; apply N.ltb_ge; lia).
    rewrite (between_false 194 223) by lia. rewrite (between_true 224 239) by lia.
    assert (O : ok3 (224 + q2) (128 + r2) = true).
    { unfold ok3, cont. destruct (N.eqb_spec (224 + q2) 224); [apply between_true; lia|].
      destruct (N.eqb_spec (224 + q2) 237); apply between_true; unfold scalar in Hs; lia. }
    rewrite O. unfold cont. rewrite between_true by lia. cbn [andb]. f_equal. lia. }
  cbn [app decode_escape]. unfold scalar in Hs.
  replace (240 + q3 <? 128)%N with false by (symmetry; apply N.ltb_ge; lia).
  rewrite (between_false 194 223) by lia. rewrite (between_false 224 239) by lia. rewrite (between_true 240 244) by lia.
  assert (O : ok4 (240 + q3) (128 + r3) = true).
  { unfold ok4, cont. destruct (N.eqb_spec (240 + q3) 240); [apply between_true; lia|].
    destruct (N.eqb_spec (240 + q3) 244); apply between_true; lia. }
  rewrite O. unfold cont. rewrite !between_true by lia. cbn [andb]. f_equal. lia.
Qed.
Lemma escape_says b t : says b t -> decode_escape b = t.
Proof.
  intros [C ->]. induction t as [|c t IH]; [reflexivity|]. cbn [utf8_enc flat_map]. fold (utf8_enc t).
  rewrite escape_enc1 by (apply C; now left). f_equal. apply IH. intros x I. apply C. now right.
Qed.
Lemma loose_reads x t : reads x t -> loose x = t.
Proof. destruct x as [b|s]; cbn; [apply escape_says|auto]. Qed.

Lemma enc2 a b : (194 <= a <= 223)%N -> (128 <= b <= 191)%N -> enc1 ((a - 192) * 64 + (b - 128)) = [a; b].
Proof.
  intros A B. unfold enc1. set (c := ((a - 192) * 64 + (b - 128))%N). assert (R : (128 <= c < 2048)%N) by (subst c; lia).
  replace (c <? 128)%N with false by (symmetry; apply N.ltb_ge; lia). replace (c <? 2048)%N with true by (symmetry; apply N.ltb_lt; lia).
  assert (D : (c / 64 = a - 192)%N) by (symmetry; apply (N.div_unique c 64 (a - 192) (b - 128)); subst c; lia).
  assert (M : (c mod 64 = b - 128)%N) by (symmetry; apply (N.mod_unique c 64 (a - 192) (b - 128)); subst c; lia).
  rewrite D, M. f_equal; [lia|f_equal; lia].
Qed.
Lemma enc3 a b d : (224 <= a <= 239)%N -> ok3 a b = true -> (128 <= d <= 191)%N ->
  enc1 ((a - 224) * 4096 + (b - 128) * 64 + (d - 128)) = [a; b; d].
Proof.
  intros A B D. unfold enc1. set (c := ((a - 224) * 4096 + (b - 128) * 64 + (d - 128))%N).
  assert (BR : (128 <= b <= 191)%N /\ (a = 224 -> 160 <= b)%N).
  { unfold ok3, cont in B. destruct (N.eqb_spec a 224); [apply between_spec in B; lia|]. destruct (N.eqb_spec a 237); apply between_spec in B; lia. }
  assert (R : (2048 <= c < 65536)%N) by (subst c; lia).
  replace (c <? 128)%N with false by (symmetry; apply N.ltb_ge; lia). replace (c <? 2048)%N with false by (symmetry; apply N.ltb_ge; lia).
  replace (c <? 65536)%N with true by (symmetry; apply N.ltb_lt; lia).
  assert (Q1 : (c / 4096 = a - 224)%N) by (symmetry; apply (N.div_unique c 4096 (a - 224) ((b - 128) * 64 + (d - 128))); subst c; lia).
  assert (Q2 : (c / 64 = (a - 224) * 64 + (b - 128))%N) by (symmetry; apply (N.div_unique c 64 _ (d - 128)); subst c; lia).
  assert (Q3 : (c mod 64 = d - 128)%N) by (symmetry; apply (N.mod_unique c 64 ((a - 224) * 64 + (b - 128)) (d - 128)); subst c; lia).
  rewrite Q1, Q2, Q3. assert (Q4 : (((a - 224) * 64 + (b - 128)) mod 64 = b - 128)%N) by (symmetry; apply (N.mod_unique _ 64 (a - 224) (b - 128)); lia).
  rewrite Q4. f_equal; [lia|f_equal; [lia|f_equal; lia]].
Qed.
Lemma enc4 a b d e : (240 <= a <= 244)%N -> ok4 a b = true -> (128 <= d <= 191)%N -> (128 <= e <= 191)%N ->
  enc1 ((a - 240) * 262144 + (b - 128) * 4096 + (d - 128) * 64 + (e - 128)) = [a; b; d; e].
Proof.
  intros A B D E. unfold enc1. set (c := ((a - 240) * 262144 + (b - 128) * 4096 + (d - 128) * 64 + (e - 128))%N).
  assert (BR : (128 <= b <= 191)%N /\ (a = 240 -> 144 <= b)%N).
  { unfold ok4, cont in B. destruct (N.eqb_spec a 240); [apply between_spec in B; lia|]. destruct (N.eqb_spec a 244); apply between_spec in B; lia. }
  assert (R : (65536 <= c)%N) by (subst c; lia).
  replace (c <? 128)%N with false by (symmetry; apply N.ltb_ge; lia). replace (c <? 2048)%N with false by (symmetry; apply N.ltb_ge; lia).
  replace (c <? 65536)%N with false by (symmetry; apply N.ltb_ge; lia).
  assert (Q1 : (c / 262144 = a - 240)%N) by (symmetry; apply (N.div_unique c 262144 (a - 240) ((b - 128) * 4096 + (d - 128) * 64 + (e - 128))); subst c; lia).
  assert (Q2 : (c / 4096 = (a - 240) * 64 + (b - 128))%N) by (symmetry; apply (N.div_unique c 4096 _ ((d - 128) * 64 + (e - 128))); subst c; lia).
  assert (Q3 : (c / 64 = ((a - 240) * 64 + (b - 128)) * 64 + (d - 128))%N) by (symmetry; apply (N.div_unique c 64 _ (e - 128)); subst c; lia).
  assert (Q5 : (c mod 64 = e - 128)%N) by (symmetry; apply (N.mod_unique c 64 (((a - 240) * 64 + (b - 128)) * 64 + (d - 128)) (e - 128)); subst c; lia).
  rewrite Q1, Q2, Q3, Q5.
  assert (Q4 : (((a - 240) * 64 + (b - 128)) mod 64 = b - 128)%N) by (symmetry; apply (N.mod_unique _ 64 (a - 240) (b - 128)); lia).
  assert (Q6 : ((((a - 240) * 64 + (b - 128)) * 64 + (d - 128)) mod 64 = d - 128)%N) by (symmetry; apply (N.mod_unique _ 64 ((a - 240) * 64 + (b - 128)) (d - 128)); lia).
  rewrite Q4, Q6. f_equal; [lia|f_equal; [lia|f_equal; [lia|f_equal; lia]]].
Qed.

(** Bytes whose loose decoding has characters only are UTF-8. *)
Lemma escape_exact : forall s, (forall b, In b s -> (b < 256)%N) -> characters (decode_escape s) -> utf8_enc (decode_escape s) = s.
Proof.
  intros s. induction s as [s IH'] using (induction_ltof1 _ (@length N)). intros BY C.
  destruct s as [|b0 r]; [reflexivity|].
  assert (B0 : (b0 < 256)%N) by (apply BY; now left).
  assert (IH : forall r', length r' <= length r -> (forall b, In b r' -> In b r) -> characters (decode_escape r') -> utf8_enc (decode_escape r') = r').
  { intros r' L S K. apply IH'; [unfold ltof; cbn; lia| |exact K]. intros b I. apply BY. right. auto. }
  assert (ES : (128 <= b0)%N -> forall l, characters (escaped b0 :: l) -> False).
  { intros G l K. specialize (K _ (or_introl eq_refl)). unfold scalar, escaped in K. lia. }
  assert (TL : forall c l, characters (c :: l) -> characters l) by (intros c l K x I; apply K; now right).
  cbn [decode_escape] in *. destruct (N.ltb_spec b0 128) as [L|L].
  { cbn [utf8_enc flat_map]. fold (utf8_enc (decode_escape r)). rewrite IH; [|lia|auto|now apply TL in C].
    unfold enc1. apply N.ltb_lt in L. rewrite L. reflexivity. }
  destruct (between 194 223 b0) eqn:B1.
  { apply between_spec in B1. destruct r as [|b1 r1]; [now apply ES in C|]. destruct (cont b1) eqn:C1; [|now apply ES in C].
    apply between_spec in C1. cbn [utf8_enc flat_map]. fold (utf8_enc (decode_escape r1)). rewrite enc2 by assumption.
    rewrite IH; [reflexivity|cbn; lia|intros; now right|now apply TL in C]. }
  destruct (between 224 239 b0) eqn:B2.
  { apply between_spec in B2. destruct r as [|b1 [|b2 r2]]; [now apply ES in C..|]. destruct (ok3 b0 b1 && cont b2) eqn:O; [|now apply ES in C].
    apply andb_true_iff in O as [O C2]. apply between_spec in C2. cbn [utf8_enc flat_map]. fold (utf8_enc (decode_escape r2)). rewrite enc3 by assumption.
    rewrite IH; [reflexivity|cbn; lia|intros; now right; right|now apply TL in C]. }
  destruct (between 240 244 b0) eqn:B3.
  { apply between_spec in B3. destruct r as [|b1 [|b2 [|b3 r3]]]; [now apply ES in C..|]. destruct (ok4 b0 b1 && cont b2 && cont b3) eqn:O; [|now apply ES in C].
    apply andb_true_iff in O as [O C3]. apply andb_true_iff in O as [O C2]. apply between_spec in C2, C3.
    cbn [utf8_enc flat_map]. fold (utf8_enc (decode_escape r3)). rewrite enc4 by assumption.
    rewrite IH; [reflexivity|cbn; lia|intros; now right; right; right|now apply TL in C]. }
  now apply ES in C.
Qed.
