From Verif Require FltModel FltSpec FltTextProofs.
From Verif Require Import PyStr PyStrFacts PathModel PathSpec PathProofs PathMatchProofs.

(** * Converters *)
Lemma filter_no45 v : all_in is_hex_lower v -> filter (fun x => negb (N.eqb x 45)) v = v.
Proof.
  induction v as [|x v IH]; intros H; [reflexivity|]. cbn [filter].
  destruct (N.eqb_spec x 45) as [->|]; [specialize (H 45%N (or_introl eq_refl)); discriminate|].
  cbn [negb]. rewrite IH; [reflexivity|]. intros y Hy. apply H. now right.
Qed.
Lemma all_in_firstn p n v : all_in p v -> all_in p (firstn n v).
Proof. intros H x Hx. apply H. rewrite <- (firstn_skipn n v). apply in_or_app. now left. Qed.
Lemma all_in_skipn p n v : all_in p v -> all_in p (skipn n v).
Proof. intros H x Hx. apply H. rewrite <- (firstn_skipn n v). apply in_or_app. now right. Qed.
Lemma all_in_app p a b : all_in p (a ++ b) <-> all_in p a /\ all_in p b.
Proof.
  split; [intros H; split; intros x Hx; apply H, in_or_app; auto|].
  intros [Ha Hb] x Hx. apply in_app_or in Hx as [Hx|Hx]; auto.
Qed.

Lemma uuid_roundtrip h : hexn 32 h ->
  in_conv CUuid (uuid_text h) /\ transform CUuid (uuid_text h) = Some (VUuid h).
Proof.
  intros [L H]. unfold uuid_text. split.
  - exists (firstn 8 h), (firstn 4 (skipn 8 h)), (firstn 4 (skipn 12 h)), (firstn 4 (skipn 16 h)), (skipn 20 h).
    split; [reflexivity|]. unfold hexn. rewrite !firstn_length, !skipn_length, L.
    repeat (split; [split; [reflexivity|auto using all_in_firstn, all_in_skipn]|]).
    split; [reflexivity|auto using all_in_skipn].
  - cbn [transform]. do 2 f_equal. change (u "-") with [45%N]. rewrite !filter_app.
    change (filter (fun x => negb (N.eqb x 45)) [45%N]) with (@nil N). cbn [app].
    rewrite !filter_no45 by auto using all_in_firstn, all_in_skipn.
    assert (forall k n, firstn n (skipn k h) ++ skipn (k + n) h = skipn k h) as G.
    { intros k n. rewrite <- (firstn_skipn n (skipn k h)) at 2. rewrite skipn_skipn. now rewrite (Nat.add_comm n k). }
    pose proof (G 16 4) as G1. pose proof (G 12 4) as G2. pose proof (G 8 4) as G3. cbn [Nat.add] in G1, G2, G3.
    rewrite G1, G2, G3. apply firstn_skipn.
Qed.

Lemma dig_digit n : is_digit (dig n) = true.
Proof. unfold dig, is_digit. pose proof (N.mod_lt n 10 ltac:(discriminate)). lia. Qed.
Lemma dig_val n : (dig n - 48 = n mod 10)%N.
Proof. unfold dig. lia. Qed.
Lemma dign_pad2 n : dign 2 (pad2 n).
Proof. split; [reflexivity|]. intros x [<-|[<-|[]]]; apply dig_digit. Qed.
Lemma dign_pad4 n : dign 4 (pad4 n).
Proof. split; [reflexivity|]. intros x Hx. cbn in Hx. decompose [or] Hx; subst; try apply dig_digit; contradiction. Qed.
Lemma pad2_val n : (n < 100)%N -> digits_val (pad2 n) = n.
Proof.
  intros H. unfold pad2, digits_val. cbn [fold_left]. rewrite !dig_val.
  rewrite (N.mod_small (n / 10)) by (apply N.div_lt_upper_bound; lia).
  pose proof (N.div_mod n 10 ltac:(discriminate)). lia.
Qed.
Lemma pad4_val n : (n < 10000)%N -> digits_val (pad4 n) = n.
Proof.
  intros H. unfold pad4, digits_val. cbn [fold_left]. rewrite !dig_val.
  rewrite (N.mod_small (n / 1000)) by (apply N.div_lt_upper_bound; lia).
  pose proof (N.div_mod n 10 ltac:(discriminate)).
  pose proof (N.div_mod (n / 10) 10 ltac:(discriminate)). rewrite N.div_div in H1 by discriminate.
  pose proof (N.div_mod (n / 100) 10 ltac:(discriminate)). rewrite N.div_div in H2 by discriminate.
  change (10 * 10)%N with 100%N in H1. change (100 * 10)%N with 1000%N in H2. lia.
Qed.

Lemma days_le y mo : (days_in_month y mo <= 31)%N.
Proof. unfold days_in_month. destruct (mo =? 2)%N; [destruct (_ && _)%bool; lia|]. destruct (_ || _)%bool; lia. Qed.

Lemma leap_iff y : ((y mod 4 =? 0) && (negb (y mod 100 =? 0) || (y mod 400 =? 0)))%N%bool = true <-> leap y.
Proof.
  assert (M : forall m, m <> 0%N -> (y mod m)%N = 0%N <-> exists k, (y = m * k)%N).
  { intros m Hm. rewrite (N.mod_divide y m Hm). split; intros (k & E); exists k; lia. }
  unfold leap. rewrite <- !M by discriminate. rewrite andb_true_iff, orb_true_iff, negb_true_iff, !N.eqb_eq, N.eqb_neq.
  split.
  - intros (A & [B|B]); [right|left]; auto.
  - intros [A|[A B]]; [|auto]. split; [|auto]. apply M in A as (k & ->); [|discriminate]. apply (proj2 (N.mod_divide (400 * k) 4 ltac:(discriminate))). exists (100 * k)%N. lia.
Qed.
Lemma month_length_iff y mo n : (1 <= mo <= 12)%N -> month_length y mo n <-> n = days_in_month y mo.
Proof.
  intros R. unfold month_length, days_in_month. destruct (N.eqb_spec mo 2) as [->|H2].
  - assert (X : forall a, In (2%N, n) [(1, 31); (3, 31); (4, 30); (5, 31); (6, 30); (7, 31); (8, 31); (9, 30); (10, 31); (11, 30); (12, 31)]%N -> a) by (intros a I; exfalso; cbn in I; decompose [or] I; try discriminate; assumption).
    pose proof (leap_iff y) as LI. destruct (_ && _)%bool.
    + assert (L : leap y) by (now apply LI). split; [intros [I|(_ & [[_ ->]|[NL _]])]; [now apply X|reflexivity|contradiction]|]. intros ->. right. auto.
    + assert (L : ~ leap y) by (intros L; apply LI in L; discriminate L). split; [intros [I|(_ & [[L' _]|[_ ->]])]; [now apply X|contradiction|reflexivity]|]. intros ->. right. auto.
  - assert (C : (mo = 1 \/ mo = 3 \/ mo = 4 \/ mo = 5 \/ mo = 6 \/ mo = 7 \/ mo = 8 \/ mo = 9 \/ mo = 10 \/ mo = 11 \/ mo = 12)%N) by lia.
    decompose [or] C; subst mo; cbn [N.eqb Pos.eqb orb In]; (split; [intros [I|[E _]]; [decompose [or] I; try discriminate; try contradiction; congruence|discriminate E]|intros ->; left; tauto]).
Qed.
Lemma date_ok_iff y mo d h mi s : date_ok y mo d h mi s = true <-> real_time y mo d h mi s.
Proof.
  unfold date_ok, real_time. rewrite !andb_true_iff, !N.leb_le. split.
  - intros ((((((((A1 & A2) & A3) & A4) & A5) & A6) & A7) & A8) & A9). split; [lia|]. split; [|lia]. exists (days_in_month y mo). split; [apply month_length_iff; [lia|reflexivity]|lia].
  - intros (A & (n & M & D) & B). assert (R : (1 <= mo <= 12)%N). { destruct M as [I|[-> _]]; [|lia]. cbn in I. decompose [or] I; try contradiction; match goal with E : _ = (mo, n) |- _ => injection E as <- <- end; lia. }
    apply (month_length_iff y mo n R) in M. subst n. lia.
Qed.
Lemma date_roundtrip y mo d h mi s : date_ok y mo d h mi s = true -> (1000 <= y)%N ->
  in_conv CDatetime (strftime y mo d h mi s) /\
  transform CDatetime (strftime y mo d h mi s) = Some (VDate y mo d h mi s).
Proof.
  intros Hd Hy. unfold strftime. destruct (N.ltb_spec y 1000); [lia|].
  assert (in_conv CDatetime (pad4 y ++ u "-" ++ pad2 mo ++ u "-" ++ pad2 d ++ u "T" ++ pad2 h ++ u ":" ++ pad2 mi ++ u ":" ++ pad2 s)) as Hc.
  { exists (pad4 y), (pad2 mo), (pad2 d), (pad2 h), (pad2 mi), (pad2 s), []. rewrite app_nil_r.
    split; [reflexivity|]. repeat (split; [apply dign_pad2 || apply dign_pad4|]). now left. }
  split; [exact Hc|]. cbn [transform]. unfold strptime.
  pose proof (datetime_intro (pad4 y) (pad2 mo) (pad2 d) (pad2 h) (pad2 mi) (pad2 s) []
    (dign_pad4 y) (dign_pad2 mo) (dign_pad2 d) (dign_pad2 h) (dign_pad2 mi) (dign_pad2 s)) as Hcl.
  rewrite app_nil_r in Hcl.
  change (u "-") with [45%N]. change (u "T") with [84%N]. change (u ":") with [58%N]. cbn [app] in *.
  rewrite Hcl. cbn [pad4 pad2 app length]. change (19 =? 19) with true. cbn [andb].
  unfold sub_num. cbn [pad4 pad2 app skipn firstn].
  change (digits_val [dig (y / 1000); dig (y / 100); dig (y / 10); dig y]) with (digits_val (pad4 y)).
  change (digits_val [dig (mo / 10); dig mo]) with (digits_val (pad2 mo)).
  change (digits_val [dig (d / 10); dig d]) with (digits_val (pad2 d)).
  change (digits_val [dig (h / 10); dig h]) with (digits_val (pad2 h)).
  change (digits_val [dig (mi / 10); dig mi]) with (digits_val (pad2 mi)).
  change (digits_val [dig (s / 10); dig s]) with (digits_val (pad2 s)).
  pose proof (days_le y mo). pose proof Hd as Hd'. unfold date_ok in Hd'.
  rewrite pad4_val by lia. rewrite !pad2_val by lia. now rewrite Hd.
Qed.

Lemma all_in_forallb p v : all_in p v <-> forallb p v = true.
Proof. rewrite forallb_forall. reflexivity. Qed.

Lemma int_parse_digits v : digits v -> int_parse v = Some (Z.of_N (digits_val v)).
Proof.
  intros [Hn Hd]. apply all_in_forallb in Hd. unfold int_parse.
  assert (strip v = v) as ->.
  { pose proof (digits_strip v [] [] Hd eq_refl eq_refl) as H. cbn [app] in H. now rewrite app_nil_r in H. }
  destruct v as [|c v]; [congruence|]. pose proof Hd as Hd'. cbn [forallb] in Hd. apply andb_true_iff in Hd as [Hc _].
  unfold is_digit in Hc. destruct (N.eqb_spec c 45); [subst; discriminate|]. destruct (N.eqb_spec c 43); [subst; discriminate|].
  rewrite us_digits_digits by (auto; left; discriminate). reflexivity.
Qed.

Lemma int_roundtrip z t : normalise CInt (VInt z) = Some t ->
  in_conv CInt t /\ transform CInt t = Some (VInt z).
Proof.
  cbn [normalise]. destruct (Z.ltb_spec z 0); [discriminate|]. unfold str_of_int.
  destruct (Nat.ltb_spec int_max_digits (length (dec (Z.to_N (Z.abs z))))) as [|L]; [discriminate|]. intros [= <-].
  assert (decz z = dec (Z.to_N (Z.abs z))) as E by (destruct z; [reflexivity|reflexivity|lia]).
  split.
  - cbn [in_conv]. rewrite E. split; [apply dec_nonnil|]. apply all_in_forallb, dec_digits.
  - cbn [transform]. unfold int_of. rewrite E. destruct (Nat.ltb_spec int_max_digits (length (dec (Z.to_N (Z.abs z))))); [lia|].
    rewrite int_parse_dec0. cbn. do 2 f_equal. lia.
Qed.

Lemma float_conv_roundtrip v t : valid_value (VFloat v) -> path_value CFloat (VFloat v) -> FltModel.write v = Some t ->
  in_conv CFloat t /\ transform CFloat t = Some (VFloat v).
Proof.
  destruct v as [neg m e|neg|]; [|discriminate|discriminate]. intros F [-> T] W. split.
  - destruct (FltTextProofs.write_text m e ltac:(destruct F as [[F _] _]; exact F)) as (t' & i & f & W' & -> & NI & DI & Df & _).
    assert (i ++ f = t) as <- by congruence. exists i, f. split; [reflexivity|].
    split; [split; [exact NI|now apply all_in_forallb]|]. destruct Df as [-> |(g & -> & NG & DG)]; [now left|].
    right. exists 46%N, g. split; [reflexivity|]. split; [reflexivity|]. split; [exact NG|now apply all_in_forallb].
  - cbn [transform]. now rewrite (FltTextProofs.float_roundtrip m e t F T W).
Qed.

Lemma conv_roundtrip c v t : valid_value v -> path_value c v -> normalise c v = Some t ->
  in_conv c t /\ transform c t = Some v.
Proof.
  intros Hv Hp Hn. destruct c, v; cbn [normalise] in Hn; try discriminate.
  - destruct (cmem slash s) eqn:E; [discriminate|]. apply cmem_not_In in E. destruct s as [|x s]; [discriminate|].
    injection Hn as <-. split; [split; [discriminate|assumption]|reflexivity].
  - injection Hn as <-. split; [exact Hp|reflexivity].
  - apply int_roundtrip. exact Hn.
  - now apply float_conv_roundtrip.
  - injection Hn as <-. now apply uuid_roundtrip.
  - injection Hn as <-. apply date_roundtrip; [now apply date_ok_iff|exact Hp].
Qed.

Lemma accepted_converts c t : in_conv c t ->
  match c with CDatetime => False | CInt => length t <= int_max_digits | _ => True end ->
  exists v, transform c t = Some v.
Proof.
  intros H Hc. destruct c; try contradiction; cbn [transform]; eauto.
  unfold int_of. destruct (Nat.ltb_spec int_max_digits (length t)); [lia|].
  rewrite int_parse_digits by exact H. cbn. eauto.
Qed.

(** * Reverse lookup *)
Inductive piece := PTxt (s : str) | PHole (n : str).
Definition prender1 (p : piece) : str := match p with PTxt s => s | PHole n => placeholder n end.
Definition prender (ps : list piece) : str := concat (map prender1 ps).
Definition fill (tx : dict str) (p : piece) : piece :=
  match p with
  | PTxt s => PTxt s
  | PHole n => match dget n tx with Some t => PTxt t | None => PHole n end
  end.
Definition piece_ok (p : piece) : Prop := match p with PTxt s => no_brace s | PHole n => is_ident n end.

Lemma ident_chars n x : is_ident n -> In x n -> is_word x = true.
Proof.
  destruct n as [|c n]; [intros []|]. intros [H1 H2] [<-|Hx]; [unfold is_word; now rewrite H1|auto].
Qed.
Lemma ident_no n x : is_ident n -> is_word x = false -> ~ In x n.
Proof. intros H Hx Hin. rewrite (ident_chars n x H Hin) in Hx. discriminate. Qed.

Lemma placeholder_ne k : placeholder k <> [].
Proof. discriminate. Qed.
Lemma placeholder_cons k : placeholder k = 123%N :: k ++ [125%N].
Proof. reflexivity. Qed.

Lemma replace_free k v s r : no_brace s -> replace (placeholder k) v (s ++ r) = s ++ replace (placeholder k) v r.
Proof.
  induction s as [|c s IH]; intros H; [reflexivity|]. cbn [app]. rewrite replace_miss.
  - now rewrite IH by (intros Hin; apply H; now right).
  - apply placeholder_ne.
  - rewrite placeholder_cons. unfold prefixb; fold prefixb.
    destruct (N.eqb_spec 123 c); [subst; exfalso; apply H; now left|reflexivity].
Qed.

Lemma replace_hole k v n r : is_ident k -> is_ident n -> k <> n ->
  replace (placeholder k) v (placeholder n ++ r) = placeholder n ++ replace (placeholder k) v r.
Proof.
  intros Hk Hn Hne. rewrite (placeholder_cons n). cbn [app]. rewrite replace_miss.
  - f_equal. rewrite <- app_assoc. change ([125%N] ++ r) with ([125%N] ++ r). rewrite app_assoc. rewrite replace_free; [reflexivity|].
    intros Hin. apply in_app_or in Hin as [Hin|[Hin|[]]]; [|discriminate]. revert Hin. now apply ident_no.
  - apply placeholder_ne.
  - destruct (prefixb (placeholder k) (123%N :: (n ++ [125%N]) ++ r)) eqn:E; [|reflexivity].
    apply prefixb_iff in E as [q E]. rewrite placeholder_cons in E. cbn [app] in E. injection E as E. rewrite <- !app_assoc in E.
    exfalso. apply Hne. symmetry.
    apply (delim_unique_run (fun x => negb (N.eqb x 125)) n 125%N r k 125%N q); try reflexivity; try exact E.
    + intros x Hx. destruct (N.eqb_spec x 125); [subst; exfalso; revert Hx; now apply ident_no|reflexivity].
    + intros x Hx. destruct (N.eqb_spec x 125); [subst; exfalso; revert Hx; now apply ident_no|reflexivity].
Qed.

Lemma replace_pieces k v ps : is_ident k -> Forall piece_ok ps ->
  replace (placeholder k) v (prender ps) = prender (map (fill [(k, v)]) ps).
Proof.
  intros Hk. induction 1 as [|p ps Hp _ IH]; [reflexivity|].
  unfold prender in *. cbn [map concat]. destruct p as [s|n]; cbn [prender1 fill dget].
  - rewrite replace_free by assumption. now rewrite IH.
  - destruct (seqb_spec n k) as [->|Hne].
    + rewrite replace_hit by apply placeholder_ne. cbn [prender1]. now rewrite IH.
    + rewrite replace_hole by (auto; congruence). cbn [prender1]. now rewrite IH.
Qed.

Lemma contains_hole k ps : In (PHole k) ps -> containsb (placeholder k) (prender ps) = true.
Proof.
  intros H. apply in_split in H as (a & b & ->). unfold prender. rewrite map_app, concat_app. cbn [map concat prender1].
  apply containsb_app.
Qed.

Lemma fill_ok tx ps : (forall k t, In (k, t) tx -> no_brace t) -> Forall piece_ok ps -> Forall piece_ok (map (fill tx) ps).
Proof.
  intros Ht. induction 1 as [|p ps Hp _ IH]; constructor; [|assumption].
  destruct p as [s|n]; cbn [fill]; [exact Hp|]. destruct (dget n tx) eqn:E; [|exact Hp].
  apply dget_Some_In in E. exact (Ht _ _ E).
Qed.
Lemma fill_fill k v tx p : fill tx (fill [(k, v)] p) = fill ((k, v) :: tx) p.
Proof.
  destruct p as [s|n]; [reflexivity|]. cbn [fill dget]. destruct (seqb n k); reflexivity.
Qed.

Definition normal_texts (convs : dict conv) (params : dict pvalue) (tx : dict str) : Prop :=
  Forall2 (fun p q => fst p = fst q /\ exists c, dget (fst p) convs = Some c /\ normalise c (snd p) = Some (snd q)) params tx.

Lemma replace_loop_pieces convs params : forall tx pcs rem,
  normal_texts convs params tx -> NoDup (dkeys params) ->
  (forall k t, In (k, t) tx -> no_brace t) -> (forall k, In k (dkeys params) -> is_ident k /\ In (PHole k) pcs) ->
  Forall piece_ok pcs ->
  replace_loop (prender pcs) convs params rem = RevOk (prender (map (fill tx) pcs)) rem.
Proof.
  induction params as [|[k v] params IH]; intros tx pcs rem Ht Hnd Hb Hh Hok.
  - inversion Ht; subst. cbn [replace_loop]. f_equal. f_equal. clear. induction pcs as [|p pcs IH]; [reflexivity|].
    cbn [map]. rewrite <- IH. now destruct p.
  - inversion Ht as [|? [k' t] ? tx' [Hk (c & Hc & Hn)] Ht']; subst. cbn [fst snd] in *. subst k'.
    destruct (Hh k (or_introl eq_refl)) as [Hid Hhole]. cbn [replace_loop].
    rewrite contains_hole by assumption. rewrite Hc, Hn. rewrite replace_pieces by assumption.
    inversion Hnd; subst.
    rewrite (IH tx').
    + f_equal. f_equal. rewrite map_map. apply map_ext. intros p. apply fill_fill.
    + assumption.
    + assumption.
    + intros k0 t0 H0. apply (Hb k0). now right.
    + intros k0 H0. destruct (Hh k0 (or_intror H0)) as [Hi Hp]. split; [assumption|].
      apply in_map_iff. exists (PHole k0). split; [|assumption]. cbn [fill dget].
      destruct (seqb_spec k0 k) as [->|]; [contradiction|reflexivity].
    + apply fill_ok; [|assumption]. intros k0 t0 [[= <- <-]|[]]. apply (Hb k). now left.
Qed.

Fixpoint pieces_of (ps : list (str * str * conv)) (tail : str) : list piece :=
  match ps with
  | [] => [PTxt tail]
  | (l, n, _) :: ps' => PTxt l :: PHole n :: pieces_of ps' tail
  end.
Lemma prender_pieces ps tail : prender (pieces_of ps tail) = format_parts ps ++ tail.
Proof.
  induction ps as [|[[l n] c] ps IH]; unfold prender in *; cbn [pieces_of map concat prender1 format_parts].
  - now rewrite app_nil_r.
  - rewrite IH. unfold placeholder. now rewrite <- !app_assoc.
Qed.

(** The texts in template order. *)
Definition texts_for (ps : list (str * str * conv)) (tx : dict str) : list (str * str) :=
  map (fun n => (n, match dget n tx with Some t => t | None => [] end)) (names ps).

Lemma prender_filled ps tail tx : (forall n, In n (names ps) -> dget n tx <> None) ->
  prender (map (fill tx) (pieces_of ps tail)) = filled_parts ps (texts_for ps tx) ++ tail.
Proof.
  induction ps as [|[[l n] c] ps IH]; intros H; unfold prender in *; cbn [pieces_of map concat prender1 fill].
  - now rewrite app_nil_r.
  - unfold texts_for in *. cbn [names map fst snd filled_parts].
    destruct (dget n tx) eqn:E; [|exfalso; apply (H n); [now left|assumption]].
    cbn [prender1]. rewrite IH by (intros m Hm; apply H; now right). now rewrite <- !app_assoc.
Qed.

Lemma plain_no_brace l : plain l -> no_brace l.
Proof. intros H Hin. specialize (H _ Hin). discriminate. Qed.
Lemma pieces_ok ps tail : (forall l n c, In (l, n, c) ps -> plain l /\ is_ident n) -> plain tail -> Forall piece_ok (pieces_of ps tail).
Proof.
  induction ps as [|[[l n] c] ps IH]; intros H Ht; cbn [pieces_of].
  - constructor; [now apply plain_no_brace|constructor].
  - destruct (H l n c (or_introl eq_refl)). constructor; [now apply plain_no_brace|]. constructor; [assumption|].
    apply IH; [|assumption]. intros; eapply H; right; eassumption.
Qed.
Lemma hole_in ps tail n : In n (names ps) -> In (PHole n) (pieces_of ps tail).
Proof.
  induction ps as [|[[l m] c] ps IH]; [intros []|]. cbn [names map fst snd pieces_of]. intros [<-|H]; [right; now left|right; right; auto].
Qed.
Lemma names_ident ps : (forall l n c, In (l, n, c) ps -> plain l /\ is_ident n) -> forall n, In n (names ps) -> is_ident n.
Proof.
  intros H n Hn. apply in_map_iff in Hn as ([[l m] c] & <- & Hin). apply (H _ _ _ Hin).
Qed.
Lemma convs_keys ps : dkeys (convs_of ps) = names ps.
Proof. unfold dkeys, convs_of, names. rewrite map_map. reflexivity. Qed.
Lemma dget_convs ps l n c : NoDup (names ps) -> In (l, n, c) ps -> dget n (convs_of ps) = Some c.
Proof.
  induction ps as [|[[l' n'] c'] ps IH]; [intros _ []|]. intros Hnd Hin. inversion Hnd; subst. cbn [convs_of map fst snd dget].
  destruct Hin as [[= <- <- <-]|Hin]; [now rewrite seqb_refl|].
  destruct (seqb_spec n n') as [->|]; [|now apply IH]. exfalso. apply H1. apply in_map_iff. exists (l, n', c). auto.
Qed.

Lemma same_keys_intro {A B} (a : dict A) (b : dict B) : (forall n, In n (dkeys a) <-> In n (dkeys b)) -> same_keys a b = true.
Proof.
  intros H. unfold same_keys. apply andb_true_iff. split; apply forallb_forall; intros x Hx; apply smem_In; apply H; exact Hx.
Qed.

Lemma normal_keys convs params tx : normal_texts convs params tx -> dkeys tx = dkeys params.
Proof. induction 1 as [|p q ps tx' [H _] _ IH]; [reflexivity|]. unfold dkeys in *. cbn [map]. now rewrite IH, H. Qed.
Lemma normal_get convs params tx k v : normal_texts convs params tx -> dget k params = Some v ->
  exists c t, dget k convs = Some c /\ normalise c v = Some t /\ dget k tx = Some t.
Proof.
  induction 1 as [|[k1 v1] [k2 t2] ps tx' [H (c & Hc & Hn)] _ IH]; [discriminate|]. cbn [fst snd] in *. subst k2.
  cbn [dget]. destruct (seqb_spec k k1) as [->|]; [|exact IH]. intros [= <-]. eauto.
Qed.

Lemma usable_texts ps params :
  (forall l n c v, In (l, n, c) ps -> dget n params = Some v -> usable c v) -> NoDup (names ps) ->
  forall sub, NoDup (dkeys sub) -> (forall k v, In (k, v) sub -> dget k params = Some v) -> (forall n, In n (dkeys sub) -> In n (names ps)) ->
  exists tx, normal_texts (convs_of ps) sub tx /\ (forall k t, In (k, t) tx -> no_brace t).
Proof.
  intros Hu Hnd. induction sub as [|[k v] sub IH]; intros Hs1 Hs2 Hs3.
  - exists []. split; [constructor|intros ? ? []].
  - inversion Hs1; subst. destruct IH as (tx & H3 & H4); auto.
    { intros; apply Hs2; now right. } { intros n Hn; apply Hs3; now right. }
    assert (In k (names ps)) as Hk by (apply Hs3; now left). apply in_map_iff in Hk as ([[l n] c] & Hkk & Hin). cbn in Hkk. subst n.
    destruct (Hu l k c v Hin (Hs2 _ _ (or_introl eq_refl))) as (_ & _ & t & Ht & Hb).
    exists ((k, t) :: tx). split.
    + constructor; [|assumption]. split; [reflexivity|]. exists c. split; [|assumption]. exact (dget_convs ps l k c Hnd Hin).
    + intros k0 t0 [[= <- <-]|H0]; [assumption|exact (H4 _ _ H0)].
Qed.

Lemma In_dget {V} k (v : V) d : NoDup (dkeys d) -> In (k, v) d -> dget k d = Some v.
Proof.
  induction d as [|[k' v'] d IH]; [intros _ []|]. intros Hnd [[= <- <-]|Hin]; cbn [dget]; [now rewrite seqb_refl|].
  inversion Hnd; subst. destruct (seqb_spec k k') as [->|]; [|auto]. exfalso. apply H1. apply (in_map fst) in Hin. exact Hin.
Qed.

Theorem reverse_roundtrip t params :
  wf_template t -> unambiguous t ->
  NoDup (dkeys params) -> (forall n, In n (dkeys params) <-> In n (names (fst t))) ->
  (forall l n c v, In (l, n, c) (fst t) -> dget n params = Some v -> usable c v) ->
  exists vs, rendered t params vs /\ suits t vs /\
    (canonical (filled t vs) -> (forall q, filled t vs <> q ++ [10%N]) ->
     url_path_for (format_parts (fst t) ++ snd t) (convs_of (fst t)) params = Url (filled t vs) /\
     rmatch (rx_of t) (filled t vs) = Some vs /\
     exists matched, transform_all (convs_of (fst t)) vs = Some matched /\ forall n, dget n matched = dget n params).
Proof.
  destruct t as [ps tail]. cbn [fst snd]. intros (Hw1 & Hw2 & Hw3 & Hw4) Hun Hnd Hkeys Hus. cbn [fst snd] in *.
  change (map (fun p : str * str * conv => snd (fst p)) ps) with (names ps) in Hw3.
  destruct (usable_texts ps params Hus Hw3 params Hnd) as (tx & Htx & Hbr).
  { intros k v Hin. now apply In_dget. } { intros n. apply Hkeys. }
  assert (forall n, In n (names ps) -> exists v c t, dget n params = Some v /\ dget n (convs_of ps) = Some c /\
            normalise c v = Some t /\ dget n tx = Some t) as Hall.
  { intros n Hn. destruct (dget n params) as [v|] eqn:E.
    - destruct (normal_get _ _ _ _ _ Htx E) as (c & t & ? & ? & ?). eauto 8.
    - apply dget_None_keys in E. exfalso. apply E. now apply Hkeys. }
  exists (texts_for ps tx).
  assert (forall qs, incl qs ps -> Forall2 (fun p nv => fst nv = snd (fst p) /\ in_conv (snd p) (snd nv)) qs (texts_for qs tx)) as Hsuit.
  { induction qs as [|[[l n] c] qs IH]; intros Hincl; [constructor|]. constructor; [|apply IH; intros x Hx; apply Hincl; now right].
    cbn [fst snd]. split; [reflexivity|]. assert (In (l, n, c) ps) as Hin by (apply Hincl; now left).
    assert (In n (names ps)) as Hn by (apply in_map_iff; exists (l, n, c); auto).
    destruct (Hall n Hn) as (v & c' & t & Hv & Hc & Hno & Ht). rewrite Ht.
    rewrite (dget_convs ps l n c Hw3 Hin) in Hc. injection Hc as <-.
    destruct (Hus l n c v Hin Hv) as (Hva & Hpa & _). apply (conv_roundtrip c v t Hva Hpa Hno). }
  split.
  { assert (forall qs, incl qs ps -> Forall2 (fun p nv => fst nv = snd (fst p) /\
        exists v, dget (snd (fst p)) params = Some v /\ normalise (snd p) v = Some (snd nv)) qs (texts_for qs tx)) as Hr.
    { induction qs as [|[[l n] c] qs IH]; intros Hincl; [constructor|]. constructor; [|apply IH; intros x Hx; apply Hincl; now right].
      cbn [fst snd]. split; [reflexivity|]. assert (In (l, n, c) ps) as Hin by (apply Hincl; now left).
      assert (In n (names ps)) as Hn by (apply in_map_iff; exists (l, n, c); auto).
      destruct (Hall n Hn) as (v & c' & t & Hv & Hc & Hno & Ht). rewrite Ht.
      rewrite (dget_convs ps l n c Hw3 Hin) in Hc. injection Hc as <-. eauto. }
    apply Hr. apply incl_refl. }
  split; [apply Hsuit; apply incl_refl|]. intros Hcan Hnl.
  assert (suits (ps, tail) (texts_for ps tx)) as Hs by (apply Hsuit; apply incl_refl).
  split; [|split].
  - unfold url_path_for. rewrite same_keys_intro by (intros n; rewrite convs_keys; apply Hkeys).
    unfold replace_params. rewrite <- prender_pieces.
    rewrite (replace_loop_pieces (convs_of ps) params tx (pieces_of ps tail) []); auto.
    + cbn [app]. rewrite prender_filled by (intros n Hn; destruct (Hall n Hn) as (? & ? & ? & _ & _ & _ & ->); discriminate).
      f_equal. now apply clean_path_id.
    + intros k Hk. apply Hkeys in Hk. split; [eapply names_ident; eauto|now apply hole_in].
    + apply pieces_ok; assumption.
  - destruct (rmatch (rx_of (ps, tail)) (filled (ps, tail) (texts_for ps tx))) as [vs'|] eqn:E.
    + destruct (rmatch_sound _ _ _ _ E) as [Hs' [Ho|Ho]]; [|exfalso; exact (Hnl _ Ho)].
      f_equal. apply (instance_unique (ps, tail) Hun vs' _ (filled (ps, tail) (texts_for ps tx))); split; auto.
    + exfalso. apply (rmatch_complete ps tail (texts_for ps tx) _ Hs (or_introl eq_refl) E).
  - assert (forall qs, incl qs ps -> NoDup (names qs) -> exists m, transform_all (convs_of ps) (texts_for qs tx) = Some m /\ dkeys m = names qs /\
       forall n, In n (names qs) -> dget n m = dget n params) as G.
    { induction qs as [|[[l n] c] qs IH]; intros Hincl Hndq.
      - exists []. split; [reflexivity|]. split; [reflexivity|intros ? []].
      - inversion Hndq; subst. destruct IH as (m & Em & Hm & Hget); [intros x Hx; apply Hincl; now right|assumption|].
        assert (In (l, n, c) ps) as Hin by (apply Hincl; now left).
        assert (In n (names ps)) as Hn by (apply in_map_iff; exists (l, n, c); auto).
        destruct (Hall n Hn) as (v & c' & t & Hv & Hc & Hno & Ht).
        pose proof Hc as Hc2. rewrite (dget_convs ps l n c Hw3 Hin) in Hc2. injection Hc2 as <-.
        destruct (Hus l n c v Hin Hv) as (Hva & Hpa & _).
        destruct (conv_roundtrip c v t Hva Hpa Hno) as [_ Htr].
        exists ((n, v) :: m). unfold texts_for in *. cbn [names map fst snd transform_all]. rewrite Hc, Ht, Htr.
        change (fun p : str * str * conv => snd (fst p)) with (fun p : str * str * conv => snd (fst p)) in Em.
        unfold names in Em. rewrite Em. split; [reflexivity|]. split; [unfold dkeys in *; cbn [map fst]; unfold names in Hm; now rewrite Hm|].
        intros n0 [<-|H0]; cbn [dget]; [now rewrite seqb_refl|].
        destruct (seqb_spec n0 n) as [->|]; [congruence|now apply Hget]. }
    destruct (G ps (incl_refl _) Hw3) as (m & Em & Hm & Hget). exists m. split; [exact Em|].
    intros n. destruct (in_dec str_eq_dec n (names ps)) as [Hin|Hin]; [now apply Hget|].
    transitivity (@None pvalue).
    + apply dget_None_keys. now rewrite Hm.
    + symmetry. apply dget_None_keys. now rewrite Hkeys.
Qed.

Lemma rendered_unique t params vs vs' : rendered t params vs -> rendered t params vs' -> vs = vs'.
Proof.
  unfold rendered. intros H. revert vs'. induction H as [|p [n v] ps vs [Hn (w & Hw & Hv)] _ IH]; intros vs' H'; inversion H' as [|? [n' v'] ? vs'' [Hn' (w' & Hw' & Hv')] Hr]; subst; [reflexivity|].
  cbn [fst snd] in *. subst. f_equal; [congruence|auto].
Qed.

Lemma dkeys_dset {V} (k x : str) (v : V) d : In x (dkeys (dset k v d)) <-> x = k \/ In x (dkeys d).
Proof.
  induction d as [|[k' v'] d IH]; cbn [dset].
  - cbn. split; intros [H|[]]; auto.
  - destruct (seqb_spec k k') as [->|Hne].
    + cbn. split; [intros [->|H]; auto|intros [->|[H|H]]; auto].
    + unfold dkeys in *. cbn [map fst In]. rewrite IH. tauto.
Qed.

Lemma generate_dup ms : forall rx fmt cs dup r f c d,
  generate ms rx fmt cs dup = Some (r, f, c, d) ->
  dup = true \/ (exists n, In n (map (fun m => snd (fst m)) ms) /\ In n (dkeys cs)) \/ ~ NoDup (map (fun m => snd (fst m)) ms) -> d = true.
Proof.
  induction ms as [|[[lit n] ty] ms IH]; intros rx fmt cs dup r f c d; cbn [generate map fst snd].
  - intros [= <- <- <- <-] [H|[(n & [] & _)|H]]; [assumption|]. exfalso. apply H. constructor.
  - destruct (get_transformer ty) as [cv|]; [|discriminate]. intros G H. apply (IH _ _ _ _ _ _ _ _ G).
    destruct (in_dec str_eq_dec n (dkeys cs)) as [Hin|Hin].
    { left. apply orb_true_iff. right. unfold dmem. destruct (dget n cs) eqn:E; [reflexivity|]. apply dget_None_keys in E. contradiction. }
    destruct H as [->|[(m & [<-|Hm] & Hk)|H]].
    + now left.
    + contradiction.
    + right. left. exists m. split; [assumption|]. apply dkeys_dset. now right.
    + right. destruct (in_dec str_eq_dec n (map (fun m => snd (fst m)) ms)) as [Hn|Hn].
      * left. exists n. split; [assumption|]. apply dkeys_dset. now left.
      * right. intros Hnd. apply H. constructor; assumption.
Qed.

Lemma compile_duplicate t :
  (forall l n c, In (l, n, c) (fst t) -> plain l /\ is_ident n) -> plain (snd t) -> ~ NoDup (names (fst t)) ->
  compile_path (written t) = CompileError.
Proof.
  destruct t as [ps tail]. cbn [fst snd]. intros H1 H2 H3. unfold compile_path, finditer. rewrite (scan_written ps tail) by (auto; cbn; lia).
  destruct ps as [|[[l n] c] ps]; [exfalso; apply H3; constructor|].
  cbn [app].
  match goal with |- context [generate ?a ?b ?c0 ?d ?e] => destruct (generate a b c0 d e) as [[[[rx fmt] cs] dup]|] eqn:G end; [|reflexivity].
  apply generate_dup in G; [now rewrite G|]. right. right. intros Hnd. apply H3. clear -Hnd.
  match type of Hnd with NoDup ?x => replace x with (names ((l, n, c) :: ps)) in Hnd; [exact Hnd|] end.
  cbn [names map fst snd]. f_equal. rewrite map_map. reflexivity.
Qed.
