From Verif Require Import PyStr PyStrFacts Utf8 HeaderModel HeaderSpec HeaderProofs CookieModel CookieSpec.
From Verif Require RouterProofs RouterDeferProofs PathNestProofs.
From Verif Require Import MultipartFormProofs.

(** ** Quoting *)
Lemma below_256 (P : N -> bool) : forallb P (map N.of_nat (seq 0 256)) = true -> forall c, (c < 256)%N -> P c = true.
Proof.
  intros H c L. rewrite forallb_forall in H. apply H. apply in_map_iff. exists (N.to_nat c). split; [apply N2Nat.id|].
  apply in_seq. lia.
Qed.

Definition oct_ok (c : N) : bool :=
  match octal c with
  | [x; a; b; d] => N.eqb x 92 && oct3 a b d && N.eqb ((a - 48) * 64 + (b - 48) * 8 + (d - 48)) c && negb (cmem 59 (octal c))
  | _ => false
  end.
Lemma octal_ok c : (c < 256)%N -> oct_ok c = true.
Proof. apply (below_256 oct_ok). vm_compute. reflexivity. Qed.

Lemma unescape_translate c r : unescape (translate c ++ r) = c :: unescape r.
Proof.
  unfold translate. destruct (N.eqb_spec c 34) as [->|N34].
  { cbn [app unescape]. change (N.eqb 92 92) with true. cbv iota. destruct r as [|b [|d r3]]; reflexivity. }
  destruct (N.eqb_spec c 92) as [->|N92].
  { cbn [app unescape]. change (N.eqb 92 92) with true. cbv iota. destruct r as [|b [|d r3]]; reflexivity. }
  destruct ((c <? 256)%N && negb (cmem c unescaped_chars)) eqn:E.
  - apply andb_true_iff in E. destruct E as (L & _). apply N.ltb_lt in L. pose proof (octal_ok c L) as O. unfold oct_ok, octal in O.
    rewrite !andb_true_iff in O. destruct O as (((_ & O3) & V) & _). apply N.eqb_eq in V.
    unfold octal. cbn [app unescape]. change (N.eqb 92 92) with true. cbv iota zeta. rewrite O3. f_equal. exact V.
  - cbn [app unescape]. destruct (N.eqb_spec c 92); [contradiction | reflexivity].
Qed.

Lemma unescape_flat s : unescape (flat_map translate s) = s.
Proof.
  induction s as [|c s IH]; [reflexivity|]. cbn [flat_map]. rewrite unescape_translate, IH. reflexivity.
Qed.

Lemma legal_lt c : cmem c legal_chars = true -> is_space c = false /\ c <> 59%N /\ c <> 61%N /\ c <> 34%N.
Proof.
  intros H.
  assert (G : forallb (fun c => negb (is_space c) && negb (N.eqb c 59) && negb (N.eqb c 61) && negb (N.eqb c 34)) legal_chars = true) by (vm_compute; reflexivity).
  rewrite forallb_forall in G. apply PyStrFacts.cmem_In in H. specialize (G c H). rewrite !andb_true_iff, !negb_true_iff, !N.eqb_neq in G. tauto.
Qed.

Lemma legal_key_all s : is_legal_key s = true -> s <> [] /\ forall c, In c s -> cmem c legal_chars = true.
Proof.
  destruct s as [|x s]; [discriminate|]. intros H. split; [discriminate|]. apply forallb_forall. exact H.
Qed.

Definition solid (s : str) : Prop := match s with c :: _ => is_space c = false | [] => True end /\ match rev s with c :: _ => is_space c = false | [] => True end.
Lemma solid_strip a s b : forallb is_space a = true -> forallb is_space b = true -> solid s -> strip (a ++ s ++ b) = s.
Proof. intros A B (S1 & S2). apply strip_by_pad; assumption. Qed.
Lemma solid_self s : solid s -> strip s = s.
Proof. intros S. pose proof (solid_strip [] s [] eq_refl eq_refl S) as H. cbn [app] in H. rewrite app_nil_r in H. exact H. Qed.
Lemma no_space_solid s : (forall c, In c s -> is_space c = false) -> solid s.
Proof.
  intros H. split; [destruct s; [exact I | apply H; left; reflexivity]|].
  destruct (rev s) as [|c r] eqn:E; [exact I|]. apply H. apply in_rev. rewrite E. left. reflexivity.
Qed.

Lemma legal_solid s : is_legal_key s = true -> solid s.
Proof. intros H. apply no_space_solid. intros c Hc. apply legal_lt. apply (legal_key_all s H). exact Hc. Qed.

Lemma cquote_solid s : solid (cquote s) /\ ~ In 59%N (cquote s).
Proof.
  unfold cquote. destruct (is_legal_key s) eqn:E.
  - split; [apply legal_solid; exact E|]. intros H. apply (legal_key_all s E) in H. apply legal_lt in H. tauto.
  - split; [split; [reflexivity | rewrite app_assoc, rev_app_distr; reflexivity]|].
    rewrite !in_app_iff. intros [[H|[]]|[H|[H|[]]]]; try discriminate H. apply in_flat_map in H. destruct H as (c & _ & H). revert H. unfold translate.
    destruct (N.eqb_spec c 34); [intros [H|[H|[]]]; discriminate H|]. destruct (N.eqb_spec c 92); [intros [H|[H|[]]]; discriminate H|].
    destruct ((c <? 256)%N && negb (cmem c unescaped_chars)) eqn:X.
    + apply andb_true_iff in X. destruct X as (L & _). apply N.ltb_lt in L. pose proof (octal_ok c L) as O. unfold oct_ok, octal in O.
      rewrite !andb_true_iff in O. destruct O as (_ & O). apply negb_true_iff, PyStrFacts.cmem_not_In in O. exact O.
    + intros [->|[]]. vm_compute in X. discriminate X.
Qed.

Lemma cunquote_cquote s : cunquote (cquote s) = s.
Proof.
  unfold cquote. destruct (is_legal_key s) eqn:E.
  - unfold cunquote. destruct s as [|c s]; [discriminate|]. assert (N.eqb 34 c = false) as X.
    { apply N.eqb_neq. intros <-. cbn in E. discriminate E. }
    cbn [prefixb]. rewrite X. cbn [andb]. rewrite andb_false_r. reflexivity.
  - unfold cunquote. set (b := flat_map translate s).
    assert (P : prefixb [34%N] ([34%N] ++ b ++ [34%N]) = true) by reflexivity.
    assert (Q : suffixb [34%N] ([34%N] ++ b ++ [34%N]) = true) by (apply suffixb_iff; exists ([34%N] ++ b); rewrite <- app_assoc; reflexivity).
    assert (L : length ([34%N] ++ b ++ [34%N]) = S (S (length b))) by (rewrite !app_length; cbn; lia).
    rewrite P, Q, L. cbn [Nat.leb andb app skipn]. replace (S (S (length b)) - 2) with (length b) by lia.
    rewrite firstn_app, firstn_all, Nat.sub_diag. cbn [firstn]. rewrite app_nil_r. apply unescape_flat.
Qed.

(** ** Reading Cookie headers *)
Definition good_pair (c : str * str) : Prop :=
  solid (fst c) /\ ~ In 59%N (fst c) /\ ~ In 61%N (fst c) /\ solid (snd c) /\ ~ In 59%N (snd c).
Definition pair_text (c : str * str) : str := fst c ++ u "=" ++ snd c.
Definition decoded (c : str * str) : str * str := (fst c, unquote (cunquote (snd c))).

Lemma split_join_semi x xs : ~ In 59%N x -> (forall y, In y xs -> ~ In 59%N y) ->
  split_char 59 (join (u "; ") (x :: xs)) = x :: map (fun y => u " " ++ y) xs.
Proof.
  revert x. induction xs as [|y xs IH]; intros x Hx H.
  - cbn [join map]. apply split_char_free. exact Hx.
  - cbn [join map]. change (u "; ") with [59%N; 32%N] at 1. cbn [app]. rewrite split_char_app by exact Hx. f_equal.
    specialize (IH y (H y (or_introl eq_refl)) (fun z Hz => H z (or_intror Hz))). cbn [join map] in IH.
    cbn [split_char]. change (N.eqb 32 59) with false. cbv iota. rewrite IH. reflexivity.
Qed.

Lemma parser_pairs cs : cs <> [] -> Forall good_pair cs ->
  cookie_parser (join (u "; ") (map pair_text cs)) = dupdate [] (map decoded cs).
Proof.
  intros NE G. destruct cs as [|c cs]; [congruence|]. cbn [map].
  assert (NS : forall c, good_pair c -> ~ In 59%N (pair_text c)).
  { intros c0 (_ & A & _ & _ & B). unfold pair_text. rewrite !in_app_iff. intros [X|[[X|[]]|X]]; [exact (A X) | discriminate X | exact (B X)]. }
  unfold cookie_parser. inversion G as [|? ? G1 G2]; subst.
  rewrite split_join_semi.
  2: { apply NS; exact G1. }
  2: { intros y Hy. apply in_map_iff in Hy. destruct Hy as (z & <- & Hz). apply NS. rewrite Forall_forall in G2. apply G2. exact Hz. }
  match goal with |- fold_left ?F _ _ = _ => set (f := F) end.
  assert (Step : forall (a : str) c0 (d : dict str), forallb is_space a = true -> ~ In 61%N a -> good_pair c0 ->
    f d (a ++ pair_text c0) = dset (fst (decoded c0)) (snd (decoded c0)) d).
  { intros a c0 d Ha Ha1 (S1 & A1 & A2 & S2 & A3). unfold f, pair_text. rewrite app_assoc. change (u "=" ++ snd c0) with (61%N :: snd c0).
    rewrite split1_app by (rewrite in_app_iff; tauto). cbn [decoded fst snd].
    rewrite (solid_self (snd c0) S2). pose proof (solid_strip a (fst c0) [] Ha eq_refl S1) as E. rewrite app_nil_r in E. rewrite E. reflexivity. }
  clearbody f. cbn [fold_left]. pose proof (Step [] c [] eq_refl (fun x => x) G1) as E1. cbn [app] in E1. rewrite E1. clear E1.
  unfold dupdate. cbn [map fold_left]. generalize (dset (fst (decoded c)) (snd (decoded c)) []) as d. clear c G1 G NE.
  induction cs as [|c cs IH]; intros d; [reflexivity|]. inversion G2 as [|? ? G3 G4]; subst. cbn [map fold_left].
  rewrite (Step (u " ") c d) by (reflexivity || exact G3 || (intros [X|[]]; discriminate X)). apply IH. exact G4.
Qed.

Lemma dget_app {V} n (a b : dict V) : dget n (a ++ b) = match dget n a with Some v => Some v | None => dget n b end.
Proof. induction a as [|(k, v) a IH]; [reflexivity|]. cbn [app dget]. destruct (seqb n k); [reflexivity | exact IH]. Qed.

Lemma dget_dupdate_rev {V} (l : dict V) n : dget n (dupdate [] l) = dget n (rev l).
Proof.
  induction l as [|(k, v) l IH] using rev_ind; [reflexivity|].
  unfold dupdate. rewrite fold_left_app. cbn [fold_left fst snd]. rewrite rev_app_distr. cbn [rev app dget].
  destruct (seqb_spec n k) as [->|N]; [apply dget_dset_same|]. rewrite dget_dset_other by exact N. exact IH.
Qed.

Lemma dget_rev {V} (l : dict V) n : NoDup (dkeys l) -> dget n (rev l) = dget n l.
Proof.
  induction l as [|(k, v) l IH]; intros ND; [reflexivity|]. inversion ND as [|? ? N1 N2]; subst. cbn [rev]. rewrite dget_app, IH by exact N2.
  cbn [dget]. destruct (seqb_spec n k) as [->|N].
  - replace (dget k l) with (@None V); [reflexivity|]. symmetry. apply dget_None_keys. exact N1.
  - destruct (dget n l); reflexivity.
Qed.

Lemma dget_dupdate_twice {V} (d l : dict V) n : dget n (dupdate d (dupdate [] l)) = match dget n (rev l) with Some v => Some v | None => dget n d end.
Proof.
  rewrite RouterProofs.dupdate_split, dget_dupdate_rev, dget_rev by (apply RouterDeferProofs.NoDup_dupdate; constructor).
  rewrite dget_dupdate_rev. reflexivity.
Qed.

Lemma cookie_values order (lines : list str) : set_order order ->
  getlist order (u "cookie") (map (fun l => (u "cookie", l)) lines) = lines.
Proof.
  intros O. destruct lines as [|l0 ls0] eqn:El.
  - unfold getlist, multi_items. cbn [map]. destruct (O []) as (_ & SE). destruct (order []) as [|x r]; [reflexivity|].
    exfalso. apply (SE x). left. reflexivity.
  - rewrite <- El. assert (LN : lines <> []) by (rewrite El; discriminate). clear El. rewrite getlist_values.
    + change (lower (u "cookie")) with (u "cookie"). clear. induction lines as [|l ls IH]; [reflexivity|].
      cbn [map]. match goal with |- values ?m (?e :: ?r) = _ => change (values m (e :: r)) with (values m ([e] ++ r)) end.
      rewrite values_app, values_one. cbn [fst snd]. change (seqb (lower (u "cookie")) (u "cookie")) with true. cbv iota. cbn [app]. f_equal. exact IH.
    + exact O.
    + destruct lines; [congruence|]. left. reflexivity.
    + intros k' Hk _. apply in_map_iff in Hk. destruct Hk as (e & <- & He). apply in_map_iff in He. destruct He as (cs & <- & _). reflexivity.
Qed.

Lemma request_lines order lines : set_order order -> Forall (fun cs => cs <> [] /\ Forall good_pair cs) lines ->
  forall n, dget n (request_cookies order (map (fun cs => (u "cookie", join (u "; ") (map pair_text cs))) lines)) = dget n (rev (map decoded (concat lines))).
Proof.
  intros O G n. unfold request_cookies.
  pose proof (cookie_values order (map (fun cs => join (u "; ") (map pair_text cs)) lines) O) as L. rewrite map_map in L. rewrite L. clear L.
  assert (K : forall d, dget n (fold_left (fun d line => dupdate d (cookie_parser line)) (map (fun cs => join (u "; ") (map pair_text cs)) lines) d)
    = match dget n (rev (map decoded (concat lines))) with Some v => Some v | None => dget n d end).
  { clear O. induction lines as [|cs ls IH]; intros d; [reflexivity|]. inversion G as [|? ? (G1 & G2) G3]; subst.
    cbn [map fold_left concat]. rewrite IH by exact G3. rewrite map_app, rev_app_distr, dget_app.
    destruct (dget n (rev (map decoded (concat ls)))); [reflexivity|].
    rewrite parser_pairs by assumption. apply dget_dupdate_twice. }
  rewrite K. destruct (dget n (rev (map decoded (concat lines)))); reflexivity.
Qed.

(** ** Histories of calls *)
Definition core (s : str) : Prop := s <> [] /\ solid s.
Lemma core_app a m b : core a -> core b -> core (a ++ m ++ b).
Proof.
  intros (A0 & A1 & _) (B0 & _ & B2). split; [destruct a; [congruence | discriminate]|]. split.
  - destruct a; [congruence | exact A1].
  - rewrite !rev_app_distr. destruct (rev b) eqn:E; [|exact B2].
    apply (f_equal (@rev N)) in E. rewrite rev_involutive in E. contradiction.
Qed.
Lemma core_join sep x xs : core x -> Forall core xs -> core (join sep (x :: xs)).
Proof.
  revert x. induction xs as [|y xs IH]; intros x Hx H; [exact Hx|]. inversion H as [|? ? H1 H2]; subst.
  change (join sep (x :: y :: xs)) with (x ++ sep ++ join sep (y :: xs)). apply core_app; [exact Hx | apply IH; assumption].
Qed.

(** The texts given for the attributes. *)
Definition text_ok (o : option str) : Prop := forall t, o = Some t -> solid t /\ ~ In 59%N t.
Definition attributes (c : cookie) : list str :=
  attr (u "Domain") (c_domain c) ++ attr (u "expires") (c_expires c) ++ flag (u "HttpOnly") (c_httponly c)
    ++ attr (u "Max-Age") (option_map decz (c_max_age c)) ++ attr (u "Path") (c_path c)
    ++ attr (u "SameSite") (c_samesite c) ++ flag (u "Secure") (c_secure c).

Definition piece_ok (s : str) : Prop := core s /\ ~ In 59%N s.
Lemma attr_ok n o : piece_ok n -> text_ok o -> Forall piece_ok (attr n o).
Proof.
  intros (N1 & N2) T. destruct o as [[|c t]|]; cbn [attr]; [constructor| |constructor]. constructor; [|constructor]. destruct (T _ eq_refl) as (T1 & T2).
  split; [apply core_app; [exact N1 | split; [discriminate | exact T1]]|]. rewrite !in_app_iff. intros [X|[[X|[]]|X]]; [exact (N2 X) | discriminate X | exact (T2 X)].
Qed.
Lemma flag_ok n b : piece_ok n -> Forall piece_ok (flag n b).
Proof. intros H. destruct b; cbn [flag]; [constructor; [exact H | constructor] | constructor]. Qed.

Lemma lit_ok n : n <> [] -> forallb (fun c => negb (is_space c) && negb (N.eqb c 59)) n = true -> piece_ok n.
Proof.
  intros H F. rewrite forallb_forall in F.
  assert (G : forall c, In c n -> is_space c = false /\ c <> 59%N) by (intros c Hc; specialize (F c Hc); rewrite andb_true_iff, !negb_true_iff, N.eqb_neq in F; exact F).
  split; [split; [exact H|]|]; [apply no_space_solid; intros c Hc; apply G; exact Hc | intros Hc; destruct (G _ Hc); congruence].
Qed.

Lemma decz_text z : solid (decz z) /\ ~ In 59%N (decz z).
Proof.
  assert (D : forall c, In c (decz z) -> is_space c = false /\ c <> 59%N).
  { assert (K : forall n c, In c (dec n) -> is_space c = false /\ c <> 59%N).
    { intros n c Hc. pose proof (dec_digits n) as F. rewrite forallb_forall in F. specialize (F c Hc).
      unfold is_digit in F. rewrite andb_true_iff, !N.leb_le in F.
      split; [|lia]. assert (X : (c < 256)%N) by lia.
      assert (Y := below_256 (fun c => negb (is_digit c && is_space c)) eq_refl c X). cbv beta in Y.
      unfold is_digit in Y. destruct (is_space c); [|reflexivity]. rewrite andb_true_r in Y. apply negb_true_iff in Y.
      rewrite andb_false_iff, !N.leb_gt in Y. lia. }
    destruct z as [|p|p]; intros c; cbn [decz]; [apply K | apply K |].
    change (u "-") with [45%N]. cbn [app]. intros [<-|H]; [split; [reflexivity | discriminate] | apply (K _ _ H)]. }
  split; [apply no_space_solid; intros c Hc; apply D; exact Hc | intros H; destruct (D _ H); congruence].
Qed.

Lemma attributes_ok c : text_ok (c_domain c) -> text_ok (c_expires c) -> text_ok (c_path c) -> text_ok (c_samesite c) -> Forall piece_ok (attributes c).
Proof.
  intros H1 H2 H3 H4. unfold attributes. rewrite !Forall_app.
  repeat split; try (apply attr_ok; [apply lit_ok; [discriminate | reflexivity] | try assumption]); try (apply flag_ok, lit_ok; [discriminate | reflexivity]).
  intros t Ht. destruct (c_max_age c) as [z|]; [|discriminate]. injection Ht as <-. apply decz_text.
Qed.

Lemma ends_attr n o : ~ In 61%N n -> seqb (lower (strip (u " " ++ n))) (u "max-age") = false -> existsb ends_now (map (fun y => u " " ++ y) (attr n o)) = false.
Proof.
  intros N1 N2. destruct o as [[|c t]|]; cbn [attr map existsb]; try reflexivity. unfold ends_now. rewrite app_assoc. change (u "=" ++ c :: t) with (61%N :: c :: t).
  rewrite split1_app; [rewrite N2; reflexivity|]. rewrite in_app_iff. intros [[X|[]]|X]; [discriminate X | exact (N1 X)].
Qed.
Lemma ends_flag n b : ~ In 61%N n -> existsb ends_now (map (fun y => u " " ++ y) (flag n b)) = false.
Proof.
  intros N1. destruct b; cbn [flag map existsb]; [|reflexivity]. unfold ends_now. destruct (split1 61 (u " " ++ n)) as [(a, b)|] eqn:E; [|reflexivity].
  exfalso. apply split1_some in E. destruct E as (E & _). assert (X : In 61%N (u " " ++ n)) by (rewrite E, in_app_iff; right; left; reflexivity).
  apply in_app_iff in X. destruct X as [[X|[]]|X]; [discriminate X | exact (N1 X)].
Qed.

Lemma attributes_end c : existsb ends_now (map (fun y => u " " ++ y) (attributes c)) = match c_max_age c with Some z => (z <=? 0)%Z | None => false end.
Proof.
  assert (NI : forall n, cmem 61 n = false -> ~ In 61%N n) by (intros n; apply PyStrFacts.cmem_not_In).
  unfold attributes. rewrite !map_app, !existsb_app.
  rewrite !ends_flag by (apply NI; reflexivity).
  rewrite (ends_attr (u "Domain")), (ends_attr (u "expires")), (ends_attr (u "Path")), (ends_attr (u "SameSite")) by (apply NI; reflexivity) || reflexivity.
  cbn [orb]. rewrite orb_false_r. destruct (c_max_age c) as [z|]; [|reflexivity]. cbn [option_map].
  assert (Z : exists x r, decz z = x :: r).
  { destruct z as [|p|p]; cbn [decz]; [destruct (dec_hd 0) as (x & r & -> & _) | destruct (dec_hd (Npos p)) as (x & r & -> & _) |]; eexists; eexists; reflexivity. }
  destruct Z as (x & r & E). unfold attr. rewrite E. rewrite <- E. cbn [map existsb]. unfold ends_now. rewrite app_assoc. change (u "=" ++ decz z) with (61%N :: decz z).
  rewrite split1_app by (apply NI; reflexivity). rewrite int_parse_decz. change (seqb (lower (strip (u " " ++ u "Max-Age"))) (u "max-age")) with true. cbn [andb].
  apply orb_false_r.
Qed.

Lemma store_line c jar : is_legal_key (c_key c) = true ->
  text_ok (c_domain c) -> text_ok (c_expires c) -> text_ok (c_path c) -> text_ok (c_samesite c) ->
  client_store jar (strip (u " " ++ output_string c)) =
    if match c_max_age c with Some z => (z <=? 0)%Z | None => false end then ddel (c_key c) jar else dset (c_key c) (cquote (c_value c)) jar.
Proof.
  intros L H1 H2 H3 H4. pose proof (attributes_ok c H1 H2 H3 H4) as A.
  change (output_string c) with (join (u "; ") ((c_key c ++ u "=" ++ cquote (c_value c)) :: attributes c)).
  destruct (cquote_solid (c_value c)) as (Q1 & Q2). pose proof (legal_solid _ L) as K1. pose proof (legal_key_all _ L) as (K0 & K2).
  assert (Kc : forall x, In x (c_key c) -> x <> 59%N /\ x <> 61%N) by (intros x Hx; specialize (K2 x Hx); apply legal_lt in K2; tauto).
  assert (QN : cquote (c_value c) <> []) by (unfold cquote; destruct (is_legal_key (c_value c)) eqn:E; [apply legal_key_all in E; tauto | discriminate]).
  assert (P : piece_ok (c_key c ++ u "=" ++ cquote (c_value c))).
  { split; [apply core_app; split; assumption|]. rewrite !in_app_iff. intros [X|[[X|[]]|X]]; [destruct (Kc _ X); congruence | discriminate X | exact (Q2 X)]. }
  assert (C : core (join (u "; ") ((c_key c ++ u "=" ++ cquote (c_value c)) :: attributes c))).
  { apply core_join; [apply P|]. eapply Forall_impl; [|exact A]. intros x Hx; apply Hx. }
  destruct C as (_ & C). pose proof (solid_strip (u " ") _ [] eq_refl eq_refl C) as E. rewrite app_nil_r in E. rewrite E. clear E.
  unfold client_store. rewrite split_join_semi; [|apply P|rewrite Forall_forall in A; intros y Hy; apply (A y Hy)].
  change (u "=" ++ cquote (c_value c)) with (61%N :: cquote (c_value c)).
  rewrite split1_app by (intros X; destruct (Kc _ X); congruence). rewrite attributes_end, (solid_self _ K1), (solid_self _ Q1). reflexivity.
Qed.

Definition perform (h : option headers) (x : call) : option headers :=
  match h with
  | Some h => set_cookie (match x with Put c => c | Drop now c => deleting now c end) h
  | None => None
  end.

Lemma strip_solid t : strip t = t -> solid t.
Proof.
  intros H. apply trimmed_ends. exact H.
Qed.

Lemma name_char_legal c : name_char c = true -> cmem c legal_chars = true.
Proof.
  intros H. assert (L : (c < 256)%N).
  { unfold name_char, between in H. rewrite !orb_true_iff, !andb_true_iff, !N.leb_le in H. destruct H as [H|H]; [lia|].
    apply PyStrFacts.cmem_In in H. assert (F : forallb (fun c => (c <? 256)%N) (u "!#$%&'*+-.^_`|~:") = true) by reflexivity.
    rewrite forallb_forall in F. apply N.ltb_lt, F, H. }
  assert (Y := below_256 (fun c => implb (name_char c) (cmem c legal_chars)) eq_refl c L). cbv beta in Y. rewrite H in Y. exact Y.
Qed.

Lemma usable_legal k : usable_name k -> is_legal_key k = true /\ smem (lower k) reserved = false.
Proof.
  intros (N & F & R). split.
  - destruct k as [|x k]; [congruence|]. cbn [is_legal_key]. apply forallb_forall. intros c Hc. apply name_char_legal. rewrite forallb_forall in F. apply F. exact Hc.
  - destruct (smem (lower k) reserved) eqn:E; [|reflexivity]. exfalso. apply R. apply smem_In. exact E.
Qed.

Definition said (x : call) : cookie := match x with Put c => c | Drop now c => deleting now c end.

Lemma call_adds x h : usable_call x -> set_cookie (said x) h = Some (hadd (u "set-cookie") (strip (u " " ++ output_string (said x))) h).
Proof.
  intros H. assert (U : usable_cookie (match x with Put c | Drop _ c => c end)) by (destruct x; apply H).
  assert (K : c_key (said x) = c_key (match x with Put c | Drop _ c => c end)) by (destruct x; reflexivity).
  assert (S0 : c_samesite (said x) = c_samesite (match x with Put c | Drop _ c => c end)) by (destruct x; reflexivity).
  destruct U as (N & _ & _ & SS). apply usable_legal in N. destruct N as (N1 & N2). unfold set_cookie. rewrite K, N1, N2, S0. cbn [negb orb].
  destruct (c_samesite (match x with Put c | Drop _ c => c end)) as [s|]; [|reflexivity]. specialize (SS s eq_refl).
  destruct SS as [<-|[<-|[<-|[]]]]; reflexivity.
Qed.

Lemma call_stored x jar : usable_call x ->
  client_store jar (strip (u " " ++ output_string (said x))) = match x with Put c => dset (c_key c) (cquote (c_value c)) jar | Drop _ c => ddel (c_key c) jar end.
Proof.
  intros H. assert (T : forall o, attribute_text o -> text_ok o) by (intros o A t Ht; destruct (A t Ht); split; [apply strip_solid; assumption | assumption]).
  assert (SS : forall c, usable_cookie c -> text_ok (c_samesite c)).
  { intros c (_ & _ & _ & S0) t Ht. specialize (S0 t Ht). destruct S0 as [<-|[<-|[<-|[]]]]; (split; [split; reflexivity | apply PyStrFacts.cmem_not_In; reflexivity]). }
  destruct x as [c|now c]; cbn [usable_call said] in *.
  - destruct H as (U & E & M). pose proof U as (U1 & U2 & U3 & U4). rewrite store_line; [|apply usable_legal, U1 | apply T, U2 | apply T, E | apply T, U3 | apply (SS c); exact U].
    destruct (c_max_age c) as [z|]; [|reflexivity]. specialize (M z eq_refl). destruct (Z.leb_spec z 0); [lia | reflexivity].
  - destruct H as (U & E). pose proof U as (U1 & U2 & U3 & U4). rewrite store_line; [|apply usable_legal, U1 | apply T, U2 | apply T, E | apply T, U3 | apply (SS c); exact U].
    reflexivity.
Qed.

(** The jar holds the quoted values. *)
Definition quoted (d : dict str) : dict str := map (fun e => (fst e, cquote (snd e))) d.
Lemma quoted_dset k v d : dset k (cquote v) (quoted d) = quoted (dset k v d).
Proof.
  induction d as [|(a, b) d IH]; [reflexivity|]. cbn [quoted map dset fst snd]. destruct (seqb k a); [reflexivity|]. cbn [quoted map fst snd]. f_equal. exact IH.
Qed.
Lemma quoted_ddel k d : ddel k (quoted d) = quoted (ddel k d).
Proof.
  induction d as [|(a, b) d IH]; [reflexivity|]. cbn [quoted map ddel fst snd]. destruct (seqb k a); [exact IH|]. cbn [quoted map fst snd]. f_equal. exact IH.
Qed.
Lemma ddel_sub {V} k (d : dict V) e : In e (ddel k d) -> In e d.
Proof.
  induction d as [|(a, b) d IH]; [intros []|]. cbn [ddel]. destruct (seqb k a); [intros H; right; apply IH; exact H|]. intros [H|H]; [left; exact H | right; apply IH; exact H].
Qed.

Lemma history calls h0 d0 :
  Forall usable_call calls -> (forall k, In k (map fst h0) -> lower k = u "set-cookie" -> k = u "set-cookie") ->
  exists h, fold_left perform calls (Some h0) = Some h
    /\ (forall k, In k (map fst h) -> lower k = u "set-cookie" -> k = u "set-cookie")
    /\ exists new, values (u "set-cookie") h = values (u "set-cookie") h0 ++ new
       /\ fold_left client_store new (quoted d0) = quoted (fold_left expect calls d0).
Proof.
  revert h0 d0. induction calls as [|x calls IH]; intros h0 d0 F K.
  - exists h0. split; [reflexivity|]. split; [exact K|]. exists []. rewrite app_nil_r. split; reflexivity.
  - inversion F as [|? ? F1 F2]; subst. cbn [fold_left]. unfold perform at 2. change (match x with Put c0 => c0 | Drop now c0 => deleting now c0 end) with (said x).
    rewrite call_adds by exact F1.
    destruct (IH (hadd (u "set-cookie") (strip (u " " ++ output_string (said x))) h0) (expect d0 x) F2) as (h & E & K' & new & V & J).
    { intros k. unfold hadd. rewrite map_app, in_app_iff. intros [H|[<-|[]]]; [apply K; exact H | reflexivity]. }
    exists h. split; [exact E|]. split; [exact K'|]. exists (strip (u " " ++ output_string (said x)) :: new). split.
    + rewrite V, values_add. change (seqb (u "set-cookie") (lower (u "set-cookie"))) with true. cbv iota. rewrite <- app_assoc. reflexivity.
    + cbn [fold_left]. rewrite call_stored by exact F1. rewrite <- J. f_equal. destruct x; cbn [expect]; [apply quoted_dset | apply quoted_ddel].
Qed.

Lemma expect_facts calls : Forall usable_call calls ->
  NoDup (dkeys (fold_left expect calls [])) /\
  forall e, In e (fold_left expect calls []) -> usable_name (fst e) /\ exists c, In (Put c) calls /\ c_key c = fst e /\ c_value c = snd e.
Proof.
  induction calls as [|x calls IH] using rev_ind; intros F; [split; [constructor | intros e []]|].
  apply Forall_app in F. destruct F as (F1 & F2). inversion F2 as [|? ? U _]; subst. destruct (IH F1) as (ND & A).
  rewrite fold_left_app. cbn [fold_left]. destruct x as [c|now c]; cbn [expect].
  - split; [apply PathNestProofs.NoDup_dset; exact ND|]. intros (k, v) He.
    assert (X : (k = c_key c /\ v = c_value c) \/ In (k, v) (fold_left expect calls [])).
    { revert He. clear. generalize (fold_left expect calls []). induction d as [|(a, b) d IH]; cbn [dset].
      - intros [E|[]]. injection E as <- <-. left. split; reflexivity.
      - destruct (seqb_spec (c_key c) a) as [->|]; intros [E|E].
        + injection E as <- <-. left. split; reflexivity.
        + right. right. exact E.
        + right. left. exact E.
        + destruct (IH E); [left; assumption | right; right; assumption]. }
    destruct X as [(-> & ->)|X].
    + cbn [fst snd]. split; [apply U|]. exists c. rewrite in_app_iff. split; [right; left; reflexivity | split; reflexivity].
    + destruct (A _ X) as (A1 & c' & A2 & A3). split; [exact A1|]. exists c'. rewrite in_app_iff. split; [left; exact A2 | exact A3].
  - assert (SUB : forall e, In e (ddel (c_key c) (fold_left expect calls [])) -> In e (fold_left expect calls [])) by (intros e; apply ddel_sub).
    split.
    + clear -ND. unfold dkeys in *. induction (fold_left expect calls []) as [|(a, b) d IH]; [constructor|]. cbn [map fst] in ND. inversion ND as [|? ? N1 N2]; subst.
      cbn [ddel]. destruct (seqb (c_key c) a); [apply IH; exact N2|]. cbn [map fst]. constructor; [|apply IH; exact N2].
      intros H. apply N1. apply in_map_iff in H. destruct H as (e & <- & He). apply ddel_sub in He. apply in_map. exact He.
    + intros e He. destruct (A e (SUB e He)) as (A1 & c' & A2 & A3). split; [exact A1|]. exists c'. rewrite in_app_iff. split; [left; exact A2 | exact A3].
Qed.

Lemma dupdate_nodup {V} (l : dict V) : NoDup (dkeys l) -> dupdate [] l = l.
Proof.
  induction l as [|(k, v) l IH] using rev_ind; intros ND; [reflexivity|]. unfold dkeys in ND. rewrite map_app in ND.
  assert (A : NoDup (map fst l)) by (apply NoDup_remove_1 in ND; rewrite app_nil_r in ND; exact ND).
  assert (B : ~ In k (map fst l)) by (apply NoDup_remove_2 in ND; rewrite app_nil_r in ND; exact ND).
  unfold dupdate. rewrite fold_left_app. change (fold_left (fun d e => dset (fst e) (snd e) d) l []) with (dupdate [] l). rewrite (IH A). cbn [fold_left fst snd].
  apply dset_new. exact B.
Qed.

Lemma round_trip order calls h0 :
  set_order order -> Forall usable_call calls ->
  (forall c, In (Put c) calls -> ~ In 37%N (c_value c)) ->
  (forall k, In k (map fst h0) -> lower k <> u "set-cookie") ->
  exists h, fold_left perform calls (Some h0) = Some h /\
    request_cookies order (client_send (fold_left client_store (values (u "set-cookie") (wire order h)) [])) = fold_left expect calls [].
Proof.
  intros O F P N. destruct (history calls h0 [] F) as (h & E & K & new & V & J); [intros k Hk Hl; exfalso; exact (N k Hk Hl)|].
  exists h. split; [exact E|]. rewrite wire_values, V, (values_nil _ h0 N); [|exact O|].
  2: { intros k k' Hk Hk' L L'. rewrite (K k Hk L), (K k' Hk' L'). reflexivity. }
  cbn [app]. change (quoted []) with (@nil (str * str)) in J. rewrite J. destruct (expect_facts calls F) as (ND & A).
  set (d := fold_left expect calls []) in *. unfold request_cookies, client_send.
  assert (R : map decoded (quoted d) = d).
  { assert (Q : forall e, In e d -> unquote (snd e) = snd e) by (intros e He; destruct (A e He) as (_ & c & C1 & _ & C2); apply unquote_plain; rewrite <- C2; apply P; exact C1).
    clearbody d. clear -Q. induction d as [|(k, v) d IH]; [reflexivity|]. cbn [quoted map decoded fst snd]. f_equal.
    - unfold decoded. cbn [fst snd]. rewrite cunquote_cquote. f_equal. apply (Q (k, v)). left. reflexivity.
    - apply IH. intros e He. apply Q. right. exact He. }
  destruct d as [|e d'] eqn:D.
  - cbn [quoted map]. pose proof (cookie_values order [] O) as CV. cbn [map] in CV. rewrite CV. reflexivity.
  - rewrite <- D in *. assert (DN : quoted d <> []) by (rewrite D; discriminate).
    destruct (quoted d) as [|q qs] eqn:EQ; [congruence|]. rewrite <- EQ in *. pose proof (cookie_values order [join (u "; ") (map pair_text (quoted d))] O) as CV. cbn [map] in CV.
    change (map (fun c => fst c ++ u "=" ++ snd c) (quoted d)) with (map pair_text (quoted d)). rewrite CV. cbn [fold_left].
    rewrite parser_pairs; [|exact DN|].
    + rewrite R, (dupdate_nodup d ND). apply dupdate_nodup. exact ND.
    + apply Forall_forall. intros x Hx. apply in_map_iff in Hx. destruct Hx as ((k, v) & <- & He). destruct (A _ He) as (U & _). cbn [fst snd] in *.
      apply usable_legal in U. destruct U as (L & _). destruct (cquote_solid v) as (Q1 & Q2). pose proof (legal_key_all _ L) as (_ & KA).
      unfold good_pair. cbn [fst snd]. split; [apply legal_solid; exact L|]. split; [|split; [|split; assumption]]; intros X; specialize (KA _ X); apply legal_lt in KA; tauto.
Qed.
