From Verif Require Import PyStr PyStrFacts PathModel PathSpec PathProofs PathMatchProofs PathRevProofs PathIncProofs.

(** * Reverse lookup with parameters for other levels *)
Lemma strip_nobrace s : forall r a x, no_brace s -> s ++ r = a ++ 123%N :: x -> exists a', a = s ++ a' /\ r = a' ++ 123%N :: x.
Proof.
  induction s as [|c s IH]; intros r a x Hs E; [exists a; auto|].
  destruct a as [|d a]; cbn in E.
  - injection E as -> _. exfalso. apply Hs. now left.
  - injection E as -> E. destruct (IH r a x) as (a' & -> & ->); [|assumption|exists a'; auto].
    intros H. apply Hs. now right.
Qed.

Lemma contains_no_hole k ps : is_ident k -> Forall piece_ok ps -> ~ In (PHole k) ps -> containsb (placeholder k) (prender ps) = false.
Proof.
  intros Hk Hok Hn. destruct (containsb (placeholder k) (prender ps)) eqn:E; [|reflexivity]. exfalso.
  apply containsb_iff in E as (a & b & E). rewrite placeholder_cons in E. cbn [app] in E. rewrite <- app_assoc in E. cbn [app] in E.
  revert a E. induction Hok as [|p ps Hp Hok IH]; intros a E.
  - destruct a; discriminate.
  - unfold prender in *. cbn [map concat] in E. destruct p as [s|n]; cbn [prender1 piece_ok] in *.
    + apply strip_nobrace in E as (a' & _ & E); [|assumption]. apply (IH ltac:(intros H; apply Hn; now right) a' E).
    + rewrite placeholder_cons in E. cbn [app] in E. destruct a as [|d a]; cbn [app] in E.
      * injection E as E. apply Hn. left. f_equal. rewrite <- app_assoc in E. cbn [app] in E.
        eapply (delim_unique_run (fun x => negb (N.eqb x 125))); try exact E; try reflexivity;
          intros x Hx; destruct (N.eqb_spec x 125); try reflexivity; subst; exfalso; revert Hx; now apply ident_no.
      * injection E as _ E. apply strip_nobrace in E as (a' & _ & E).
        -- apply (IH ltac:(intros H; apply Hn; now right) a' E).
        -- intros H. apply in_app_or in H as [H|[H|[]]]; [revert H; now apply ident_no|discriminate].
Qed.

Lemma fill_hole_other k v k0 pcs : k0 <> k -> In (PHole k0) (map (fill [(k, v)]) pcs) <-> In (PHole k0) pcs.
Proof.
  intros Hne. rewrite in_map_iff. split.
  - intros ([s|n] & E & Hin); cbn [fill dget] in E; [discriminate|]. destruct (seqb n k); [discriminate|]. now injection E as ->.
  - intros Hin. exists (PHole k0). split; [|assumption]. cbn [fill dget]. destruct (seqb_spec k0 k); [congruence|reflexivity].
Qed.

Definition sel (H : list str) (b : bool) (params : dict pvalue) : dict pvalue :=
  filter (fun kv => Bool.eqb (smem (fst kv) H) b) params.

Lemma replace_loop_split convs H params : forall tx pcs rem,
  normal_texts convs (sel H true params) tx -> NoDup (dkeys params) ->
  (forall k t, In (k, t) tx -> no_brace t) -> (forall k, In k (dkeys params) -> is_ident k) ->
  (forall k, In k (dkeys params) -> (In (PHole k) pcs <-> In k H)) ->
  Forall piece_ok pcs ->
  replace_loop (prender pcs) convs params rem = RevOk (prender (map (fill tx) pcs)) (rem ++ sel H false params).
Proof.
  induction params as [|[k v] params IH]; intros tx pcs rem Ht Hnd Hb Hid Hh Hok.
  - inversion Ht; subst. cbn [replace_loop sel filter]. rewrite app_nil_r. f_equal. f_equal. clear. induction pcs as [|p pcs IH]; [reflexivity|].
    cbn [map]. rewrite <- IH. now destruct p.
  - cbn [replace_loop]. unfold sel in *. cbn [filter fst] in *. inversion Hnd; subst.
    pose proof (Hid k (or_introl eq_refl)) as Hk. pose proof (Hh k (or_introl eq_refl)) as Hhk.
    destruct (smem k H) eqn:Es.
    + cbn [Bool.eqb] in *. apply smem_In in Es. apply Hhk in Es.
      inversion Ht as [|? [k' t] ? tx' [Hkk (c & Hc & Hn)] Ht']; subst. cbn [fst snd] in *. subst k'.
      rewrite contains_hole by assumption. rewrite Hc, Hn. rewrite replace_pieces by assumption.
      rewrite (IH tx').
      * f_equal. f_equal. rewrite map_map. apply map_ext. intros p. apply fill_fill.
      * assumption.
      * assumption.
      * intros k0 t0 H0. apply (Hb k0). now right.
      * intros k0 H0. apply Hid. now right.
      * intros k0 H0. rewrite fill_hole_other by (intros ->; contradiction). apply Hh. now right.
      * apply fill_ok; [|assumption]. intros k0 t0 [[= <- <-]|[]]. apply (Hb k). now left.
    + cbn [Bool.eqb] in *. assert (~ In (PHole k) pcs) as Hnh by (rewrite Hhk; intros Hin; apply smem_In in Hin; congruence).
      rewrite contains_no_hole by assumption. rewrite (IH tx) by (auto; intros k0 H0; apply Hid || apply Hh; now right).
      now rewrite <- app_assoc.
Qed.

Lemma dkeys_sel H b params x : In x (dkeys (sel H b params)) <-> In x (dkeys params) /\ Bool.eqb (smem x H) b = true.
Proof.
  unfold dkeys, sel. rewrite !in_map_iff. split.
  - intros ([k v] & <- & Hin). apply filter_In in Hin as [Hin E]. split; [exists (k, v); auto|exact E].
  - intros [([k v] & <- & Hin) E]. exists (k, v). split; [reflexivity|]. apply filter_In. auto.
Qed.
Lemma NoDup_sel H b params : NoDup (dkeys params) -> NoDup (dkeys (sel H b params)).
Proof.
  induction params as [|[k v] params IH]; intros Hnd; [constructor|]. inversion Hnd; subst.
  unfold sel in *. cbn [filter fst]. destruct (Bool.eqb (smem k H) b) eqn:E; [|auto].
  cbn [dkeys map fst]. constructor; [|auto]. intros Hin. apply H2. apply (dkeys_sel H b params k). exact Hin.
Qed.
Lemma dget_sel H b params n : dget n (sel H b params) = if Bool.eqb (smem n H) b then dget n params else None.
Proof.
  induction params as [|[k v] params IH]; [cbn; now destruct (Bool.eqb _ _)|].
  unfold sel in *. cbn [filter fst dget]. destruct (seqb_spec n k) as [->|Hne].
  - destruct (Bool.eqb (smem k H) b) eqn:E.
    + cbn [dget]. now rewrite seqb_refl.
    + rewrite IH, ?E. reflexivity.
  - destruct (Bool.eqb (smem k H) b).
    + cbn [dget]. destruct (seqb_spec n k); [contradiction|exact IH].
    + exact IH.
Qed.

Lemma NoDup_dset {V} k (v : V) d : NoDup (dkeys d) -> NoDup (dkeys (dset k v d)).
Proof.
  induction d as [|[k' v'] d IH]; intros Hnd; cbn [dset].
  - repeat constructor. intros [].
  - inversion Hnd; subst. destruct (seqb_spec k k') as [->|Hne].
    + cbn. constructor; assumption.
    + cbn [dkeys map fst]. constructor; [|auto]. change (map fst (dset k v d)) with (dkeys (dset k v d)).
      rewrite dkeys_dset. intros [->|Hin]; contradiction.
Qed.

Lemma hole_names ps tail k : In (PHole k) (pieces_of ps tail) -> In k (names ps).
Proof.
  induction ps as [|[[l n] c] ps IH]; cbn [pieces_of].
  - intros [H|[]]; discriminate.
  - intros [H|[H|H]]; [discriminate|injection H as ->; now left|right; auto].
Qed.

Lemma rendered_texts ps params tx tail : NoDup (names ps) ->
  (forall n, In n (names ps) -> exists v c t, dget n params = Some v /\ dget n (convs_of ps) = Some c /\
            normalise c v = Some t /\ dget n tx = Some t) -> rendered (ps, tail) params (texts_for ps tx).
Proof.
  intros Hnd Hall. assert (forall qs, incl qs ps -> Forall2 (fun p nv => fst nv = snd (fst p) /\
        exists v, dget (snd (fst p)) params = Some v /\ normalise (snd p) v = Some (snd nv)) qs (texts_for qs tx)) as Hr.
  { induction qs as [|[[l n] c] qs IH]; intros Hincl; [constructor|]. constructor; [|apply IH; intros x Hx; apply Hincl; now right].
    cbn [fst snd]. split; [reflexivity|]. assert (In (l, n, c) ps) as Hin by (apply Hincl; now left).
    assert (In n (names ps)) as Hn by (apply in_map_iff; exists (l, n, c); auto).
    destruct (Hall n Hn) as (v & c' & t & Hv & Hc & Hno & Ht). rewrite Ht.
    rewrite (dget_convs ps l n c Hnd Hin) in Hc. injection Hc as <-. eauto. }
  apply Hr. apply incl_refl.
Qed.

Lemma rendered_suits t params vs :
  (forall l n c v, In (l, n, c) (fst t) -> dget n params = Some v -> usable c v) ->
  rendered t params vs -> suits t vs.
Proof.
  unfold rendered, suits. intros Hu H. induction H as [|[[l n] c] [n' v] ps vs [Hn (w & Hw & Hv)] _ IH]; [constructor|].
  cbn [fst snd] in *. constructor; cbn [fst snd].
  - split; [assumption|]. destruct (Hu l n c w (or_introl eq_refl) Hw) as (H1 & H2 & _). now apply (conv_roundtrip c w v).
  - apply IH. intros l0 n0 c0 v0 Hin. apply (Hu l0 n0 c0 v0). now right.
Qed.

Lemma rstrip_canonical p : canonical p -> p <> [slash] -> rstrip_by is_slash p = p.
Proof.
  intros [->|(_ & _ & He)] Hr; [congruence|]. unfold rstrip_by. rewrite lstrip_by_id; [apply rev_involutive|].
  destruct (rev p) as [|c r] eqn:E; [exact I|]. unfold is_slash. destruct (N.eqb_spec c slash) as [->|]; [|reflexivity].
  exfalso. apply (He (rev r)). rewrite <- (rev_involutive p), E. reflexivity.
Qed.

Lemma include_prefix_spec t p rx fmt convs params vs :
  mountable t p -> compile_path (include_template p) = Compiled rx fmt convs ->
  NoDup (dkeys params) -> (forall k, In k (dkeys params) -> is_ident k) ->
  (forall l n c v, In (l, n, c) (fst t) -> dget n params = Some v -> usable c v) ->
  rendered t params vs -> level_ok t vs ->
  exists prefix rem, include_prefix fmt convs params = RevOk prefix rem /\ rstrip_by is_slash prefix = filled t vs /\
    NoDup (dkeys rem) /\ forall n, dget n rem = if smem n (names (fst t)) then None else dget n params.
Proof.
  intros Hm Hc Hnd Hid Hus Hr Hlev. pose proof (mount_wf t p Hm) as Hwm.
  rewrite (include_template_written t p Hm), (compile_written _ Hwm) in Hc. injection Hc as _ <- <-.
  destruct t as [ps tail]. destruct Hm as (H1 & H2 & H3 & H4 & H5). cbn [fst snd] in H1, H2, H3, H4.
  destruct Hwm as (W1 & W2 & W3 & W4).
  set (ps' := fst (mount_template (ps, tail))) in *. set (tail' := snd (mount_template (ps, tail))) in *.
  set (params' := dset (u "path") (VText []) params).
  change (map (fun p : str * str * conv => snd (fst p)) ps') with (names ps') in W3.
  assert (NoDup (dkeys params')) as Hnd' by now apply NoDup_dset.
  assert (names ps' = names ps ++ [u "path"]) as Hnames by (unfold ps', names, mount_template; cbn [fst]; rewrite map_app; reflexivity).
  assert (forall n, n <> u "path" -> dget n params' = dget n params) as Hget by (intros; now apply dget_dset_other).
  assert (dget (u "path") params' = Some (VText [])) as Hgp by apply dget_dset_same.
  assert (forall l n c v, In (l, n, c) ps' -> dget n params' = Some v -> usable c v) as Hus'.
  { intros l n c v Hin Hd. unfold ps', mount_template in Hin. cbn [fst snd] in Hin. apply in_app_or in Hin as [Hin|[[= <- <- <-]|[]]].
    - apply (Hus l n c v Hin). rewrite <- Hget; [assumption|]. intros ->. apply H4. apply in_map_iff. now exists (l, u "path", c).
    - assert (dget (u "path") params' = Some v) as Hd2 by exact Hd. rewrite Hgp in Hd2. injection Hd2 as <-. split; [exact I|]. split; [intros []|]. exists []. split; [reflexivity|intros []]. }
  assert (In (u "path") (dkeys params')) as Hpk by (apply dkeys_dset; now left).
  assert (forall n, In n (names ps') -> In n (dkeys params')) as Hsub.
  { intros n Hn. rewrite Hnames in Hn. apply in_app_or in Hn as [Hn|[<-|[]]]; [|assumption]. apply dkeys_dset. right.
    clear -Hr Hn. unfold rendered in Hr. cbn [fst] in Hr. apply in_map_iff in Hn as (q & <- & Hin).
    induction Hr as [|q' nv qs vs [_ (v & Hv & _)] _ IH]; [destruct Hin|]. destruct Hin as [->|Hin]; [|auto].
    apply dget_Some_In in Hv. apply (in_map fst) in Hv. exact Hv. }
  destruct (usable_texts ps' params' Hus' W3 (sel (names ps') true params')) as (tx & Htx & Hbr).
  { now apply NoDup_sel. }
  { intros k v Hin. unfold sel in Hin. apply filter_In in Hin as [Hin _]. now apply In_dget. }
  { intros n Hn. apply dkeys_sel in Hn as [_ E]. apply eqb_prop in E. now apply smem_In. }
  assert (forall n, In n (names ps') -> exists v c t, dget n params' = Some v /\ dget n (convs_of ps') = Some c /\
            normalise c v = Some t /\ dget n tx = Some t) as Hall.
  { intros n Hn. destruct (dget n (sel (names ps') true params')) as [v|] eqn:E.
    - destruct (normal_get _ _ _ _ _ Htx E) as (c & t & ? & ? & ?). exists v, c, t. split; [|auto].
      rewrite dget_sel in E. destruct (Bool.eqb _ _); [assumption|discriminate].
    - exfalso. apply dget_None_keys in E. apply E. apply dkeys_sel. split; [now apply Hsub|]. apply smem_In in Hn. now rewrite Hn. }
  assert (replace_loop (format_parts ps' ++ tail') (convs_of ps') params' [] =
          RevOk (filled (ps', tail') (texts_for ps' tx)) ([] ++ sel (names ps') false params')) as HL.
  { rewrite <- prender_pieces. rewrite (replace_loop_split (convs_of ps') (names ps') params' tx (pieces_of ps' tail') []); auto.
    - rewrite prender_filled by (intros n Hn; destruct (Hall n Hn) as (? & ? & ? & _ & _ & _ & ->); discriminate). reflexivity.
    - intros k Hk. apply dkeys_dset in Hk as [->|Hk]; [|auto]. split; [reflexivity|]. intros x Hx. vm_compute in Hx. decompose [or] Hx; subst; try reflexivity; contradiction.
    - intros k Hk. split; [apply hole_names|apply hole_in].
    - apply pieces_ok; assumption. }
  assert (texts_for ps' tx = vs ++ [(u "path", [])]) as Evs.
  { apply (rendered_unique (ps', tail') params').
    - now apply rendered_texts.
    - unfold rendered, ps', mount_template in *. cbn [fst snd] in *. apply Forall2_app.
      + clear -Hr Hget H4. induction Hr as [|[[l n] c] nv qs vs [Hn (v & Hv & Ht)] _ IH]; constructor.
        * cbn [fst snd] in *. split; [assumption|]. exists v. split; [|assumption]. rewrite Hget; [assumption|]. intros ->. apply H4. now left.
        * apply IH. intros Hin. apply H4. now right.
      + constructor; [|constructor]. cbn [fst snd]. split; [reflexivity|]. exists (VText []). split; [assumption|reflexivity]. }
  pose proof (rendered_suits (ps, tail) params vs Hus Hr) as Hs.
  rewrite Evs in HL. change (filled (ps', tail')) with (filled (mount_template (ps, tail))) in HL. rewrite filled_mount in HL by assumption.
  unfold include_prefix, replace_params. match goal with |- context [replace_loop ?a ?b ?c ?d] => replace (replace_loop a b c d) with
    (RevOk (filled (ps, tail) vs ++ [slash]) ([] ++ sel (names ps') false params')) by (symmetry; exact HL) end. cbn [app].
  assert (rstrip_by is_slash (clean_path (filled (ps, tail) vs ++ [slash])) = filled (ps, tail) vs) as Epre.
  { rewrite clean_path_segments. rewrite segments_cat. change (segments []) with (@nil str). rewrite app_nil_r.
    destruct Hlev as [[= -> ->]|[Hcan Hne]].
    - unfold suits in Hs. inversion Hs; subst. reflexivity.
    - rewrite <- (canonical_segments _ Hcan). now apply rstrip_canonical. }
  exists (clean_path (filled (ps, tail) vs ++ [slash])).
  assert (forall n, dget n (sel (names ps') false params') = if smem n (names ps') then None else dget n params') as Hrem.
  { intros n. rewrite dget_sel. now destruct (smem n (names ps')). }
  assert (forall n, n <> u "path" -> smem n (names ps') = smem n (names ps)) as Hsm.
  { intros n Hn. rewrite Hnames. destruct (smem n (names ps)) eqn:E.
    - apply smem_In in E. apply smem_In. apply in_or_app. now left.
    - destruct (smem n (names ps ++ [u "path"])) eqn:E'; [|reflexivity]. apply smem_In in E'. apply in_app_or in E' as [E'|[<-|[]]]; [|congruence].
      apply smem_In in E'. congruence. }
  assert (smem (u "path") (names ps) = false) as Hnp.
  { destruct (smem (u "path") (names ps)) eqn:E; [|reflexivity]. apply smem_In in E. contradiction. }
  assert (smem (u "path") (names ps') = true) as Hyp by (rewrite Hnames; apply smem_In; apply in_or_app; right; now left).
  eexists. split; [reflexivity|]. split; [exact Epre|]. cbn [fst]. split.
  - destruct (dget (u "path") params); [apply NoDup_dset|]; now apply NoDup_sel.
  - intros n. destruct (str_eq_dec n (u "path")) as [->|Hne].
    + rewrite Hnp. destruct (dget (u "path") params) as [v|]; [now rewrite dget_dset_same|]. rewrite Hrem, Hyp. reflexivity.
    + transitivity (dget n (sel (names ps') false params')).
      { destruct (dget (u "path") params) as [v|]; [now apply dget_dset_other|reflexivity]. }
      rewrite Hrem, Hsm, Hget by assumption. reflexivity.
Qed.

Lemma first_url_skip f before c after :
  (forall b, In b before -> f b = NoMatchFound) -> f c <> NoMatchFound -> first_url f (before ++ c :: after) = f c.
Proof.
  intros Hb Hc. induction before as [|b before IH]; cbn [app first_url].
  - destruct (f c); [congruence|reflexivity|reflexivity].
  - rewrite (Hb b) by (now left). apply IH. intros x Hx. apply Hb. now right.
Qed.

Lemma node_url_include own fmt convs children name params prefix rem :
  include_prefix fmt convs params = RevOk prefix rem ->
  node_url (NInclude own fmt convs children) (match own with None => name | Some n => n ++ u ":" ++ name end) params =
  with_prefix prefix (first_url (fun c => node_url c name rem) children).
Proof.
  intros H. cbn [node_url]. destruct own as [n|]; [|now rewrite H].
  destruct (seqb_spec (n ++ u ":" ++ name) n) as [E|_].
  - exfalso. assert (length (n ++ u ":" ++ name) = length n) as L by now rewrite E. rewrite !app_length in L. change (length (u ":")) with 1 in L. lia.
  - rewrite app_assoc. rewrite prefixb_app. rewrite H.
    replace (skipn (length n + 1) ((n ++ u ":") ++ name)) with name; [reflexivity|].
    replace (length n + 1) with (length (n ++ u ":")) by (rewrite app_length; reflexivity). now rewrite skipn_prefix.
Qed.

Definition level_params (t : template) (params : dict pvalue) : Prop :=
  forall l n c v, In (l, n, c) (fst t) -> dget n params = Some v -> usable c v.

Lemma rendered_ext t p1 p2 vs : (forall n, In n (names (fst t)) -> dget n p1 = dget n p2) -> rendered t p1 vs -> rendered t p2 vs.
Proof.
  unfold rendered, names. intros He H. induction H as [|q nv ps vs [Hn (v & Hv & Ht)] _ IH]; constructor.
  - split; [assumption|]. exists v. split; [|assumption]. rewrite <- He; [assumption|now left].
  - apply IH. intros n Hin. apply He. now right.
Qed.

Lemma NoDup_app_tail {A} (a b : list A) : NoDup (a ++ b) -> NoDup b.
Proof. induction a as [|x a IH]; cbn [app]; intros H; [assumption|]. inversion H; auto. Qed.

Theorem nested_url r name mounts leaf : located r name mounts leaf ->
  unambiguous leaf -> NoDup (all_names mounts leaf) ->
  forall params vss vs,
  NoDup (dkeys params) -> (forall n, In n (dkeys params) <-> In n (all_names mounts leaf)) ->
  Forall (fun tp => level_params (fst tp) params) mounts -> level_params leaf params ->
  Forall2 (fun tp v => rendered (fst tp) params v /\ level_ok (fst tp) v) mounts vss ->
  rendered leaf params vs -> canonical (filled leaf vs) -> (forall q, filled leaf vs <> q ++ [10%N]) ->
  node_url r name params = Url (filled_mounts mounts vss ++ filled leaf vs).
Proof.
  induction 1 as [n t rx fmt convs Hw Hc|own t p rx fmt convs before child after name mounts leaf Hm Hc Hb Hl IH];
    intros Hun Hnd params vss vs Hpd Hk Hlm Hll Hvss Hvs Hcan Hnl.
  - inversion Hvss; subst. unfold filled_mounts. cbn [combine map concat app]. cbn [node_url]. rewrite seqb_refl.
    rewrite (compile_written t Hw) in Hc. injection Hc as _ <- <-.
    destruct (reverse_roundtrip t params Hw Hun Hpd Hk Hll) as (vs' & Hr' & _ & H).
    rewrite (rendered_unique _ _ _ _ Hvs Hr') in *. now apply H.
  - inversion Hvss as [|? vs0 ? vss' [Hr0 Hok0] Hvss']; subst. inversion Hlm as [|? ? Hl0 Hlm']; subst. cbn [fst snd] in *.
    assert (forall k, In k (dkeys params) -> is_ident k) as Hid.
    { intros k Hin. apply Hk in Hin. clear -Hin Hm Hl. unfold all_names in Hin. cbn [map concat fst] in Hin. rewrite <- app_assoc in Hin.
      apply in_app_or in Hin as [Hin|Hin].
      - destruct Hm as (H1 & _). eapply names_ident; eauto.
      - clear Hm. revert Hin. induction Hl as [n t0 rx fmt convs0 Hw Hc|own t0 p0 rx0 fmt convs0 before child after name mounts leaf Hm Hc Hb Hl IH].
        + cbn. intros Hin. destruct Hw as (H1 & _). eapply names_ident; eauto.
        + unfold all_names in *. cbn [map concat fst]. rewrite <- app_assoc. intros Hin. apply in_app_or in Hin as [Hin|Hin]; [|auto].
          destruct Hm as (H1 & _). eapply names_ident; eauto. }
    destruct (include_prefix_spec t p rx fmt convs params vs0 Hm Hc Hpd Hid Hl0 Hr0 Hok0) as (prefix & rem & Hpre & Hrs & Hnd' & Hrem).
    rewrite (node_url_include own fmt convs _ name params prefix rem Hpre).
    assert (NoDup (all_names mounts leaf)) as Hnd2 by (unfold all_names in *; cbn [map concat] in Hnd; rewrite <- app_assoc in Hnd; now apply NoDup_app_tail in Hnd).
    assert (forall n, In n (all_names mounts leaf) -> smem n (names (fst t)) = false) as Hdis.
    { intros n Hn. destruct (smem n (names (fst t))) eqn:E; [|reflexivity]. apply smem_In in E. exfalso.
      unfold all_names in Hnd, Hn. cbn [map concat fst] in Hnd. rewrite <- app_assoc in Hnd. clear -Hnd E Hn.
      induction (names (fst t)) as [|x xs IHx]; [destruct E|]. cbn [app] in Hnd. inversion Hnd; subst. destruct E as [->|E]; [|auto].
      apply H1. apply in_or_app. now right. }
    assert (forall n, In n (all_names mounts leaf) -> dget n rem = dget n params) as Hsame by (intros n Hn; rewrite Hrem, Hdis by assumption; reflexivity).
    assert (forall tp, In tp mounts -> forall n, In n (names (fst (fst tp))) -> In n (all_names mounts leaf)) as Hinn.
    { intros tp Htp n Hn. unfold all_names. apply in_or_app. left. apply in_concat. exists (names (fst (fst tp))). split; [|assumption]. apply in_map_iff. now exists tp. }
    assert (forall n, In n (names (fst leaf)) -> In n (all_names mounts leaf)) as Hinl by (intros n Hn; unfold all_names; apply in_or_app; now right).
    assert (node_url child name rem = Url (filled_mounts mounts vss' ++ filled leaf vs)) as Hchild.
    { apply IH; auto.
      - intros n. split.
        + intros Hin. destruct (dget n rem) as [v|] eqn:E; [|apply dget_None_keys in E; contradiction].
          rewrite Hrem in E. destruct (smem n (names (fst t))) eqn:Es; [discriminate|].
          assert (In n (dkeys params)) as Hinp by (apply dget_Some_In in E; apply (in_map fst) in E; exact E).
          apply Hk in Hinp. unfold all_names in *. cbn [map concat fst] in Hinp. rewrite <- app_assoc in Hinp. apply in_app_or in Hinp as [Hinp|Hinp]; [|assumption].
          apply smem_In in Hinp. congruence.
        + intros Hin. destruct (dget n rem) as [v|] eqn:E; [apply dget_Some_In in E; apply (in_map fst) in E; exact E|].
          exfalso. rewrite Hsame in E by assumption. apply dget_None_keys in E. apply E. apply Hk. unfold all_names in *. cbn [map concat fst].
          rewrite <- app_assoc. apply in_or_app. now right.
      - rewrite Forall_forall in Hlm' |- *. intros tp Htp l n c v Hin Hd. apply (Hlm' tp Htp l n c v Hin).
        rewrite <- Hsame; [assumption|]. apply (Hinn tp Htp). apply in_map_iff. now exists (l, n, c).
      - intros l n c v Hin Hd. apply (Hll l n c v Hin). rewrite <- Hsame; [assumption|]. apply Hinl. apply in_map_iff. now exists (l, n, c).
      - assert (forall ms, incl ms mounts -> forall w, Forall2 (fun tp v => rendered (fst tp) params v /\ level_ok (fst tp) v) ms w ->
           Forall2 (fun tp v => rendered (fst tp) rem v /\ level_ok (fst tp) v) ms w) as G.
        { intros ms Hincl w Hw. induction Hw as [|tp v ms w [Ha Hb'] _ IHw]; constructor.
          - split; [|assumption]. eapply rendered_ext; [|exact Ha]. intros n Hn. symmetry. apply Hsame. apply (Hinn tp); [apply Hincl; now left|assumption].
          - apply IHw. intros x Hx. apply Hincl. now right. }
        apply (G mounts (incl_refl _)). assumption.
      - eapply rendered_ext; [|exact Hvs]. intros n Hn. symmetry. apply Hsame. now apply Hinl. }
    rewrite (first_url_skip (fun c => node_url c name rem)); [|intros b Hin; now apply Hb|rewrite Hchild; discriminate].
    rewrite Hchild. cbn [with_prefix]. rewrite Hrs. unfold filled_mounts. cbn [combine map concat fst snd]. now rewrite <- app_assoc.
Qed.

(** * ... and forward again *)
Lemma suits_mount_intro t vs rest : suits t vs -> ~ In 10%N rest -> suits (mount_template t) (vs ++ [(u "path", rest)]).
Proof.
  intros Hs Hr. destruct t as [ps tail]. unfold suits, mount_template in *. cbn [fst snd] in *. apply Forall2_app; [assumption|].
  constructor; [|constructor]. cbn [fst snd]. split; [reflexivity|exact Hr].
Qed.

Lemma rendered_transforms t params vs : NoDup (names (fst t)) -> level_params t params -> rendered t params vs ->
  exists m, transform_all (convs_of (fst t)) vs = Some m /\
    forall n, dget n m = if smem n (names (fst t)) then dget n params else None.
Proof.
  destruct t as [ps tail]. unfold level_params, rendered. cbn [fst]. intros Hnd Hu Hr.
  assert (forall qs w, incl qs ps -> NoDup (names qs) -> Forall2 (fun p nv => fst nv = snd (fst p) /\
             exists v, dget (snd (fst p)) params = Some v /\ normalise (snd p) v = Some (snd nv)) qs w ->
     exists m, transform_all (convs_of ps) w = Some m /\ forall n, dget n m = if smem n (names qs) then dget n params else None) as G.
  { intros qs w Hincl Hndq H. induction H as [|[[l n] c] [n' v] qs w [Hn (x & Hx & Ht)] _ IH].
    - exists []. split; reflexivity.
    - cbn [fst snd] in *. subst n'. inversion Hndq; subst. destruct IH as (m & Em & Hm); [intros y Hy; apply Hincl; now right|assumption|].
      assert (In (l, n, c) ps) as Hin by (apply Hincl; now left).
      destruct (Hu l n c x Hin Hx) as (Hva & Hpa & _). destruct (conv_roundtrip c x v Hva Hpa Ht) as [_ Htr].
      cbn [transform_all]. rewrite (dget_convs ps l n c Hnd Hin), Htr, Em. eexists. split; [reflexivity|].
      intros k. cbn [dget names map fst snd smem existsb]. destruct (seqb_spec k n) as [->|Hne].
      + cbn [orb]. now rewrite Hx.
      + rewrite Hm. unfold smem. cbn [existsb]. destruct (seqb_spec k n); [contradiction|reflexivity]. }
  exact (G ps vs (incl_refl _) Hnd Hr).
Qed.

Lemma include_forward t p rx fmt convs params vs root rest acc :
  mountable t p -> compile_path (include_template p) = Compiled rx fmt convs ->
  unambiguous (mount_template t) -> level_params t params -> rendered t params vs -> ~ In 10%N rest ->
  exists acc', include_search rx convs root (root ++ filled t vs ++ slash :: rest) acc = IncFull acc' (root ++ filled t vs) /\
    forall n, dget n acc' = if smem n (names (fst t)) then dget n params else dget n acc.
Proof.
  intros Hm Hc Hun Hu Hr Hnl. pose proof (rendered_suits t params vs Hu Hr) as Hs.
  assert (forall q, filled t vs ++ slash :: rest <> q ++ [10%N]) as Hnl'.
  { apply (fun H => H). intros q E. assert (In 10%N (slash :: rest)) as Hin.
    { destruct (exists_last (l := slash :: rest) ltac:(discriminate)) as (r' & x & Er). rewrite Er in E |- *. rewrite app_assoc in E.
      apply app_inj_tail in E as [_ ->]. apply in_or_app. right. now left. }
    destruct Hin as [H|H]; [discriminate|contradiction]. }
  destruct (include_search_spec t p root (filled t vs ++ slash :: rest) acc Hm Hnl') as (rx' & fmt' & convs' & Hc' & H).
  rewrite Hc in Hc'. injection Hc' as <- <- <-.
  assert (NoDup (names (fst t))) as Hnd by (destruct Hm as (_ & _ & H3 & _); exact H3).
  assert (forall vs' rest', suits t vs' -> filled t vs ++ slash :: rest = filled t vs' ++ slash :: rest' -> ~ In 10%N rest' -> vs' = vs) as Huniq.
  { intros vs' rest' Hs' E Hr'. assert (vs' ++ [(u "path", rest')] = vs ++ [(u "path", rest)]) as E2.
    { destruct t as [ps tail]. apply (instance_unique (mount_template (ps, tail)) Hun _ _ (filled (ps, tail) vs ++ slash :: rest)).
      - split; [now apply suits_mount_intro|]. rewrite filled_mount by assumption. exact E.
      - split; [now apply suits_mount_intro|]. rewrite filled_mount by assumption. reflexivity. }
    apply app_inj_tail in E2. tauto. }
  assert (forall vs' rest', filled t vs ++ slash :: rest = filled t vs' ++ slash :: rest' -> suits t vs' -> ~ In 10%N rest' \/ In 10%N rest') as _ by (intros; destruct (in_dec N.eq_dec 10%N rest'); auto).
  destruct (rendered_transforms t params vs Hnd Hu Hr) as (m & Em & Hmget).
  assert (rx = rx_of (mount_template t) /\ convs = convs_of (fst (mount_template t))) as [Erx Econv].
  { rewrite (include_template_written t p Hm), (compile_written _ (mount_wf t p Hm)) in Hc. split; congruence. }
  unfold include_search in *. rewrite get_route_path_app in *.
  destruct (rmatch rx (filled t vs ++ slash :: rest)) as [groups|] eqn:Er.
  - (* the groups are known *)
    assert (groups = vs ++ [(u "path", rest)]) as ->.
    { rewrite Erx in Er. destruct t as [ps tail]. destruct (rmatch_sound _ _ _ _ Er) as [Hsg [Ho|Ho]]; [|exfalso; exact (Hnl' _ Ho)].
      apply (instance_unique (mount_template (ps, tail)) Hun _ _ (filled (ps, tail) vs ++ slash :: rest)).
      - split; [exact Hsg|exact Ho].
      - split; [now apply suits_mount_intro|]. rewrite filled_mount by assumption. reflexivity. }
    destruct (transform_all convs (vs ++ [(u "path", rest)])) as [matched|] eqn:Et.
    + destruct H as (vs' & rest' & matched' & Hs' & E & Hroot & _ & Htr & Hget).
      rewrite Hroot in *. 
      assert (filled t vs' = filled t vs) as Ef.
      { destruct (transform_all_app _ _ _ _ Et) as (m1 & m2 & E1 & E2 & ->).
        rewrite Econv in E1, E2.
        assert (dget (u "path") (convs_of (fst (mount_template t))) = Some CPath) as Ep.
        { apply (dget_convs _ (snd t ++ [slash])).
          - destruct (mount_wf t p Hm) as (_ & _ & Hndm & _). exact Hndm.
          - unfold mount_template. cbn [fst snd]. apply in_or_app. right. now left. }
        cbn [transform_all] in E2. rewrite Ep in E2. cbn [transform] in E2. injection E2 as <-.
        pose proof (transform_all_keys _ _ _ E1) as Hk. rewrite (suits_names _ _ Hs) in Hk.
        assert (dget (u "path") m1 = None) as Hnp by (apply dget_None_keys; rewrite Hk; destruct Hm as (_ & _ & _ & H4 & _); exact H4).
        rewrite dget_app, Hnp in Hroot. cbn [dget] in Hroot. rewrite seqb_refl in Hroot.
        apply app_inv_head in Hroot. unfold drop_last in Hroot. rewrite app_length in Hroot.
        replace (length (filled t vs) + length (slash :: rest) - length (slash :: rest)) with (length (filled t vs)) in Hroot by lia.
        rewrite firstn_prefix in Hroot. congruence. }
      assert (rest' = rest) as ->.
      { rewrite Ef in E. apply app_inv_head in E. now injection E. }
      rewrite (Huniq vs' rest Hs' E Hnl) in Htr. rewrite Em in Htr. injection Htr as <-.
      eexists. split; [rewrite Ef; reflexivity|]. intros n. rewrite Hget, Hmget.
      destruct (smem n (names (fst t))) eqn:Esm; [|reflexivity]. destruct (dget n params) eqn:Ed; [reflexivity|].
      exfalso. apply smem_In in Esm. clear -Hr Esm Ed. unfold rendered in Hr. apply in_map_iff in Esm as (q & <- & Hin).
      induction Hr as [|q' nv qs vs [_ (v & Hv & _)] _ IH]; [destruct Hin|]. destruct Hin as [->|Hin]; [congruence|auto].
    + exfalso. destruct H as (vs' & rest' & Hs' & E & Htr).
      (* the conversions succeed *)
      rewrite Econv in Et.
      assert (dget (u "path") (convs_of (fst (mount_template t))) = Some CPath) as Ep.
      { apply (dget_convs _ (snd t ++ [slash])).
        - destruct (mount_wf t p Hm) as (_ & _ & Hndm & _). exact Hndm.
        - unfold mount_template. cbn [fst snd]. apply in_or_app. right. now left. }
      assert (forall a, transform_all (convs_of (fst (mount_template t))) a <> None ->
         transform_all (convs_of (fst (mount_template t))) (a ++ [(u "path", rest)]) <> None) as G.
      { induction a as [|[n t0] a IH]; cbn [app transform_all].
        - intros _. rewrite Ep. cbn. discriminate.
        - destruct (dget n _); [|congruence]. destruct (transform c t0); [|congruence].
          destruct (transform_all _ a) as [r|] eqn:Er'; [|congruence]. intros _.
          specialize (IH ltac:(discriminate)). destruct (transform_all _ (a ++ _)); [discriminate|congruence]. }
      apply (G vs); [|exact Et].
      rewrite (transform_all_ext _ (convs_of (fst t))); [rewrite Em; discriminate|].
      intros n Hn. rewrite (suits_names _ _ Hs) in Hn. unfold mount_template. cbn [fst]. unfold convs_of. rewrite map_app, dget_app.
      change (map (fun p0 : str * str * conv => (snd (fst p0), snd p0)) (fst t)) with (convs_of (fst t)).
      destruct (dget n (convs_of (fst t))) eqn:Ed; [reflexivity|]. exfalso. apply dget_None_keys in Ed. rewrite convs_keys in Ed. contradiction.
  - exfalso. exact (H vs rest Hs Hnl eq_refl).
Qed.

Theorem nested_forward mounts : forall ms params vss root rest acc,
  Forall2 (fun tp m => mountable (fst tp) (snd tp) /\ unambiguous (mount_template (fst tp)) /\
                       exists fmt, compile_path (include_template (snd tp)) = Compiled (fst m) fmt (snd m)) mounts ms ->
  Forall (fun tp => level_params (fst tp) params) mounts ->
  Forall2 (fun tp v => rendered (fst tp) params v /\ ~ In 10%N (filled (fst tp) v) /\
                       (fst tp = ([], []) \/ exists q, filled (fst tp) v = slash :: q)) mounts vss ->
  ~ In 10%N rest ->
  exists acc', mount_chain ms root (root ++ filled_mounts mounts vss ++ slash :: rest) acc = Some (root ++ filled_mounts mounts vss, acc') /\
    forall n, dget n acc' = if smem n (concat (map (fun tp => names (fst (fst tp))) mounts)) then dget n params else dget n acc.
Proof.
  induction mounts as [|[t p] mounts IH]; intros ms params vss root rest acc Hms Hlp Hvss Hnl.
  - inversion Hms; subst. inversion Hvss; subst. unfold filled_mounts. cbn [combine map concat app mount_chain]. rewrite app_nil_r.
    exists acc. split; reflexivity.
  - inversion Hms as [|? [rx convs] ? ms' (Hm & Hun & fmt & Hc) Hms']; subst. inversion Hvss as [|? v ? vss' (Hr & Hn & Hsl) Hvss']; subst.
    inversion Hlp as [|? ? Hl0 Hlp']; subst. cbn [fst snd] in *. cbn [mount_chain].
    unfold filled_mounts. cbn [combine map concat fst snd]. fold (filled_mounts mounts vss').
    assert (exists rest1, filled_mounts mounts vss' ++ slash :: rest = slash :: rest1 /\ ~ In 10%N rest1) as (rest1 & Er & Hn1).
    { clear -Hvss' Hnl. unfold filled_mounts. induction Hvss' as [|[t0 p0] v0 mounts vss (Hr & Hn & Hsl) _ IH]; cbn [combine map concat app fst snd] in *.
      - exists rest. auto.
      - destruct IH as (r1 & E1 & Hn1). rewrite <- app_assoc, E1. destruct Hsl as [->|(q & Eq)].
        + assert (v0 = []) as -> by (unfold rendered in Hr; inversion Hr; reflexivity). exists r1. auto.
        + rewrite Eq in *. cbn [app]. exists (q ++ slash :: r1). split; [reflexivity|]. intros Hin. apply in_app_or in Hin as [Hin|[Hin|Hin]]; [|discriminate|contradiction].
          apply Hn. now right. }
    destruct (include_forward t p rx fmt convs params v root rest1 acc Hm Hc Hun Hl0 Hr Hn1) as (acc1 & E1 & Hg1).
    rewrite <- app_assoc. rewrite Er, E1.
    destruct (IH ms' params vss' (root ++ filled t v) rest acc1 Hms' Hlp' Hvss' Hnl) as (acc2 & E2 & Hg2).
    exists acc2. rewrite <- Er. rewrite !app_assoc in *. split; [exact E2|].
    intros n. rewrite Hg2, Hg1. unfold smem. rewrite existsb_app. destruct (existsb (seqb n) (concat _)), (existsb (seqb n) (names (fst t))); reflexivity.
Qed.
