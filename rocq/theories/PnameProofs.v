(** Proofs about the names of the parts of a form. *)
From Verif Require Import PyStr PyStrFacts Utf8 MultipartModel MultipartSpec MultipartProofs MultipartFormProofs PnameSpec.

(** The encoding after the first delimiter. *)
Definition g_all (p : gpart) : list (str * str) := (u "Content-Disposition", g_disposition p) :: g_headers p.
Definition g_lines (p : gpart) : str := concat (map header_line (g_all p)).
Fixpoint g_rest (bd : str) (ps : list gpart) : str :=
  match ps with
  | [] => u "--" ++ crlf
  | p :: r => crlf ++ g_lines p ++ crlf ++ g_body p ++ (crlf ++ bd) ++ g_rest bd r
  end.
Lemma encode_grest boundary ps : encode_gform boundary ps = (u "--" ++ boundary) ++ g_rest (u "--" ++ boundary) ps.
Proof.
  unfold encode_gform. set (bd := u "--" ++ boundary).
  assert (G : concat (map (encode_gpart bd) ps) ++ bd ++ u "--" ++ crlf = bd ++ g_rest bd ps).
  { induction ps as [|p ps IH]; [reflexivity|]. cbn [map concat g_rest]. unfold encode_gpart at 1. fold (g_lines p).
    unfold g_lines, g_all in *. rewrite <- !app_assoc. rewrite IH. reflexivity. }
  rewrite <- G. unfold bd. rewrite <- !app_assoc. reflexivity.
Qed.

Fixpoint g_events (ps : list gpart) : list ev :=
  match ps with
  | [] => []
  | p :: r => emit_headers (map low (g_all p)) ++ data_ev (g_body p) ++
              EPartEnd :: match r with [] => [EEnd] | _ => EBegin :: g_events r end
  end.


(** *** What a part declares *)
Definition seg (k : param) : str := u " " ++ k_name k ++ u "=" ++ (if k_quoted k then quoted (k_value k) else k_value k).
Lemma param_seg k : param_text k = 59%N :: seg k.
Proof. reflexivity. Qed.
Lemma visible_not_space c : (32 < c < 127)%N -> is_space c = false /\ is_bspace c = false.
Proof.
  intros H. split; [unfold is_space | unfold is_bspace]; apply not_true_iff_false; rewrite ?orb_true_iff, ?andb_true_iff, ?N.eqb_eq, ?N.leb_le; lia.
Qed.
Lemma raw_last k : good_param k -> forall x, match rev (x ++ (if k_quoted k then quoted (k_value k) else k_value k)) with
  | c :: _ => is_space c = false /\ is_bspace c = false | [] => False end.
Proof.
  intros (_ & _ & _ & Q) x. destruct (k_quoted k).
  - unfold quoted. rewrite !app_assoc, rev_app_distr. cbn [rev app]. split; reflexivity.
  - destruct (Q eq_refl) as (NE & V). rewrite rev_app_distr. destruct (rev (k_value k)) as [|c r] eqn:R.
    + exfalso. apply NE. apply (f_equal (@rev N)) in R. rewrite rev_involutive in R. exact R.
    + cbn [app]. apply visible_not_space. apply V. apply in_rev. rewrite R. now left.
Qed.
Lemma seg_chars k c : good_param k -> In c (seg k) -> c <> 13%N /\ c <> 59%N.
Proof.
  intros (_ & K & V & _) H. unfold seg in H. rewrite !in_app_iff in H. destruct H as [H|[H|[H|H]]].
  - destruct H as [<-|[]]. split; discriminate.
  - specialize (K c H). split; lia.
  - destruct H as [<-|[]]. split; discriminate.
  - destruct (k_quoted k); [|exact (V c H)]. unfold quoted in H. rewrite !in_app_iff in H.
    destruct H as [[<-|[]]|[H|[<-|[]]]]; [split; discriminate | exact (V c H) | split; discriminate].
Qed.
Lemma split_segs l : Forall good_param l -> forall a, ~ In 59%N a -> split_char 59 (a ++ concat (map param_text l)) = a :: map seg l.
Proof.
  induction 1 as [|k l G _ IH]; intros a H; cbn [map concat].
  - rewrite app_nil_r. apply split_char_free. exact H.
  - rewrite param_seg. cbn [app]. rewrite split_char_app by exact H. rewrite IH; [reflexivity|].
    intros X. destruct (seg_chars k _ G X). congruence.
Qed.
Lemma lower_small s : (forall c, In c s -> (97 <= c <= 122)%N \/ c = 42%N) -> lower s = s.
Proof.
  induction s as [|c s IH]; intros H; [reflexivity|]. cbn [lower map]. fold (lower s). rewrite IH by (intros d D; apply H; now right).
  f_equal. unfold lower_c. specialize (H c (or_introl eq_refl)). destruct ((65 <=? c)%N && (c <=? 90)%N) eqn:E; [|reflexivity].
  apply andb_true_iff in E. rewrite !N.leb_le in E. lia.
Qed.
Lemma seg_option k (d : dict str) : good_param k ->
  match split1 61 (bstrip (seg k)) with
  | None => d | Some (n, v) => dset (lower (bstrip n)) (unquote_value (bstrip v)) d end = dset (k_name k) (k_value k) d.
Proof.
  intros G. pose proof (raw_last k G) as L. destruct G as (NE & K & V & Q).
  set (raw := if k_quoted k then quoted (k_value k) else k_value k) in *.
  assert (KS : forall c, In c (k_name k) -> is_bspace c = false).
  { intros c H. apply visible_not_space. specialize (K c H). lia. }
  assert (B : bstrip (seg k) = (k_name k ++ u "=") ++ raw).
  { assert (X : seg k = u " " ++ ((k_name k ++ u "=") ++ raw) ++ []) by (unfold seg; fold raw; rewrite app_nil_r, <- !app_assoc; reflexivity).
    rewrite X. unfold bstrip. apply (strip_by_pad is_bspace (u " ") ((k_name k ++ u "=") ++ raw) []); [reflexivity | reflexivity | | ].
    - destruct (k_name k) as [|c n]; [congruence|]. cbn. apply KS. now left.
    - specialize (L (k_name k ++ u "=")). destruct (rev _); [exact I|]. apply L. }
  rewrite B, <- app_assoc. change (u "=" ++ raw) with (61%N :: raw).
  rewrite split1_app by (intros X; specialize (K _ X); lia).
  assert (BN : bstrip (k_name k) = k_name k).
  { apply strip_by_id.
    - destruct (k_name k) as [|c n]; [exact I|]. apply KS. now left.
    - destruct (rev (k_name k)) as [|c r] eqn:R; [exact I|]. apply KS. apply in_rev. rewrite R. now left. }
  rewrite BN, (lower_small _ K). f_equal. unfold raw. destruct (k_quoted k) eqn:E; [apply unquote_quoted|].
  destruct (Q eq_refl) as (NV & VV).
  assert (BV : bstrip (k_value k) = k_value k).
  { apply strip_by_id.
    - destruct (k_value k) as [|c n]; [exact I|]. apply visible_not_space, VV. now left.
    - destruct (rev (k_value k)) as [|c r] eqn:R; [exact I|]. apply visible_not_space, VV. apply in_rev. rewrite R. now left. }
  rewrite BV. unfold unquote_value. destruct (k_value k) as [|c v] eqn:Ev; [reflexivity|].
  assert (P : prefixb [34%N] (c :: v) = false).
  { cbn [prefixb]. destruct (N.eqb_spec 34 c) as [<-|]; [|reflexivity]. destruct (VV 34%N (or_introl eq_refl)). congruence. }
  rewrite P. reflexivity.
Qed.
Definition g_opts (p : gpart) : dict str := map (fun k => (k_name k, k_value k)) (g_params p).
Lemma options_gdisposition boundary p : good_gpart boundary p -> header_options (Some (g_disposition p)) = g_opts p.
Proof.
  intros (G & ND & _). unfold header_options, g_disposition, g_opts. rewrite split_segs; [|exact G|].
  2: { intros X; cbn in X; repeat (destruct X as [X|X]; [discriminate X|]); exact X. }
  cbn [tl].
  assert (H : forall l d, Forall good_param l -> NoDup (dkeys d ++ map k_name l) ->
    fold_left (fun d0 s => match split1 61 (bstrip s) with None => d0 | Some (n, v) => dset (lower (bstrip n)) (unquote_value (bstrip v)) d0 end) (map seg l) d
    = d ++ map (fun k => (k_name k, k_value k)) l).
  { induction l as [|k l IH]; intros d F N; cbn [map fold_left]; [now rewrite app_nil_r|].
    inversion F as [|? ? F1 F2]; subst. rewrite (seg_option k d F1).
    assert (NI : ~ In (k_name k) (dkeys d)) by (intros X; cbn [map] in N; apply NoDup_remove_2 in N; apply N, in_app_iff; now left).
    rewrite dset_new by exact NI. rewrite IH; [now rewrite <- app_assoc | exact F2 |].
    unfold dkeys in *. rewrite map_app, <- app_assoc. exact N. }
  exact (H (g_params p) [] G ND).
Qed.
Lemma opts_declares p n v : NoDup (map k_name (g_params p)) -> declares p n v -> dget n (g_opts p) = Some v.
Proof.
  unfold declares, g_opts. induction (g_params p) as [|k l IH]; intros ND (k0 & I0 & <- & <-); [destruct I0|].
  inversion ND as [|? ? N1 N2]; subst. cbn [map dget]. destruct I0 as [->|I0]; [now rewrite seqb_refl|].
  destruct (seqb_spec (k_name k0) (k_name k)) as [E|_].
  - exfalso. apply N1. rewrite <- E. now apply in_map.
  - apply IH; [exact N2|]. exists k0. auto.
Qed.
Lemma opts_silent p n : silent_on p n -> dget n (g_opts p) = None.
Proof. intros H. apply dget_None_keys. unfold dkeys, g_opts. rewrite map_map. exact H. Qed.
Lemma name_found e p nm : NoDup (map k_name (g_params p)) -> named e p nm -> field_name e (g_opts p) = inl nm.
Proof.
  intros ND [(v & D & E) | (Q & v & D & ->)]; unfold field_name.
  - rewrite (opts_declares _ _ _ ND D), E. reflexivity.
  - rewrite (opts_silent _ _ Q), (opts_declares _ _ _ ND D). reflexivity.
Qed.
Lemma file_flag p : (silent_on p (u "filename") -> g_file p = false) /\ (forall f, declares p (u "filename") f -> g_file p = true).
Proof.
  unfold g_file. split.
  - intros Q. apply not_true_iff_false. intros X. apply existsb_exists in X. destruct X as (k & I & E). apply seqb_eq in E.
    apply Q. rewrite <- E. now apply in_map.
  - intros f (k & I & E & _). apply existsb_exists. exists k. rewrite E. split; [exact I | apply seqb_refl].
Qed.

Lemma exists_last_dec {A} (l : list A) : l = [] \/ exists l' x, l = l' ++ [x].
Proof. destruct l as [|a l]; [now left|]. right. destruct (@exists_last A (a :: l) ltac:(discriminate)) as (l' & x & E). exists l', x. exact E. Qed.
Lemma g_good_all boundary p : good_gpart boundary p -> Forall good_header (g_all p) /\
  NoDup (map (fun h => lower (fst h)) (g_all p)) /\ ~ occurs (crlf ++ u "--" ++ boundary) (g_body p).
Proof.
  intros (G0 & _ & G2 & G3 & G4). split; [|split; [exact G3 | exact G4]].
  constructor; [|apply Forall_forall; intros (n, v) H; exact (G2 n v H)].
  cbn [fst snd]. repeat split; try (intros X; cbn in X; repeat (destruct X as [X|X]; [discriminate X|]); exact X).
  - cbn [snd]. unfold g_disposition. rewrite in_app_iff. intros [X|X]; [cbn in X; repeat (destruct X as [X|X]; [discriminate X|]); exact X|].
    apply in_concat in X. destruct X as (s & Hs & X). apply in_map_iff in Hs. destruct Hs as (k & <- & Hk).
    rewrite param_seg in X. destruct X as [X|X]; [discriminate X|]. destruct (seg_chars k 13%N) as (A & _); [|exact X|congruence].
    rewrite Forall_forall in G0. now apply G0.
  - cbn [snd]. apply strip_by_id; [reflexivity|]. unfold g_disposition.
    destruct (exists_last_dec (g_params p)) as [->|(l & k & E)]; [reflexivity|]. rewrite E in *. rewrite map_app, concat_app. cbn [map concat]. rewrite app_nil_r.
    assert (Gk : good_param k) by (rewrite Forall_forall in G0; apply G0, in_app_iff; right; now left).
    unfold param_text. pose proof (raw_last k Gk (u "form-data" ++ concat (map param_text l) ++ u "; " ++ k_name k ++ u "=")) as L.
    rewrite <- !app_assoc in L. destruct (rev _); [exact I|]. apply L.
Qed.
Lemma run_gparts boundary p ps : ~ In 13%N boundary -> Forall (good_gpart boundary) (p :: ps) ->
  let bd := u "--" ++ boundary in
  out_events (run' bd Hdr [] (g_lines p ++ crlf ++ g_body p ++ (crlf ++ bd) ++ g_rest bd ps)) = g_events (p :: ps) /\
  out_status (run' bd Hdr [] (g_lines p ++ crlf ++ g_body p ++ (crlf ++ bd) ++ g_rest bd ps)) = WEnd.
Proof.
  intros HB G bd. assert (HB' : ~ In 13%N (10%N :: bd)).
  { intros [X|X]; [discriminate X|]. unfold bd in X. apply in_app_iff in X. destruct X as [[X|[X|[]]]|X]; [discriminate X | discriminate X | exact (HB X)]. }
  revert p G. induction ps as [|p' ps IH]; intros p G; inversion G as [|? ? G1 G2]; subst;
    destruct (g_good_all boundary p G1) as (A1 & A2 & A3).
  - unfold g_lines. rewrite hdr_lines by (exact A1 || exact A2). cbn [app].
    assert (F : first_at (crlf ++ bd) (g_body p ++ (crlf ++ bd) ++ g_rest bd []) (g_body p)) by (apply (first_at_after 13 (10%N :: bd)); [exact HB' | exact A3]).
    rewrite (run'_bod bd _ (g_body p) (g_rest bd [])) by exact F. cbn [g_rest]. change (prefixb (u "--") (u "--" ++ crlf)) with true. cbv iota.
    match goal with |- context [emit ?q ?o] => destruct (emit_out q o) as (-> & -> & _) end.
    cbn [out_events out_status fst snd g_events]. split; reflexivity.
  - unfold g_lines at 1 2. rewrite hdr_lines by (exact A1 || exact A2). cbn [app].
    assert (F : first_at (crlf ++ bd) (g_body p ++ (crlf ++ bd) ++ g_rest bd (p' :: ps)) (g_body p)) by (apply (first_at_after 13 (10%N :: bd)); [exact HB' | exact A3]).
    rewrite (run'_bod bd _ (g_body p) (g_rest bd (p' :: ps))) by exact F. cbn [g_rest].
    change (prefixb (u "--") (crlf ++ g_lines p' ++ crlf ++ g_body p' ++ (crlf ++ bd) ++ g_rest bd ps)) with false. cbv iota.
    change (drop_crlf (crlf ++ g_lines p' ++ crlf ++ g_body p' ++ (crlf ++ bd) ++ g_rest bd ps)) with (g_lines p' ++ crlf ++ g_body p' ++ (crlf ++ bd) ++ g_rest bd ps).
    rewrite emit_emit.
    match goal with |- context [emit ?q ?o] => destruct (emit_out q o) as (-> & -> & _) end.
    destruct (IH p' G2) as (E1 & E2). split; [|exact E2]. etransitivity; [apply f_equal; exact E1|].
    cbn [g_events]. rewrite <- !app_assoc. reflexivity.
Qed.

Lemma run_gform boundary ps : ~ In 13%N boundary -> Forall (good_gpart boundary) ps ->
  let bd := u "--" ++ boundary in
  out_events (run' bd Pre [] (encode_gform boundary ps)) = match ps with [] => [EEnd] | _ => EBegin :: g_events ps end /\
  out_status (run' bd Pre [] (encode_gform boundary ps)) = WEnd.
Proof.
  intros HB G bd. rewrite encode_grest. fold bd.
  assert (HB' : ~ In 13%N bd).
  { unfold bd. rewrite in_app_iff. intros [[X|[X|[]]]|X]; [discriminate X | discriminate X | exact (HB X)]. }
  destruct ps as [|p ps].
  - cbn [g_rest]. assert (E : bd ++ u "--" ++ crlf = (bd ++ u "--") ++ crlf ++ []) by (rewrite app_nil_r, <- app_assoc; reflexivity).
    rewrite E, run'_pre.
    2: { apply first_at_cr. rewrite in_app_iff. intros [X|[X|[X|[]]]]; [exact (HB' X) | discriminate X | discriminate X]. }
    rewrite <- app_assoc. rewrite prefixb_app. unfold term. rewrite app_assoc, prefixb_app. split; reflexivity.
  - cbn [g_rest]. rewrite run'_pre by (apply first_at_cr; exact HB').
    rewrite prefixb_app. assert (P : prefixb (term bd) (bd ++ crlf) = false).
    { unfold term. clear. induction bd as [|c bd IH]; [reflexivity|]. cbn [app prefixb]. rewrite N.eqb_refl. exact IH. }
    rewrite P. match goal with |- context [emit ?q ?o] => destruct (emit_out q o) as (-> & -> & _) end.
    destruct (run_gparts boundary p ps HB G) as (E1 & E2). split; [|exact E2]. etransitivity; [apply f_equal; exact E1|]. reflexivity.
Qed.

Lemma one_gpart e boundary p it s : good_gpart boundary p -> gitem e p it -> begun s ->
  (g_file p = true -> a_nfiles s < max_files e) -> (g_file p = false -> a_nfields s < max_fields e) ->
  exists s', evs_now e s (emit_headers (map low (g_all p)) ++ data_ev (g_body p) ++ [EPartEnd]) = inl s' /\
    flushed s' /\ inv s' /\
    (exists fs, a_files s' = a_files s ++ fs) /\
    a_nfiles s' = a_nfiles s + (if g_file p then 1 else 0) /\ a_nfields s' = a_nfields s + (if g_file p then 0 else 1) /\
    exists x, a_items s' = a_items s ++ [x] /\ forall fs, resolve (aset_files s' (a_files s' ++ fs)) x = it.
Proof.
  intros G It (F & Iv & B) M1 M2.
  destruct (g_good_all boundary p G) as (_ & ND & _). cbn [g_all map fst] in ND.
  assert (NI : ~ In (u "content-disposition") (map fst (map low (g_headers p)))).
  { rewrite map_map. inversion ND; assumption. }
  assert (E0 : evs_now e s (emit_headers (map low (g_all p)) ++ data_ev (g_body p) ++ [EPartEnd]) =
    evs_now e (aset_part s {| p_disp := Some (g_disposition p); p_name := []; p_data := []; p_file := None; p_headers := map low (g_all p) |})
      (EHeadersDone :: data_ev (g_body p) ++ [EPartEnd])).
  { unfold emit_headers. rewrite <- app_assoc. cbn [g_all map low fst snd app].
    change (lower (u "Content-Disposition")) with (u "content-disposition").
    cbn [evs_now on_ev flush_res]. rewrite B. rewrite flush_flushed by (split; apply F).
    rewrite evs_now_app, evs_headers; [|split; apply F|exact NI]. reflexivity. }
  assert (Inv' : forall s', evs_now e s (emit_headers (map low (g_all p)) ++ data_ev (g_body p) ++ [EPartEnd]) = inl s' -> flushed s' /\ inv s').
  { intros s' E. destruct (evs_now_inv _ _ _ _ Iv F E). split; assumption. }
  set (p1 := {| p_disp := Some (g_disposition p); p_name := []; p_data := []; p_file := None; p_headers := map low (g_all p) |}) in *.
  set (s1 := aset_part s p1) in *.
  assert (HD : header_options (p_disp (a_part s1)) = g_opts p) by exact (options_gdisposition boundary p G).
  destruct It as (nm & D1 & It).
  assert (FN : field_name e (g_opts p) = inl nm).
  { apply name_found; [apply G | exact D1]. }
  destruct F as (F1 & F2).
  destruct It as [It|It].
  - destruct It as (QF & t & D2 & ->). pose proof (proj1 (file_flag p) QF) as GF. rewrite GF in *.
    assert (OF : dget (u "filename") (g_opts p) = None) by (apply opts_silent; exact QF).
    assert (ML : (max_fields e <? S (a_nfields s1))%nat = false) by (apply Nat.ltb_ge; specialize (M2 eq_refl); cbn [s1 aset_part a_nfields]; lia).
    assert (H1 : headers_done e s1 = inl {| a_part := pset_name p1 nm; a_items := a_items s; a_files := a_files s; a_nfiles := a_nfiles s; a_nfields := S (a_nfields s); a_write := a_write s; a_finish := a_finish s |}).
    { unfold headers_done. rewrite HD, FN, OF, ML. reflexivity. }
    assert (Fin : exists pt, evs_now e s1 (EHeadersDone :: data_ev (g_body p) ++ [EPartEnd]) =
      inl {| a_part := pt; a_items := a_items s ++ [(nm, inl t)]; a_files := a_files s; a_nfiles := a_nfiles s; a_nfields := S (a_nfields s); a_write := []; a_finish := [] |}).
    { cbn [evs_now on_ev]. rewrite H1. cbn [flush_res]. rewrite flush_flushed by (split; assumption).
      destruct (g_body p) as [|c b]; eexists.
      - cbn [data_ev app evs_now on_ev a_part p1 p_file p_name p_data pset_name]. rewrite D2. cbn [flush_res]. f_equal.
        unfold write_file_data, aadd_item. cbn [a_part a_items a_files a_nfiles a_nfields a_write a_finish]. rewrite F1, F2. reflexivity.
      - cbn [data_ev app evs_now on_ev a_part p1 p_file p_name p_data pset_name flush_res aset_part pset_data write_file_data].
        cbn [a_part p_data p_file p_name]. rewrite D2. cbn [flush_res]. f_equal.
        unfold write_file_data, aadd_item. cbn [a_part a_items a_files a_nfiles a_nfields a_write a_finish]. rewrite F1, F2. reflexivity. }
    destruct Fin as (pt & Fin). rewrite E0 in *. rewrite Fin in *. eexists. split; [reflexivity|].
    destruct (Inv' _ eq_refl) as (FF & II). split; [exact FF|]. split; [exact II|].
    split; [exists []; cbn [a_files]; rewrite app_nil_r; reflexivity|]. cbn [a_nfiles a_nfields a_items a_files]. split; [lia|]. split; [lia|].
    eexists. split; [reflexivity|]. intros fs. reflexivity.
  - destruct It as (f & fn & DF & D2 & ->). pose proof (proj2 (file_flag p) f DF) as GF. rewrite GF in *.
    assert (OF : dget (u "filename") (g_opts p) = Some f) by (apply opts_declares; [apply G | exact DF]).
    assert (ML : (max_files e <? S (a_nfiles s1))%nat = false) by (apply Nat.ltb_ge; specialize (M1 eq_refl); cbn [s1 aset_part a_nfiles]; lia).
    set (nf := {| f_name := fn; f_headers := map low (g_all p); f_content := []; f_pos := 0; f_size := 0 |}).
    set (p2 := {| p_disp := Some (g_disposition p); p_name := nm; p_data := []; p_file := Some (length (a_files s)); p_headers := map low (g_all p) |}).
    assert (H1 : headers_done e s1 = inl {| a_part := p2; a_items := a_items s; a_files := a_files s ++ [nf]; a_nfiles := S (a_nfiles s); a_nfields := a_nfields s; a_write := a_write s; a_finish := a_finish s |}).
    { unfold headers_done. rewrite HD, FN, OF, ML, D2. reflexivity. }
    set (ff := {| f_name := fn; f_headers := map low (g_all p); f_content := g_body p; f_pos := 0; f_size := length (g_body p) |}).
    assert (Fin : evs_now e s1 (EHeadersDone :: data_ev (g_body p) ++ [EPartEnd]) =
      inl {| a_part := p2; a_items := a_items s ++ [(nm, inr (length (a_files s)))]; a_files := a_files s ++ [ff]; a_nfiles := S (a_nfiles s); a_nfields := a_nfields s; a_write := []; a_finish := [] |}).
    { cbn [evs_now on_ev]. rewrite H1. cbn [flush_res]. rewrite flush_flushed by (split; assumption).
      unfold ff. destruct (g_body p) as [|c b].
      - cbn [data_ev app evs_now on_ev a_part p2 p_file p_name flush_res]. f_equal.
        unfold write_file_data, aadd_item. cbn [a_part a_items a_files a_nfiles a_nfields a_write a_finish]. rewrite F1, F2. cbn [app fold_left].
        rewrite upd_last. reflexivity.
      - cbn [data_ev app evs_now on_ev a_part p2 p_file p_name flush_res aadd_write write_file_data].
        unfold write_file_data, aadd_item, aadd_write. cbn [a_part a_items a_files a_nfiles a_nfields a_write a_finish p_file p_name p2 flush_res].
        rewrite F1, F2. cbn [app fold_left fst snd a_files a_write a_finish a_items]. rewrite !upd_last.
        unfold file_seek0, file_write, nf. cbn. rewrite app_nil_r. reflexivity. }
    rewrite E0 in *. rewrite Fin in *. eexists. split; [reflexivity|].
    destruct (Inv' _ eq_refl) as (FF & II). split; [exact FF|]. split; [exact II|].
    split; [exists [ff]; reflexivity|]. cbn [a_nfiles a_nfields a_items a_files]. split; [lia|]. split; [lia|].
    eexists. split; [reflexivity|]. intros fs. unfold resolve. cbn [fst snd aset_files a_files]. f_equal. f_equal.
    rewrite <- app_assoc. rewrite nth_error_app2 by lia. rewrite Nat.sub_diag. reflexivity.
Qed.

(** All parts: what is resolved in the end. *)
Lemma all_gparts e boundary : forall ps its s, Forall (good_gpart boundary) ps -> Forall2 (gitem e) ps its -> begun s -> ps <> [] ->
  a_nfiles s + count g_file ps <= max_files e -> a_nfields s + count (fun p => negb (g_file p)) ps <= max_fields e ->
  exists s' xs, evs_now e s (g_events ps) = inl s' /\ (exists fs, a_files s' = a_files s ++ fs) /\
    a_items s' = a_items s ++ xs /\ map (resolve s') xs = its.
Proof.
  induction ps as [|p ps IH]; intros its s G I2 B NE M1 M2; [congruence|].
  inversion G as [|? ? G1 G2]; subst. inversion I2 as [|? it ? its' It Its]; subst. unfold count in M1, M2. cbn [filter] in M1, M2.
  destruct (one_gpart e boundary p it s G1 It B) as (s1 & E1 & F1 & Iv1 & (fs1 & X1) & N1 & N2 & x & A1 & R1).
  { intros H. rewrite H in M1. cbn in M1. lia. }
  { intros H. rewrite H in M2. cbn in M2. lia. }
  cbn [g_events]. destruct ps as [|p' ps].
  - inversion Its; subst. exists s1, [x].
    assert (EE : emit_headers (map low (g_all p)) ++ data_ev (g_body p) ++ EPartEnd :: [EEnd] = (emit_headers (map low (g_all p)) ++ data_ev (g_body p) ++ [EPartEnd]) ++ [EEnd]).
    { rewrite <- !app_assoc. reflexivity. }
    rewrite EE, evs_now_app, E1. cbn [evs_now on_ev flush_res]. rewrite flush_flushed by exact F1.
    split; [reflexivity|]. split; [exists fs1; exact X1|]. split; [exact A1|]. cbn [map]. f_equal.
    specialize (R1 []). rewrite app_nil_r, aset_files_id in R1. exact R1.
  - set (s2 := aset_part s1 new_part).
    assert (B2 : begun s2).
    { split; [|split; [|reflexivity]]; [split; apply F1|]. destruct Iv1 as (J1 & J2 & _ & J4). split; [exact J1|split; [exact J2|split; [|exact J4]]].
      intros i H. discriminate H. }
    destruct (IH its' s2 G2 Its B2 ltac:(discriminate)) as (s3 & xs & E3 & (fs3 & X3) & A3 & R3).
    { unfold s2. cbn [aset_part a_nfiles]. unfold count. destruct (g_file p); cbn [length] in M1; lia. }
    { unfold s2. cbn [aset_part a_nfields]. unfold count. destruct (g_file p); cbn [negb length] in M2; lia. }
    exists s3, (x :: xs).
    assert (EE : emit_headers (map low (g_all p)) ++ data_ev (g_body p) ++ EPartEnd :: EBegin :: g_events (p' :: ps) = (emit_headers (map low (g_all p)) ++ data_ev (g_body p) ++ [EPartEnd]) ++ EBegin :: g_events (p' :: ps)).
    { rewrite <- !app_assoc. reflexivity. }
    rewrite EE, evs_now_app, E1. change (EBegin :: g_events (p' :: ps)) with ([EBegin] ++ g_events (p' :: ps)). rewrite evs_now_app.
    assert (Eb : evs_now e s1 [EBegin] = inl s2).
    { cbn [evs_now on_ev flush_res]. rewrite flush_flushed; [reflexivity|]. split; apply F1. }
    rewrite Eb. split; [exact E3|]. change (a_files s2) with (a_files s1) in X3. change (a_items s2) with (a_items s1) in A3.
    split; [exists (fs1 ++ fs3); rewrite X3, X1, app_assoc; reflexivity|].
    split; [rewrite A3, A1, <- app_assoc; reflexivity|]. cbn [map]. f_equal; [|exact R3].
    specialize (R1 fs3). rewrite <- R1. unfold resolve. cbn [aset_files a_files]. rewrite X3. reflexivity.
Qed.

Lemma gform_parsed e boundary ps its : ~ In 13%N boundary -> Forall (good_gpart boundary) ps -> Forall2 (gitem e) ps its ->
  count g_file ps <= max_files e -> count (fun p => negb (g_file p)) ps <= max_fields e ->
  outcome (single e (u "--" ++ boundary) Pre [] (encode_gform boundary ps) new_ast) = inl its.
Proof.
  intros HB G It M1 M2. unfold single. destruct (run_gform boundary ps HB G) as (-> & ->).
  destruct new_inv as (Iv & F & _).
  destruct ps as [|p ps].
  - inversion It; subst. reflexivity.
  - change (EBegin :: g_events (p :: ps)) with ([EBegin] ++ g_events (p :: ps)). rewrite evs_now_app.
    change (evs_now e new_ast [EBegin]) with (inl new_ast : ast + merr).
    destruct (all_gparts e boundary (p :: ps) its new_ast G It) as (s' & xs & E & _ & A & R).
    + split; [exact F | split; [exact Iv | reflexivity]].
    + discriminate.
    + exact M1.
    + exact M2.
    + rewrite E. cbn [outcome]. rewrite A. cbn [app new_ast a_items]. rewrite R. reflexivity.
Qed.

(** *** A part without a name *)
Definition g_part (p : gpart) : list ev := emit_headers (map low (g_all p)) ++ data_ev (g_body p) ++ [EPartEnd].
Lemma events_before ps g r : g_events (ps ++ g :: r) = concat (map (fun p => g_part p ++ [EBegin]) ps) ++ g_events (g :: r).
Proof.
  induction ps as [|p ps IH]; [reflexivity|]. cbn [map concat app]. rewrite <- app_assoc, <- IH.
  assert (X : exists q l, ps ++ g :: r = q :: l) by (destruct ps; eexists; eexists; reflexivity). destruct X as (q & l & ->).
  cbn [g_events]. unfold g_part. rewrite <- !app_assoc. reflexivity.
Qed.
Lemma parts_before e boundary : forall ps its s, Forall (good_gpart boundary) ps -> Forall2 (gitem e) ps its -> begun s ->
  a_nfiles s + count g_file ps <= max_files e -> a_nfields s + count (fun p => negb (g_file p)) ps <= max_fields e ->
  exists s', evs_now e s (concat (map (fun p => g_part p ++ [EBegin]) ps)) = inl s' /\ begun s'.
Proof.
  induction ps as [|p ps IH]; intros its s G I2 B M1 M2; [exists s; split; [reflexivity | exact B]|].
  inversion G as [|? ? G1 G2]; subst. inversion I2 as [|? it ? its' It Its]; subst. unfold count in M1, M2. cbn [filter] in M1, M2.
  destruct (one_gpart e boundary p it s G1 It B) as (s1 & E1 & F1 & Iv1 & (fs1 & X1) & N1 & N2 & _).
  { intros H. rewrite H in M1. cbn in M1. lia. }
  { intros H. rewrite H in M2. cbn in M2. lia. }
  set (s2 := aset_part s1 new_part).
  assert (B2 : begun s2).
  { split; [|split; [|reflexivity]]; [split; apply F1|]. destruct Iv1 as (J1 & J2 & _ & J4). split; [exact J1|split; [exact J2|split; [|exact J4]]].
    intros i H. discriminate H. }
  destruct (IH its' s2 G2 Its B2) as (s3 & E3 & B3).
  { unfold s2. cbn [aset_part a_nfiles]. unfold count. destruct (g_file p); cbn [length] in M1; lia. }
  { unfold s2. cbn [aset_part a_nfields]. unfold count. destruct (g_file p); cbn [negb length] in M2; lia. }
  exists s3. split; [|exact B3]. cbn [map concat]. rewrite !evs_now_app. unfold g_part at 1. rewrite E1.
  assert (Eb : evs_now e s1 [EBegin] = inl s2).
  { cbn [evs_now on_ev flush_res]. rewrite flush_flushed; [reflexivity|]. split; apply F1. }
  rewrite Eb. exact E3.
Qed.
Lemma part_refused e boundary g s xs : good_gpart boundary g -> silent_on g (u "name") -> silent_on g (u "name*") -> begun s ->
  evs_now e s (emit_headers (map low (g_all g)) ++ xs) = inr NoName.
Proof.
  intros G Q1 Q2 (F & Iv & B).
  destruct (g_good_all boundary g G) as (_ & ND & _). cbn [g_all map fst] in ND.
  assert (NI : ~ In (u "content-disposition") (map fst (map low (g_headers g)))).
  { rewrite map_map. inversion ND; assumption. }
  unfold emit_headers. rewrite <- app_assoc. cbn [g_all map low fst snd app].
  change (lower (u "Content-Disposition")) with (u "content-disposition").
  cbn [evs_now on_ev flush_res]. rewrite B. rewrite flush_flushed by (split; apply F).
  rewrite evs_now_app, evs_headers; [|split; apply F|exact NI]. cbn [evs_now on_ev].
  assert (H : forall s', p_disp (a_part s') = Some (g_disposition g) -> headers_done e s' = inr NoName).
  { intros s' E. unfold headers_done. rewrite E, (options_gdisposition boundary g G). unfold field_name.
    rewrite (opts_silent _ _ Q1), (opts_silent _ _ Q2). reflexivity. }
  rewrite H by reflexivity. reflexivity.
Qed.
Lemma form_refused e boundary ps its g r : ~ In 13%N boundary -> Forall (good_gpart boundary) (ps ++ g :: r) -> Forall2 (gitem e) ps its ->
  count g_file ps <= max_files e -> count (fun p => negb (g_file p)) ps <= max_fields e ->
  silent_on g (u "name") -> silent_on g (u "name*") ->
  outcome (single e (u "--" ++ boundary) Pre [] (encode_gform boundary (ps ++ g :: r)) new_ast) = inr NoName.
Proof.
  intros HB G It M1 M2 Q1 Q2. unfold single. destruct (run_gform boundary (ps ++ g :: r) HB G) as (-> & ->).
  destruct new_inv as (Iv & F & _).
  assert (X : match ps ++ g :: r with [] => [EEnd] | _ => EBegin :: g_events (ps ++ g :: r) end = [EBegin] ++ g_events (ps ++ g :: r)) by (destruct ps; reflexivity).
  rewrite X, evs_now_app. change (evs_now e new_ast [EBegin]) with (inl new_ast : ast + merr).
  rewrite events_before, evs_now_app. apply Forall_app in G. destruct G as (G1 & G2). inversion G2 as [|? ? Gg _]; subst.
  destruct (parts_before e boundary ps its new_ast G1 It) as (s' & E & B).
  - split; [exact F | split; [exact Iv | reflexivity]].
  - exact M1.
  - exact M2.
  - rewrite E. cbn [g_events]. rewrite (part_refused e boundary g s' _ Gg Q1 Q2 B). reflexivity.
Qed.
