(** Proofs about multipart parsing: well-formed bodies and limits. *)
From Verif Require Import PyStr PyStrFacts Utf8 MultipartModel MultipartSpec MultipartProofs.

(** ** Well-formed bodies *)
Lemma dset_new {V} k (v : V) d : ~ In k (dkeys d) -> dset k v d = d ++ [(k, v)].
Proof.
  induction d as [|(k', v') d IH]; intros H; [reflexivity|]. cbn [dset app dkeys map fst] in *.
  destruct (seqb_spec k k') as [->|]; [exfalso; apply H; left; reflexivity|].
  rewrite IH by (intros X; apply H; right; exact X). reflexivity.
Qed.

Definition low (h : str * str) : str * str := (lower (fst h), snd h).
Definition good_header (h : str * str) : Prop :=
  ~ In 13%N (fst h) /\ ~ In 58%N (fst h) /\ ~ In 13%N (snd h) /\ trimmed (fst h) /\ trimmed (snd h).

Lemma trimmed_ends s : trimmed s -> match s with c :: _ => is_space c = false | [] => True end /\ match rev s with c :: _ => is_space c = false | [] => True end.
Proof.
  unfold trimmed, strip, strip_by. intros H.
  destruct (rstrip_by_decomp is_space (lstrip_by is_space s)) as (w & E & _ & R). rewrite H in E, R. split; [|exact R].
  destruct (lstrip_by_decomp is_space s) as (w2 & E2 & _ & R2).
  assert (length s <= length (lstrip_by is_space s)) by (rewrite E, app_length; lia).
  assert (w2 = []) as ->.
  { destruct w2 as [|c w2]; [reflexivity|]. apply (f_equal (@length N)) in E2. rewrite app_length in E2. cbn in E2. lia. }
  cbn in E2. rewrite <- E2 in R2. exact R2.
Qed.

Lemma strip_pad a s b : forallb is_space a = true -> forallb is_space b = true -> trimmed s -> strip (a ++ s ++ b) = s.
Proof. intros A B T. destruct (trimmed_ends s T) as (T1 & T2). apply strip_by_pad; assumption. Qed.

Lemma hdr_lines bd rest : forall hl hs, Forall good_header hl ->
  NoDup (dkeys hs ++ map (fun h => lower (fst h)) hl) ->
  run' bd Hdr hs (concat (map header_line hl) ++ crlf ++ rest) =
  emit (emit_headers (hs ++ map low hl)) (run' bd Bod (hs ++ map low hl) rest).
Proof.
  induction hl as [|(n, v) hl IH]; intros hs G ND.
  - cbn [map concat app]. rewrite app_nil_r.
    change (crlf ++ rest) with ([] ++ crlf ++ rest).
    rewrite (run'_hdr bd hs [] rest) by (apply (first_at_cr [] rest); intros []). reflexivity.
  - inversion G as [|? ? (G1 & G2 & G3 & G4 & G5) G']; subst. cbn [fst snd] in *.
    assert (E : concat (map header_line ((n, v) :: hl)) ++ crlf ++ rest = (n ++ u ": " ++ v) ++ crlf ++ (concat (map header_line hl) ++ crlf ++ rest)).
    { cbn [map concat header_line fst snd]. unfold header_line at 1. cbn [fst snd]. rewrite <- !app_assoc. reflexivity. }
    rewrite E, run'_hdr.
    2: { apply first_at_cr. rewrite !in_app_iff. intros [X|[[X|[X|[]]]|X]]; [exact (G1 X) | discriminate X | discriminate X | exact (G3 X)]. }
    assert (S : seqb ((n ++ u ": " ++ v) ++ crlf) crlf = false).
    { apply seqb_neq. intros X. apply (f_equal (@length N)) in X. rewrite !app_length in X. cbn in X. lia. }
    rewrite S. assert (SP : split1 58 ((n ++ u ": " ++ v) ++ crlf) = Some (n, u " " ++ v ++ crlf)).
    { change (u ": ") with (58%N :: u " "). rewrite <- !app_assoc. cbn [app]. apply split1_app. exact G2. }
    rewrite SP. rewrite (strip_pad (u " ") v crlf) by (reflexivity || exact G5). unfold trimmed in G4. rewrite G4.
    cbn [map] in ND. cbn [fst] in ND.
    assert (NI : ~ In (lower n) (dkeys hs)).
    { intros X. apply NoDup_remove_2 in ND. apply ND. apply in_app_iff. left. exact X. }
    rewrite dset_new by exact NI. rewrite IH.
    + cbn [map low fst snd]. rewrite <- app_assoc. reflexivity.
    + exact G'.
    + unfold dkeys in *. rewrite map_app, <- app_assoc. exact ND.
Qed.

(** The encoding after the first delimiter. *)
Definition all_headers (p : mpart) : list (str * str) := (u "Content-Disposition", disposition p) :: m_headers p.
Definition lines (p : mpart) : str := concat (map header_line (all_headers p)).
Fixpoint enc_rest (bd : str) (ps : list mpart) : str :=
  match ps with
  | [] => u "--" ++ crlf
  | p :: r => crlf ++ lines p ++ crlf ++ m_body p ++ (crlf ++ bd) ++ enc_rest bd r
  end.
Lemma encode_rest boundary ps : encode_form boundary ps = (u "--" ++ boundary) ++ enc_rest (u "--" ++ boundary) ps.
Proof.
  unfold encode_form. set (bd := u "--" ++ boundary).
  assert (G : concat (map (encode_part bd) ps) ++ bd ++ u "--" ++ crlf = bd ++ enc_rest bd ps).
  { induction ps as [|p ps IH]; [reflexivity|]. cbn [map concat enc_rest]. unfold encode_part at 1. fold (lines p).
    unfold lines, all_headers in *. rewrite <- !app_assoc. rewrite IH. reflexivity. }
  rewrite <- G. unfold bd. rewrite <- !app_assoc. reflexivity.
Qed.

Fixpoint part_events (ps : list mpart) : list ev :=
  match ps with
  | [] => []
  | p :: r => emit_headers (map low (all_headers p)) ++ data_ev (m_body p) ++
              EPartEnd :: match r with [] => [EEnd] | _ => EBegin :: part_events r end
  end.

Lemma emit_emit a b o : emit a (emit b o) = emit (a ++ b) o.
Proof. destruct o as ((es, w), st). cbn. rewrite app_assoc. reflexivity. Qed.

Lemma good_all boundary p : good_part boundary p -> Forall good_header (all_headers p) /\
  NoDup (map (fun h => lower (fst h)) (all_headers p)) /\ ~ occurs (crlf ++ u "--" ++ boundary) (m_body p).
Proof.
  intros (G1 & G2 & G3 & G4). split; [|split].
  - constructor.
    + cbn [fst snd]. repeat split; try (intros X; cbn in X; repeat (destruct X as [X|X]; [discriminate X|]); exact X).
      * cbn [snd]. unfold disposition, quoted. rewrite !in_app_iff. intros X.
        assert (D : In 13%N (m_name p) \/ (exists f, m_filename p = Some f /\ In 13%N f)).
        { destruct X as [X|[[X|[X|X]]|X]]; [exfalso; cbn in X; repeat (destruct X as [X|X]; [discriminate X|]); exact X | exfalso; destruct X as [X|[]]; discriminate X
            | left; exact X | exfalso; destruct X as [X|[]]; discriminate X |].
          destruct (m_filename p) as [f|]; [|contradiction]. right. exists f. split; [reflexivity|].
          rewrite !in_app_iff in X. destruct X as [X|[X|[X|X]]]; [exfalso; cbn in X; repeat (destruct X as [X|X]; [discriminate X|]); exact X
            | exfalso; destruct X as [X|[]]; discriminate X | exact X | exfalso; destruct X as [X|[]]; discriminate X]. }
        destruct (G1 13%N D) as (A & _). congruence.
      * cbn [snd]. apply strip_by_id; [reflexivity|]. unfold disposition, quoted.
        destruct (m_filename p) as [f|].
        -- rewrite !app_assoc. rewrite rev_app_distr. reflexivity.
        -- rewrite app_nil_r, !app_assoc, rev_app_distr. reflexivity.
    + apply Forall_forall. intros (n, v) H. exact (G2 n v H).
  - exact G3.
  - exact G4.
Qed.

Lemma run_parts boundary p ps : ~ In 13%N boundary -> Forall (good_part boundary) (p :: ps) ->
  let bd := u "--" ++ boundary in
  out_events (run' bd Hdr [] (lines p ++ crlf ++ m_body p ++ (crlf ++ bd) ++ enc_rest bd ps)) = part_events (p :: ps) /\
  out_status (run' bd Hdr [] (lines p ++ crlf ++ m_body p ++ (crlf ++ bd) ++ enc_rest bd ps)) = WEnd.
Proof.
  intros HB G bd. assert (HB' : ~ In 13%N (10%N :: bd)).
  { intros [X|X]; [discriminate X|]. unfold bd in X. apply in_app_iff in X. destruct X as [[X|[X|[]]]|X]; [discriminate X | discriminate X | exact (HB X)]. }
  revert p G. induction ps as [|p' ps IH]; intros p G; inversion G as [|? ? G1 G2]; subst;
    destruct (good_all boundary p G1) as (A1 & A2 & A3).
  - unfold lines. rewrite hdr_lines by (exact A1 || exact A2). cbn [app].
    assert (F : first_at (crlf ++ bd) (m_body p ++ (crlf ++ bd) ++ enc_rest bd []) (m_body p)) by (apply (first_at_after 13 (10%N :: bd)); [exact HB' | exact A3]).
    rewrite (run'_bod bd _ (m_body p) (enc_rest bd [])) by exact F. cbn [enc_rest]. change (prefixb (u "--") (u "--" ++ crlf)) with true. cbv iota.
    match goal with |- context [emit ?q ?o] => destruct (emit_out q o) as (-> & -> & _) end.
    cbn [out_events out_status fst snd part_events]. split; reflexivity.
  - unfold lines at 1 2. rewrite hdr_lines by (exact A1 || exact A2). cbn [app].
    assert (F : first_at (crlf ++ bd) (m_body p ++ (crlf ++ bd) ++ enc_rest bd (p' :: ps)) (m_body p)) by (apply (first_at_after 13 (10%N :: bd)); [exact HB' | exact A3]).
    rewrite (run'_bod bd _ (m_body p) (enc_rest bd (p' :: ps))) by exact F. cbn [enc_rest].
    change (prefixb (u "--") (crlf ++ lines p' ++ crlf ++ m_body p' ++ (crlf ++ bd) ++ enc_rest bd ps)) with false. cbv iota.
    change (drop_crlf (crlf ++ lines p' ++ crlf ++ m_body p' ++ (crlf ++ bd) ++ enc_rest bd ps)) with (lines p' ++ crlf ++ m_body p' ++ (crlf ++ bd) ++ enc_rest bd ps).
    rewrite emit_emit.
    match goal with |- context [emit ?q ?o] => destruct (emit_out q o) as (-> & -> & _) end.
    destruct (IH p' G2) as (E1 & E2). split; [|exact E2]. etransitivity; [apply f_equal; exact E1|].
    cbn [part_events]. rewrite <- !app_assoc. reflexivity.
Qed.

Lemma run_form boundary ps : ~ In 13%N boundary -> Forall (good_part boundary) ps ->
  let bd := u "--" ++ boundary in
  out_events (run' bd Pre [] (encode_form boundary ps)) = match ps with [] => [EEnd] | _ => EBegin :: part_events ps end /\
  out_status (run' bd Pre [] (encode_form boundary ps)) = WEnd.
Proof.
  intros HB G bd. rewrite encode_rest. fold bd.
  assert (HB' : ~ In 13%N bd).
  { unfold bd. rewrite in_app_iff. intros [[X|[X|[]]]|X]; [discriminate X | discriminate X | exact (HB X)]. }
  destruct ps as [|p ps].
  - cbn [enc_rest]. assert (E : bd ++ u "--" ++ crlf = (bd ++ u "--") ++ crlf ++ []) by (rewrite app_nil_r, <- app_assoc; reflexivity).
    rewrite E, run'_pre.
    2: { apply first_at_cr. rewrite in_app_iff. intros [X|[X|[X|[]]]]; [exact (HB' X) | discriminate X | discriminate X]. }
    rewrite <- app_assoc. rewrite prefixb_app. unfold term. rewrite app_assoc, prefixb_app. split; reflexivity.
  - cbn [enc_rest]. rewrite run'_pre by (apply first_at_cr; exact HB').
    rewrite prefixb_app. assert (P : prefixb (term bd) (bd ++ crlf) = false).
    { unfold term. clear. induction bd as [|c bd IH]; [reflexivity|]. cbn [app prefixb]. rewrite N.eqb_refl. exact IH. }
    rewrite P. match goal with |- context [emit ?q ?o] => destruct (emit_out q o) as (-> & -> & _) end.
    destruct (run_parts boundary p ps HB G) as (E1 & E2). split; [|exact E2]. etransitivity; [apply f_equal; exact E1|]. reflexivity.
Qed.

(** *** The items of a part *)
Lemma bstrip_quoted a s : forallb is_bspace a = true -> match a with [] => True | _ => True end ->
  forall k, k <> [] -> match k with c :: _ => is_bspace c = false | [] => True end ->
  bstrip (a ++ k ++ quoted s) = k ++ quoted s.
Proof.
  intros A _ k Hk Hc.
  replace (a ++ k ++ quoted s) with (a ++ (k ++ quoted s) ++ []) by (rewrite app_nil_r; reflexivity).
  apply strip_by_pad; [exact A | reflexivity | destruct k; [congruence | exact Hc] |].
  unfold quoted. rewrite !app_assoc, rev_app_distr. reflexivity.
Qed.

Lemma unquote_quoted s : unquote_value (bstrip (quoted s)) = s.
Proof.
  assert (B : bstrip (quoted s) = quoted s).
  { apply strip_by_id; [reflexivity|]. unfold quoted. rewrite !app_assoc, rev_app_distr. reflexivity. }
  rewrite B. unfold unquote_value.
  assert (P : prefixb [34%N] (quoted s) = true) by reflexivity.
  assert (Sf : suffixb [34%N] (quoted s) = true) by (apply suffixb_iff; exists ([34%N] ++ s); unfold quoted; rewrite <- app_assoc; reflexivity).
  assert (L : length (quoted s) = S (S (length s))) by (unfold quoted; rewrite !app_length; cbn; lia).
  rewrite P, Sf, L. cbn [andb Nat.leb]. replace (S (S (length s)) - 2) with (length s) by lia.
  unfold quoted. cbn [app skipn]. apply firstn_app_exact. reflexivity.
Qed.

Definition opts (p : mpart) : dict str :=
  (u "name", m_name p) :: match m_filename p with Some f => [(u "filename", f)] | None => [] end.

Lemma options_disposition boundary p : good_part boundary p -> header_options (Some (disposition p)) = opts p.
Proof.
  intros (G1 & _). cbn [header_options].
  assert (N1 : ~ In 59%N (quoted (m_name p))).
  { unfold quoted. rewrite !in_app_iff. intros [[X|[]]|[X|[X|[]]]]; try discriminate X. destruct (G1 59%N (or_introl X)) as (_ & A). congruence. }
  assert (Step : forall k s, k <> [] -> ~ In 61%N k -> bstrip k = k -> lower k = k -> match k with c :: _ => is_bspace c = false | [] => True end -> forall d : dict str,
    match split1 61 (bstrip (u " " ++ (k ++ u "=") ++ quoted s)) with
    | None => d | Some (k, v) => dset (lower (bstrip k)) (unquote_value (bstrip v)) d end = dset k s d).
  { intros k s Hk H61 Hs Hl Hc d. rewrite (bstrip_quoted (u " ") s eq_refl I (k ++ u "=")).
    - rewrite <- app_assoc. change (u "=" ++ quoted s) with (61%N :: quoted s). rewrite split1_app by exact H61.
      rewrite Hs, Hl, unquote_quoted. reflexivity.
    - destruct k; [congruence | discriminate].
    - destruct k; [congruence | exact Hc]. }
  unfold disposition, opts. destruct (m_filename p) as [f|].
  - assert (N2 : ~ In 59%N (quoted f)).
    { unfold quoted. rewrite !in_app_iff. intros [[X|[]]|[X|[X|[]]]]; try discriminate X.
      destruct (G1 59%N (or_intror (ex_intro _ f (conj eq_refl X)))) as (_ & A). congruence. }
    assert (E : u "form-data; name=" ++ quoted (m_name p) ++ u "; filename=" ++ quoted f
      = u "form-data" ++ 59%N :: ((u " " ++ (u "name" ++ u "=") ++ quoted (m_name p)) ++ 59%N :: (u " " ++ (u "filename" ++ u "=") ++ quoted f))).
    { rewrite <- !app_assoc. reflexivity. }
    rewrite E, split_char_app by (intros X; cbn in X; repeat (destruct X as [X|X]; [discriminate X|]); exact X).
    rewrite split_char_app, split_char_free.
    + cbn [tl fold_left]. rewrite !Step; try reflexivity; try discriminate;
        intros X; cbn in X; repeat (destruct X as [X|X]; [discriminate X|]); exact X.
    + rewrite !in_app_iff. intros [X|[[X|X]|X]]; try exact (N2 X); cbn in X; repeat (destruct X as [X|X]; [discriminate X|]); exact X.
    + rewrite !in_app_iff. intros [X|[[X|X]|X]]; try exact (N1 X); cbn in X; repeat (destruct X as [X|X]; [discriminate X|]); exact X.
  - assert (E : u "form-data; name=" ++ quoted (m_name p) ++ [] = u "form-data" ++ 59%N :: (u " " ++ (u "name" ++ u "=") ++ quoted (m_name p))).
    { rewrite app_nil_r, <- !app_assoc. reflexivity. }
    rewrite E, split_char_app by (intros X; cbn in X; repeat (destruct X as [X|X]; [discriminate X|]); exact X).
    rewrite split_char_free.
    + cbn [tl fold_left]. rewrite !Step; try reflexivity; try discriminate;
        intros X; cbn in X; repeat (destruct X as [X|X]; [discriminate X|]); exact X.
    + rewrite !in_app_iff. intros [X|[[X|X]|X]]; try exact (N1 X); cbn in X; repeat (destruct X as [X|X]; [discriminate X|]); exact X.
Qed.

Lemma evs_headers e hl : forall s, flushed s -> ~ In (u "content-disposition") (map fst hl) ->
  evs_now e s (map (fun h => EHeader (fst h) (snd h)) hl) =
  inl (aset_part s {| p_disp := p_disp (a_part s); p_name := p_name (a_part s); p_data := p_data (a_part s); p_file := p_file (a_part s);
                      p_headers := p_headers (a_part s) ++ hl |}).
Proof.
  induction hl as [|(n, v) hl IH]; intros s F H.
  - cbn. rewrite app_nil_r. destruct s as [[? ? ? ? ?] ? ? ? ? ? ?]. reflexivity.
  - cbn [map evs_now on_ev fst snd flush_res].
    rewrite flush_flushed by (split; apply F). rewrite IH; [|split; apply F|].
    + f_equal. unfold padd_header, aset_part. cbn [a_part p_disp p_name p_data p_file p_headers a_items a_files a_nfiles a_nfields a_write a_finish].
      destruct (seqb_spec n (u "content-disposition")) as [->|]; [exfalso; apply H; left; reflexivity|].
      rewrite <- app_assoc. reflexivity.
    + intros X. apply H. right. exact X.
Qed.

Definition begun (s : ast) : Prop := flushed s /\ inv s /\ a_part s = new_part.

Lemma upd_last {A} (f : A -> A) l x : upd (length l) f (l ++ [x]) = l ++ [f x].
Proof. induction l as [|a l IH]; [reflexivity|]. cbn. rewrite IH. reflexivity. Qed.

Lemma one_part e boundary p it s : good_part boundary p -> item_of e p it -> begun s ->
  (is_file p = true -> a_nfiles s < max_files e) -> (is_file p = false -> a_nfields s < max_fields e) ->
  exists s', evs_now e s (emit_headers (map low (all_headers p)) ++ data_ev (m_body p) ++ [EPartEnd]) = inl s' /\
    flushed s' /\ inv s' /\
    (exists fs, a_files s' = a_files s ++ fs) /\
    a_nfiles s' = a_nfiles s + (if is_file p then 1 else 0) /\ a_nfields s' = a_nfields s + (if is_file p then 0 else 1) /\
    exists x, a_items s' = a_items s ++ [x] /\ forall fs, resolve (aset_files s' (a_files s' ++ fs)) x = it.
Proof.
  intros G It (F & Iv & B) M1 M2.
  destruct (good_all boundary p G) as (_ & ND & _). cbn [all_headers map fst] in ND.
  assert (NI : ~ In (u "content-disposition") (map fst (map low (m_headers p)))).
  { rewrite map_map. inversion ND; assumption. }
  assert (E0 : evs_now e s (emit_headers (map low (all_headers p)) ++ data_ev (m_body p) ++ [EPartEnd]) =
    evs_now e (aset_part s {| p_disp := Some (disposition p); p_name := []; p_data := []; p_file := None; p_headers := map low (all_headers p) |})
      (EHeadersDone :: data_ev (m_body p) ++ [EPartEnd])).
  { unfold emit_headers. rewrite <- app_assoc. cbn [all_headers map low fst snd app].
    change (lower (u "Content-Disposition")) with (u "content-disposition").
    cbn [evs_now on_ev flush_res]. rewrite B. rewrite flush_flushed by (split; apply F).
    rewrite evs_now_app, evs_headers; [|split; apply F|exact NI]. reflexivity. }
  assert (Inv' : forall s', evs_now e s (emit_headers (map low (all_headers p)) ++ data_ev (m_body p) ++ [EPartEnd]) = inl s' -> flushed s' /\ inv s').
  { intros s' E. destruct (evs_now_inv _ _ _ _ Iv F E). split; assumption. }
  set (p1 := {| p_disp := Some (disposition p); p_name := []; p_data := []; p_file := None; p_headers := map low (all_headers p) |}) in *.
  set (s1 := aset_part s p1) in *.
  assert (HD : header_options (p_disp (a_part s1)) = opts p) by exact (options_disposition boundary p G).
  destruct It as (nm & D1 & It).
  assert (FN : field_name e (opts p) = inl nm).
  { unfold field_name, opts. cbn [dget]. change (seqb (u "name") (u "name")) with true. cbv iota. rewrite D1. reflexivity. }
  destruct F as (F1 & F2).
  unfold is_file in *. destruct (m_filename p) as [f|] eqn:Ef.
  - assert (OF : dget (u "filename") (opts p) = Some f) by (unfold opts; rewrite Ef; reflexivity).
    destruct It as (fn & D2 & ->).
    assert (ML : (max_files e <? S (a_nfiles s1))%nat = false) by (apply Nat.ltb_ge; specialize (M1 eq_refl); cbn [s1 aset_part a_nfiles]; lia).
    set (nf := {| f_name := fn; f_headers := map low (all_headers p); f_content := []; f_pos := 0; f_size := 0 |}).
    set (p2 := {| p_disp := Some (disposition p); p_name := nm; p_data := []; p_file := Some (length (a_files s)); p_headers := map low (all_headers p) |}).
    assert (H1 : headers_done e s1 = inl {| a_part := p2; a_items := a_items s; a_files := a_files s ++ [nf]; a_nfiles := S (a_nfiles s); a_nfields := a_nfields s; a_write := a_write s; a_finish := a_finish s |}).
    { unfold headers_done. rewrite HD, FN, OF, ML, D2. reflexivity. }
    set (ff := {| f_name := fn; f_headers := map low (all_headers p); f_content := m_body p; f_pos := 0; f_size := length (m_body p) |}).
    assert (Fin : evs_now e s1 (EHeadersDone :: data_ev (m_body p) ++ [EPartEnd]) =
      inl {| a_part := p2; a_items := a_items s ++ [(nm, inr (length (a_files s)))]; a_files := a_files s ++ [ff]; a_nfiles := S (a_nfiles s); a_nfields := a_nfields s; a_write := []; a_finish := [] |}).
    { cbn [evs_now on_ev]. rewrite H1. cbn [flush_res]. rewrite flush_flushed by (split; assumption).
      unfold ff. destruct (m_body p) as [|c b].
      - cbn [data_ev app evs_now on_ev a_part p2 p_file p_name flush_res]. f_equal.
        unfold write_file_data, aadd_item. cbn [a_part a_items a_files a_nfiles a_nfields a_write a_finish]. rewrite F1, F2. cbn [app fold_left].
        rewrite upd_last. reflexivity.
      - cbn [data_ev app evs_now on_ev a_part p2 p_file p_name flush_res aadd_write write_file_data].
        unfold write_file_data, aadd_item, aadd_write. cbn [a_part a_items a_files a_nfiles a_nfields a_write a_finish p_file p_name p2 flush_res].
        rewrite F1, F2. cbn [app fold_left fst snd a_files a_write a_finish a_items]. rewrite !upd_last.
        unfold file_seek0, file_write, nf. cbn. rewrite app_nil_r. reflexivity. }
    rewrite E0 in *. rewrite Fin in *. eexists. split; [reflexivity|].
    destruct (Inv' _ eq_refl) as (FF & II). split; [exact FF|]. split; [exact II|].
    split; [exists [ff]; reflexivity|]. cbn [a_nfiles a_nfields a_items a_files]. split; [lia|]. split; [lia|].
    eexists. split; [reflexivity|]. intros fs. unfold resolve. cbn [fst snd aset_files a_files]. f_equal. f_equal.
    rewrite <- app_assoc. rewrite nth_error_app2 by lia. rewrite Nat.sub_diag. reflexivity.
  - assert (OF : dget (u "filename") (opts p) = None) by (unfold opts; rewrite Ef; reflexivity).
    destruct It as (t & D2 & ->).
    assert (ML : (max_fields e <? S (a_nfields s1))%nat = false) by (apply Nat.ltb_ge; specialize (M2 eq_refl); cbn [s1 aset_part a_nfields]; lia).
    assert (H1 : headers_done e s1 = inl {| a_part := pset_name p1 nm; a_items := a_items s; a_files := a_files s; a_nfiles := a_nfiles s; a_nfields := S (a_nfields s); a_write := a_write s; a_finish := a_finish s |}).
    { unfold headers_done. rewrite HD, FN, OF, ML. reflexivity. }
    assert (Fin : exists pt, evs_now e s1 (EHeadersDone :: data_ev (m_body p) ++ [EPartEnd]) =
      inl {| a_part := pt; a_items := a_items s ++ [(nm, inl t)]; a_files := a_files s; a_nfiles := a_nfiles s; a_nfields := S (a_nfields s); a_write := []; a_finish := [] |}).
    { cbn [evs_now on_ev]. rewrite H1. cbn [flush_res]. rewrite flush_flushed by (split; assumption).
      destruct (m_body p) as [|c b]; eexists.
      - cbn [data_ev app evs_now on_ev a_part p1 p_file p_name p_data pset_name]. rewrite D2. cbn [flush_res]. f_equal.
        unfold write_file_data, aadd_item. cbn [a_part a_items a_files a_nfiles a_nfields a_write a_finish]. rewrite F1, F2. reflexivity.
      - cbn [data_ev app evs_now on_ev a_part p1 p_file p_name p_data pset_name flush_res aset_part pset_data write_file_data].
        cbn [a_part p_data p_file p_name]. rewrite D2. cbn [flush_res]. f_equal.
        unfold write_file_data, aadd_item. cbn [a_part a_items a_files a_nfiles a_nfields a_write a_finish]. rewrite F1, F2. reflexivity. }
    destruct Fin as (pt & Fin). rewrite E0 in *. rewrite Fin in *. eexists. split; [reflexivity|].
    destruct (Inv' _ eq_refl) as (FF & II). split; [exact FF|]. split; [exact II|].
    split; [exists []; cbn [a_files]; rewrite app_nil_r; reflexivity|]. cbn [a_nfiles a_nfields a_items a_files]. split; [lia|]. split; [lia|].
    eexists. split; [reflexivity|]. intros fs. reflexivity.
Qed.

Lemma resolve_ext s fs x y : resolve s x = y -> (forall i, snd x = inr i -> i < length (a_files s)) -> resolve (aset_files s (a_files s ++ fs)) x = y.
Proof.
  intros H L. rewrite <- H. unfold resolve. destruct x as (n, [t|i]); [reflexivity|]. cbn [fst snd] in *. f_equal. f_equal.
  cbn [aset_files a_files]. apply nth_error_app1. apply L. reflexivity.
Qed.

Lemma aset_files_id s : aset_files s (a_files s) = s.
Proof. destruct s; reflexivity. Qed.

(** All parts: what is resolved in the end. *)
Lemma all_parts e boundary : forall ps its s, Forall (good_part boundary) ps -> Forall2 (item_of e) ps its -> begun s -> ps <> [] ->
  a_nfiles s + count is_file ps <= max_files e -> a_nfields s + count (fun p => negb (is_file p)) ps <= max_fields e ->
  exists s' xs, evs_now e s (part_events ps) = inl s' /\ (exists fs, a_files s' = a_files s ++ fs) /\
    a_items s' = a_items s ++ xs /\ map (resolve s') xs = its.
Proof.
  induction ps as [|p ps IH]; intros its s G I2 B NE M1 M2; [congruence|].
  inversion G as [|? ? G1 G2]; subst. inversion I2 as [|? it ? its' It Its]; subst. unfold count in M1, M2. cbn [filter] in M1, M2.
  destruct (one_part e boundary p it s G1 It B) as (s1 & E1 & F1 & Iv1 & (fs1 & X1) & N1 & N2 & x & A1 & R1).
  { intros H. rewrite H in M1. cbn in M1. lia. }
  { intros H. rewrite H in M2. cbn in M2. lia. }
  cbn [part_events]. destruct ps as [|p' ps].
  - inversion Its; subst. exists s1, [x].
    assert (EE : emit_headers (map low (all_headers p)) ++ data_ev (m_body p) ++ EPartEnd :: [EEnd] = (emit_headers (map low (all_headers p)) ++ data_ev (m_body p) ++ [EPartEnd]) ++ [EEnd]).
    { rewrite <- !app_assoc. reflexivity. }
    rewrite EE, evs_now_app, E1. cbn [evs_now on_ev flush_res]. rewrite flush_flushed by exact F1.
    split; [reflexivity|]. split; [exists fs1; exact X1|]. split; [exact A1|]. cbn [map]. f_equal.
    specialize (R1 []). rewrite app_nil_r, aset_files_id in R1. exact R1.
  - set (s2 := aset_part s1 new_part).
    assert (B2 : begun s2).
    { split; [|split; [|reflexivity]]; [split; apply F1|]. destruct Iv1 as (J1 & J2 & _ & J4). split; [exact J1|split; [exact J2|split; [|exact J4]]].
      intros i H. discriminate H. }
    destruct (IH its' s2 G2 Its B2 ltac:(discriminate)) as (s3 & xs & E3 & (fs3 & X3) & A3 & R3).
    { unfold s2. cbn [aset_part a_nfiles]. unfold count. destruct (is_file p); cbn [length] in M1; lia. }
    { unfold s2. cbn [aset_part a_nfields]. unfold count. destruct (is_file p); cbn [negb length] in M2; lia. }
    exists s3, (x :: xs).
    assert (EE : emit_headers (map low (all_headers p)) ++ data_ev (m_body p) ++ EPartEnd :: EBegin :: part_events (p' :: ps) = (emit_headers (map low (all_headers p)) ++ data_ev (m_body p) ++ [EPartEnd]) ++ EBegin :: part_events (p' :: ps)).
    { rewrite <- !app_assoc. reflexivity. }
    rewrite EE, evs_now_app, E1. change (EBegin :: part_events (p' :: ps)) with ([EBegin] ++ part_events (p' :: ps)). rewrite evs_now_app.
    assert (Eb : evs_now e s1 [EBegin] = inl s2).
    { cbn [evs_now on_ev flush_res]. rewrite flush_flushed; [reflexivity|]. split; apply F1. }
    rewrite Eb. split; [exact E3|]. change (a_files s2) with (a_files s1) in X3. change (a_items s2) with (a_items s1) in A3.
    split; [exists (fs1 ++ fs3); rewrite X3, X1, app_assoc; reflexivity|].
    split; [rewrite A3, A1, <- app_assoc; reflexivity|]. cbn [map]. f_equal; [|exact R3].
    specialize (R1 fs3). rewrite <- R1. unfold resolve. cbn [aset_files a_files]. rewrite X3. reflexivity.
Qed.

Lemma form_parsed e boundary ps its : ~ In 13%N boundary -> Forall (good_part boundary) ps -> Forall2 (item_of e) ps its ->
  count is_file ps <= max_files e -> count (fun p => negb (is_file p)) ps <= max_fields e ->
  outcome (single e (u "--" ++ boundary) Pre [] (encode_form boundary ps) new_ast) = inl its.
Proof.
  intros HB G It M1 M2. unfold single. destruct (run_form boundary ps HB G) as (-> & ->).
  destruct new_inv as (Iv & F & _).
  destruct ps as [|p ps].
  - inversion It; subst. reflexivity.
  - change (EBegin :: part_events (p :: ps)) with ([EBegin] ++ part_events (p :: ps)). rewrite evs_now_app.
    change (evs_now e new_ast [EBegin]) with (inl new_ast : ast + merr).
    destruct (all_parts e boundary (p :: ps) its new_ast G It) as (s' & xs & E & _ & A & R).
    + split; [exact F | split; [exact Iv | reflexivity]].
    + discriminate.
    + exact M1.
    + exact M2.
    + rewrite E. cbn [outcome]. rewrite A. cbn [app new_ast a_items]. rewrite R. reflexivity.
Qed.
