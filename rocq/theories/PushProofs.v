(** Proofs about the standalone form parser. *)
From Verif Require Import PyStr PyStrFacts Utf8 FormModel FormSpec FormProofs MultipartModel MultipartSpec MultipartProofs MultipartFormProofs
  PushModel PushSpec.

(** *** The content type *)
Lemma latin1_id s : Forall (fun c => (c < 256)%N) s -> latin1 s = s.
Proof. induction 1 as [|c s H _ IH]; [reflexivity|]. cbn [latin1 filter]. rewrite (proj2 (N.ltb_lt _ _) H). unfold latin1 in IH. rewrite IH. reflexivity. Qed.

Lemma fold_last (post : list (str * str)) k : forall d : dict str, Forall (fun h => lower (fst h) <> k) post ->
  dget k (fold_left (fun d h => dset (lower (fst h)) (snd h) d) post d) = dget k d.
Proof.
  induction post as [|h post IH]; intros d F; [reflexivity|]. inversion F as [|? ? F1 F2]; subst. cbn [fold_left].
  rewrite IH by exact F2. apply dget_dset_other. congruence.
Qed.

Lemma declares_type headers t params : declares headers t params ->
  exists raw, content_type_of headers = raw ++ params /\ options_header (raw ++ params) = (t, header_options (Some (raw ++ params))) /\
    ~ In 59%N raw.
Proof.
  intros (pre & n & raw & post & -> & Hn & F & P & N59 & B & L). exists raw. split; [|split; [|exact N59]].
  - unfold content_type_of. rewrite fold_left_app. cbn [fold_left fst snd]. rewrite fold_last by exact F.
    rewrite Hn, dget_dset_same. reflexivity.
  - unfold options_header. rewrite latin1_id by exact B. f_equal.
    destruct P as [->|(r & ->)].
    + rewrite app_nil_r, split_char_free by exact N59. exact L.
    + rewrite split_char_app by exact N59. exact L.
Qed.

Lemma boundary_option raw b : ~ In 59%N raw -> plain_boundary b ->
  dget (u "boundary") (header_options (Some (raw ++ with_boundary b))) = Some b.
Proof.
  intros N59 (NE & C & S). unfold with_boundary.
  change (u "; boundary=" ++ b) with (59%N :: (u " boundary=" ++ b)). cbn [header_options].
  rewrite split_char_app by exact N59. rewrite split_char_free.
  2: { rewrite in_app_iff. intros [X|X]; [cbn in X; intuition discriminate | apply C in X; lia]. }
  cbn [tl fold_left].
  assert (E : bstrip (u " boundary=" ++ b) = u "boundary=" ++ b).
  { assert (T : match rev b with c :: _ => is_bspace c = false | [] => True end).
    { unfold bstrip, strip_by in S. destruct (rstrip_by_decomp is_bspace (lstrip_by is_bspace b)) as (w & _ & _ & R). rewrite S in R. exact R. }
    replace (u " boundary=" ++ b) with (u " " ++ (u "boundary=" ++ b) ++ []) by (rewrite app_nil_r; reflexivity).
    apply strip_by_pad; [reflexivity | reflexivity | reflexivity |].
    rewrite rev_app_distr. destruct (rev b) as [|c r] eqn:R; [|exact T].
    exfalso. apply NE. rewrite <- (rev_involutive b), R. reflexivity. }
  rewrite E. change (u "boundary=" ++ b) with (u "boundary" ++ 61%N :: b).
  rewrite split1_app by (cbn; intuition discriminate). rewrite S.
  assert (Q : unquote_value b = b).
  { unfold unquote_value. destruct (prefixb [34%N] b) eqn:Pq; [|reflexivity].
    apply prefixb_iff in Pq. destruct Pq as (r & ->). exfalso. specialize (C 34%N (or_introl eq_refl)). lia. }
  rewrite Q. change (lower (bstrip (u "boundary"))) with (u "boundary"). cbn [dset dget]. rewrite seqb_refl. reflexivity.
Qed.

(** *** Limits *)
Lemma admitted_app limit n a b :
  admitted limit n (a ++ b) = admitted limit n a ++ admitted limit (n + length (admitted limit n a)) b.
Proof.
  destruct limit as [m|]; [|reflexivity]. cbn [admitted]. rewrite firstn_app. f_equal. f_equal. rewrite firstn_length. lia.
Qed.
Lemma admitted_nil limit n : admitted limit n [] = [].
Proof. destruct limit; [apply firstn_nil | reflexivity]. Qed.

(** *** Octet streams *)
Lemma feed_octet s : s_kind s = KOctet -> forall chunks st,
  feed s st chunks =
  match (match p_octet st with Some f => Some f | None => match concat chunks with [] => None | _ => Some (octet_file s) end end) with
  | None => ([], Some EAssert)
  | Some f => let d := admitted (s_limit s) (p_consumed st) (concat chunks) in
              ([CFile {| up_filename := up_filename f; up_field := up_field f; up_type := up_type f; up_headers := up_headers f;
                         up_content := up_content f ++ d; up_size := up_size f + length d |}; CEnd], None)
  end.
Proof.
  intros K. induction chunks as [|c r IH]; intros st.
  - cbn [feed concat]. unfold finalize. rewrite K. destruct (p_octet st) as [f|]; [|reflexivity].
    cbv zeta. rewrite admitted_nil, app_nil_r. cbn [length]. rewrite Nat.add_0_r. destruct f; reflexivity.
  - cbn [feed concat]. destruct c as [|x c].
    { cbn [write app]. rewrite IH. destruct (p_octet st) as [f|]; [reflexivity|]. destruct (concat r); reflexivity. }
    unfold write. rewrite K. set (data := x :: c). set (d := admitted (s_limit s) (p_consumed st) data).
    set (f := match p_octet st with Some f => f | None => octet_file s end). cbv zeta. rewrite IH.
    cbn [set_octet p_octet p_consumed].
    assert (F : (match p_octet st with Some f => Some f | None => match data ++ concat r with [] => None | _ => Some (octet_file s) end end) = Some f).
    { unfold f. destruct (p_octet st); reflexivity. }
    rewrite F. rewrite admitted_app. fold d.
    set (d2 := admitted (s_limit s) (p_consumed st + length d) (concat r)). cbn [app].
    f_equal. f_equal. f_equal.
    destruct d as [|y d'] eqn:D; [cbn [app length]; reflexivity|].
    rewrite <- D. cbn [upload_write up_filename up_field up_type up_headers up_content up_size]. rewrite app_length, <- app_assoc, Nat.add_assoc. reflexivity.
Qed.

(** *** Urlencoded forms *)
Definition pair_of (raw : str) : str * str :=
  (unquote (utf8_dec (fst (partition_eq raw))), unquote (utf8_dec (snd (partition_eq raw)))).
Definition field_of (raw : str) : call := CField (fst (pair_of raw)) (snd (pair_of raw)).

Lemma push_msgs_app a : forall b st,
  push_msgs st (a ++ b) = (fst (push_msgs st a) ++ fst (push_msgs (snd (push_msgs st a)) b), snd (push_msgs (snd (push_msgs st a)) b)).
Proof.
  induction a as [|m a IH]; intros b st; [cbn [app push_msgs fst snd]; destruct (push_msgs st b); reflexivity|].
  cbn [app push_msgs]. destruct (push_msg st m) as (cs, st1). rewrite IH. destruct (push_msgs st1 a) as (cs2, st2). cbn [fst snd].
  rewrite app_assoc. reflexivity.
Qed.

Lemma push_name_cb b k v : push_msgs (k, v) (data_callback FName b) = ([], (k ++ b, v)).
Proof. destruct b; cbn; rewrite ?app_nil_r; reflexivity. Qed.
Lemma push_data_cb b k v : push_msgs (k, v) (data_callback FData b) = ([], (k, v ++ b)).
Proof. destruct b; cbn; rewrite ?app_nil_r; reflexivity. Qed.

Lemma push_flush raw st : fst (push_msgs st (flush_field raw)) = [field_of raw].
Proof.
  unfold flush_field, field_of, pair_of. destruct (partition_eq raw) as (k, v). cbn [fst snd].
  pose proof (text_unquote_dec k) as Ek. pose proof (text_unquote_dec v) as Ev.
  set (a := utf8_enc (unquote (utf8_dec k))) in *. set (b := utf8_enc (unquote (utf8_dec v))) in *.
  assert (G : forall n w, fst (push_msgs (n, w) (FStart :: data_callback FName a ++ data_callback FData b ++ [FEnd]))
              = [CField (utf8_dec a) (utf8_dec (utf8_enc (utf8_dec b)))]).
  { intros n w. cbn [push_msgs push_msg]. rewrite push_msgs_app, push_name_cb. cbn [fst snd app].
    rewrite push_msgs_app, push_data_cb. reflexivity. }
  destruct st as (n, w). rewrite G, Ek, Ev. fold b. rewrite Ev. reflexivity.
Qed.

Lemma push_flushes ps : forall st, fst (push_msgs st (concat (map flush_field ps))) = map field_of ps.
Proof.
  induction ps as [|p ps IH]; intros st; [reflexivity|]. cbn [map concat]. rewrite push_msgs_app. cbn [fst].
  rewrite push_flush, IH. reflexivity.
Qed.

Lemma push_finalize buffer st : fst (push_msgs st (qs_finalize buffer)) = map field_of (match buffer with [] => [] | _ => [buffer] end) ++ [CEnd].
Proof.
  destruct buffer as [|c r]; cbn [qs_finalize map app].
  - destruct st; reflexivity.
  - rewrite push_msgs_app. cbn [fst]. rewrite push_flush. destruct (snd (push_msgs st (flush_field (c :: r)))). reflexivity.
Qed.

Lemma feed_url s : s_kind s = KUrl -> forall chunks st, ~ In 38%N (p_query st) ->
  feed s st chunks = (map field_of (pieces (p_query st ++ admitted (s_limit s) (p_consumed st) (concat chunks))) ++ [CEnd], None).
Proof.
  intros K. induction chunks as [|c r IH]; intros st NB.
  - cbn [feed concat]. unfold finalize. rewrite K, push_finalize. rewrite admitted_nil, app_nil_r. unfold pieces.
    rewrite split_char_free by exact NB. destruct (p_query st); reflexivity.
  - cbn [feed concat]. destruct c as [|x c].
    { cbn [write app]. rewrite IH by exact NB. reflexivity. }
    unfold write. rewrite K. set (data := x :: c). rewrite admitted_app.
    destruct (admitted (s_limit s) (p_consumed st) data) as [|y d] eqn:D.
    { rewrite IH by exact NB. cbn [length app]. rewrite Nat.add_0_r. reflexivity. }
    rewrite <- D in *. set (dd := admitted (s_limit s) (p_consumed st) data) in *.
    assert (Q : qs_write (p_query st) dd = scan [] (p_query st ++ dd)) by (unfold qs_write; rewrite D; reflexivity).
    rewrite Q, scan_closed. set (k := closed [] (p_query st ++ dd)).
    pose proof (push_flushes (fst k) (p_pair st)) as PF.
    destruct (push_msgs (p_pair st) (concat (map flush_field (fst k)))) as (cs, kv). cbn [fst] in PF. subst cs.
    rewrite IH by (cbn [set_query p_query]; apply closed_rest_free; intros []).
    cbn [set_query p_query p_consumed]. rewrite app_assoc, <- map_app. f_equal. f_equal. f_equal.
    set (rest := admitted (s_limit s) (p_consumed st + length dd) (concat r)). unfold pieces.
    pose proof (closed_split (p_query st ++ dd ++ rest) [] (fun x => x)) as S. cbn [app] in S. rewrite S.
    rewrite (app_assoc (p_query st) dd rest), (closed_app (p_query st ++ dd) [] rest). cbn [fst snd]. fold k.
    rewrite drop_last_empty_app. rewrite (closed_split rest (snd k)) by (apply closed_rest_free; intros []).
    rewrite drop_last_empty_app, app_assoc. reflexivity.
Qed.

(** *** Multipart forms *)
Lemma push_evs_app codecs a : forall b st,
  push_evs codecs st (a ++ b) = (fst (push_evs codecs st a) ++ fst (push_evs codecs (snd (push_evs codecs st a)) b),
                                 snd (push_evs codecs (snd (push_evs codecs st a)) b)).
Proof.
  induction a as [|m a IH]; intros b st; [cbn [app push_evs fst snd]; destruct (push_evs codecs st b); reflexivity|].
  cbn [app push_evs]. destruct (push_ev codecs st m) as (cs, st1). rewrite IH. destruct (push_evs codecs st1 a) as (cs2, st2). cbn [fst snd].
  rewrite app_assoc. reflexivity.
Qed.

Lemma push_eqv codecs xs ys : eqv xs ys -> forall st, push_evs codecs st xs = push_evs codecs st ys.
Proof.
  induction 1 as [|x y|zs xs ys _ IH|zs xs ys _ IH]; intros st.
  - reflexivity.
  - destruct st as (cur, hs). cbn [push_evs push_ev app]. destruct cur as [|n d|f]; [reflexivity | rewrite app_assoc; reflexivity|].
    unfold upload_write. cbn [up_filename up_field up_type up_headers up_content up_size]. rewrite app_length, app_assoc, Nat.add_assoc. reflexivity.
  - rewrite !push_evs_app, IH. reflexivity.
  - rewrite !push_evs_app, IH. reflexivity.
Qed.

Definition failure (w : wstatus) : option perr := match w with WBad => Some EMultipart | _ => None end.
Definition whole (codecs : codecs_t) (bd : str) (ph : phase) (hs : dict str) (buf : str) (c : pcur) : list call * option perr :=
  (fst (push_evs codecs c (out_events (run' bd ph hs buf))), failure (out_status (run' bd ph hs buf))).

Lemma data_quiet codecs c b : fst (push_evs codecs c (data_ev b)) = [].
Proof. destruct b as [|x b]; [reflexivity|]. destruct c as (cur, hs). reflexivity. Qed.

Lemma feed_quiet s boundary : s_kind s = KMulti boundary -> forall chunks st, concat chunks = [] -> feed s st chunks = ([], None).
Proof.
  intros K. induction chunks as [|c r IH]; intros st C; cbn [feed].
  - unfold finalize. rewrite K, data_quiet. reflexivity.
  - cbn [concat] in C. apply app_eq_nil in C. destruct C as (-> & C). cbn [write]. rewrite IH by exact C. reflexivity.
Qed.

Lemma feed_multi s boundary : s_kind s = KMulti boundary -> s_limit s = None -> forall chunks st ph hs buf,
  let bd := u "--" ++ boundary in
  p_multi st = (ph, hs, buf) -> run' bd ph hs buf = ([], WWait, (ph, hs, buf)) ->
  (forall c1 c2, chunks = c1 ++ c2 -> concat c1 <> [] -> concat c2 <> [] -> safe_at bd (ctx ph) (buf ++ concat c1) (concat c2)) ->
  feed s st chunks = whole (s_codecs s) bd ph hs (buf ++ concat chunks) (p_cur st).
Proof.
  intros K L. induction chunks as [|c r IH]; intros st ph hs buf bd M W Hs.
  - cbn [feed concat]. unfold finalize. rewrite K, data_quiet, app_nil_r. unfold whole. rewrite W. reflexivity.
  - destruct c as [|x c].
    { cbn [feed write concat app]. rewrite (IH st ph hs buf M W); [destruct (whole _ _ _ _ _ _); reflexivity|].
      intros c1 c2 E H1 H2. apply (Hs ([] :: c1) c2); [cbn; congruence | exact H1 | exact H2]. }
    set (a := buf ++ x :: c). cbn [feed]. unfold write. rewrite K, L. cbn [admitted]. rewrite M. cbn [mp_write]. fold a.
    change (run (S (length a)) bd ph hs a) with (run' bd ph hs a).
    assert (Ec : buf ++ concat ((x :: c) :: r) = a ++ concat r) by (unfold a; cbn [concat]; rewrite <- app_assoc; reflexivity).
    rewrite Ec. fold bd. change (run (S (length a)) bd ph hs a) with (run' bd ph hs a).
    destruct (run' bd ph hs a) as ((es, w), st') eqn:R.
    destruct (push_evs (s_codecs s) (p_cur st) es) as (cs, cur) eqn:P.
    destruct (list_eq_dec N.eq_dec (concat r) []) as [Cr|Cr].
    + rewrite Cr, app_nil_r. unfold whole. rewrite R. cbn [out_events out_status fst snd]. rewrite P. cbn [fst].
      destruct w; cbn [failure]; try reflexivity; rewrite (feed_quiet s boundary K) by exact Cr; rewrite app_nil_r; reflexivity.
    + assert (S : safe_at bd (ctx ph) a (concat r)).
      { assert (Q := Hs [x :: c] r eq_refl). cbn [concat app] in Q. rewrite app_nil_r in Q. apply Q; [discriminate | exact Cr]. }
      pose proof (cut_lemma bd (concat r) (length a) ph hs a (le_n _) S) as C. rewrite R in C.
      unfold cut_ok in C. cbn [out_status out_events out_state fst snd] in C.
      unfold whole. destruct w; [|contradiction|].
      * pose proof (run_wait_state bd (length a) ph hs a (le_n _)) as WS. rewrite R in WS. cbn [out_status out_state fst snd] in WS. specialize (WS eq_refl).
        destruct st' as ((ph', hs'), buf'). destruct WS as (W' & t & Et). destruct C as (C1 & C2).
        rewrite (push_eqv _ _ _ C1), C2, push_evs_app, P. cbn [fst snd].
        rewrite (IH _ ph' hs' buf'); [reflexivity | reflexivity | exact W' |].
        intros c1 c2 E H1 H2. subst r.
        apply (safe_suffix bd t (ctx ph) (ctx ph') (a ++ concat c1)).
        -- rewrite app_assoc, Et, <- !app_assoc. reflexivity.
        -- assert (Q := Hs ((x :: c) :: c1) c2 eq_refl). cbn [concat] in Q. unfold a. rewrite <- app_assoc. apply Q; [discriminate | exact H2].
      * destruct C as (C1 & C2). rewrite C1, C2, P. reflexivity.
Qed.

Lemma feed_multi_safe s boundary chunks : s_kind s = KMulti boundary -> s_limit s = None -> safe_chunks boundary chunks ->
  feed s start chunks = whole (s_codecs s) (u "--" ++ boundary) Pre [] (concat chunks) (NoPart, []).
Proof.
  intros K L S. rewrite (feed_multi s boundary K L chunks start Pre [] []); try reflexivity. exact S.
Qed.

(** *** Parts *)
Lemma push_headers codecs hl : forall cur hs, push_evs codecs (cur, hs) (map (fun h => EHeader (fst h) (snd h)) hl) = ([], (cur, hs ++ hl)).
Proof.
  induction hl as [|(n, v) hl IH]; intros cur hs; cbn [map push_evs push_ev fst snd]; [rewrite app_nil_r; reflexivity|].
  rewrite IH, <- app_assoc. reflexivity.
Qed.

Lemma dget_skip {V} k k' (v : V) d : k <> k' -> dget k ((k', v) :: d) = dget k d.
Proof. intros H. cbn [dget]. rewrite (proj2 (seqb_neq _ _) H). reflexivity. Qed.

Lemma disposition_latin p : byte_names p -> Forall (fun c => (c < 256)%N) (disposition p).
Proof.
  intros B. apply Forall_forall. intros c. unfold disposition, quoted. rewrite !in_app_iff.
  intros [H|[[[H|[]]|[H|[H|[]]]]|H]].
  - cbn in H. repeat (destruct H as [<-|H]; [reflexivity|]). contradiction.
  - subst c. reflexivity.
  - apply B. left. exact H.
  - subst c. reflexivity.
  - destruct (m_filename p) as [f|] eqn:F; [|contradiction]. rewrite !in_app_iff in H. destruct H as [H|[[H|[]]|[H|[H|[]]]]].
    + cbn in H. repeat (destruct H as [<-|H]; [reflexivity|]). contradiction.
    + subst c. reflexivity.
    + apply B. right. exists f. split; [exact F | exact H].
    + subst c. reflexivity.
Qed.

Lemma headers_of codecs boundary p : good_part boundary p -> byte_names p -> plain_names p ->
  headers_finished codecs (map low (all_headers p)) =
  match m_filename p with
  | None => AField (utf8_dec (m_name p)) []
  | Some f => AFile {| up_filename := utf8_dec f; up_field := utf8_dec (m_name p);
                       up_type := dget (u "content-type") (map low (m_headers p));
                       up_headers := Some (map low (all_headers p)); up_content := []; up_size := 0 |}
  end.
Proof.
  intros G B (P1 & P2). unfold headers_finished.
  change (map low (all_headers p)) with ((u "content-disposition", disposition p) :: map low (m_headers p)).
  assert (D : dget (u "content-disposition") ((u "content-disposition", disposition p) :: map low (m_headers p)) = Some (disposition p)).
  { cbn [dget]. rewrite seqb_refl. reflexivity. }
  rewrite D. unfold options_header. cbn [snd]. rewrite latin1_id by (apply disposition_latin; exact B).
  rewrite (options_disposition boundary p G).
  assert (NM : push_name codecs (opts p) = utf8_dec (m_name p)).
  { unfold push_name, opts. assert (X : dget (u "name") ((u "name", m_name p) :: match m_filename p with Some f => [(u "filename", f)] | None => [] end) = Some (m_name p)) by reflexivity.
    rewrite X. destruct (m_name p) as [|c n] eqn:E.
    - cbn [truthy]. destruct (m_filename p); reflexivity.
    - cbn [truthy]. rewrite P1. reflexivity. }
  rewrite NM. unfold push_filename, opts. rewrite dget_skip by discriminate. destruct (m_filename p) as [f|] eqn:F.
  - assert (X : dget (u "filename") [(u "filename", f)] = Some f) by reflexivity. rewrite X.
    destruct f as [|c f]; [destruct (P2 eq_refl)|]. cbn [truthy]. rewrite dget_skip by discriminate. reflexivity.
  - reflexivity.
Qed.

Lemma one_part_call codecs boundary p : good_part boundary p -> byte_names p -> plain_names p ->
  exists hs, push_evs codecs (NoPart, []) (emit_headers (map low (all_headers p)) ++ data_ev (m_body p) ++ [EPartEnd]) = ([call_of p], (NoPart, hs)).
Proof.
  intros G B P. exists (map low (all_headers p)). unfold emit_headers. rewrite <- app_assoc. rewrite push_evs_app, push_headers. cbn [fst snd app push_evs push_ev].
  rewrite (headers_of codecs boundary p G B P). unfold call_of.
  destruct (m_filename p) as [f|].
  - destruct (m_body p) as [|c b]; cbn [data_ev app push_evs push_ev]; [reflexivity|].
    unfold upload_write. cbn [up_filename up_field up_type up_headers up_content up_size app]. reflexivity.
  - destruct (m_body p) as [|c b]; cbn [data_ev app push_evs push_ev]; reflexivity.
Qed.

Lemma parts_calls codecs boundary : forall ps, ps <> [] -> Forall (good_part boundary) ps -> Forall byte_names ps -> Forall plain_names ps ->
  fst (push_evs codecs (NoPart, []) (part_events ps)) = map call_of ps ++ [CEnd].
Proof.
  induction ps as [|p ps IH]; intros NE G B P; [congruence|].
  inversion G as [|? ? G1 G2]; inversion B as [|? ? B1 B2]; inversion P as [|? ? P1 P2]; subst.
  destruct (one_part_call codecs boundary p G1 B1 P1) as (hs & E). cbn [part_events].
  set (tail := match ps with [] => [EEnd] | _ => EBegin :: part_events ps end).
  assert (EE : emit_headers (map low (all_headers p)) ++ data_ev (m_body p) ++ EPartEnd :: tail
               = (emit_headers (map low (all_headers p)) ++ data_ev (m_body p) ++ [EPartEnd]) ++ tail) by (rewrite <- !app_assoc; reflexivity).
  rewrite EE, push_evs_app, E. cbn [fst snd map app]. f_equal. unfold tail.
  destruct ps as [|q ps]; [reflexivity|]. cbn [push_evs push_ev].
  specialize (IH ltac:(discriminate) G2 B2 P2). destruct (push_evs codecs (NoPart, []) (part_events (q :: ps))) as (cs, st). exact IH.
Qed.

Lemma whole_form codecs boundary ps : ~ In 13%N boundary -> Forall (good_part boundary) ps -> Forall byte_names ps -> Forall plain_names ps ->
  whole codecs (u "--" ++ boundary) Pre [] (encode_form boundary ps) (NoPart, []) = (map call_of ps ++ [CEnd], None).
Proof.
  intros HB G B P. unfold whole. destruct (run_form boundary ps HB G) as (-> & ->). cbn [failure]. f_equal.
  destruct ps as [|p ps]; [reflexivity|]. cbn [push_evs push_ev].
  pose proof (parts_calls codecs boundary (p :: ps) ltac:(discriminate) G B P) as H.
  destruct (push_evs codecs (NoPart, []) (part_events (p :: ps))) as (cs, st). exact H.
Qed.

(** *** Reading *)
Lemma until_chunks chunks rest : Forall nonempty chunks -> until_empty (chunks ++ [] :: rest) = chunks.
Proof. induction 1 as [|c l H _ IH]; [reflexivity|]. cbn [app until_empty]. destruct c; [contradiction H; reflexivity|]. rewrite IH. reflexivity. Qed.

(** *** Encoded file names *)
Lemma run_one boundary disp content : ~ In 13%N boundary -> ~ In 13%N disp -> trimmed disp -> ~ occurs (crlf ++ u "--" ++ boundary) content ->
  let bd := u "--" ++ boundary in
  let body := bd ++ crlf ++ header_line (u "Content-Disposition", disp) ++ crlf ++ content ++ (crlf ++ bd) ++ u "--" ++ crlf in
  out_events (run' bd Pre [] body) = EBegin :: emit_headers [(u "content-disposition", disp)] ++ data_ev content ++ [EPartEnd; EEnd] /\
  out_status (run' bd Pre [] body) = WEnd.
Proof.
  intros HB HD TD NO bd body.
  assert (HB' : ~ In 13%N bd).
  { unfold bd. rewrite in_app_iff. intros [[X|[X|[]]]|X]; [discriminate X | discriminate X | exact (HB X)]. }
  unfold body. rewrite run'_pre by (apply first_at_cr; exact HB').
  rewrite prefixb_app. assert (P : prefixb (term bd) (bd ++ crlf) = false).
  { unfold term. clear. induction bd as [|c bd IH]; [reflexivity|]. cbn [app prefixb]. rewrite N.eqb_refl. exact IH. }
  rewrite P. match goal with |- context [emit ?q ?o] => destruct (emit_out q o) as (-> & -> & _) end.
  pose proof (hdr_lines bd (content ++ (crlf ++ bd) ++ u "--" ++ crlf) [(u "Content-Disposition", disp)] []) as H.
  cbn [map concat] in H. rewrite app_nil_r in H. rewrite H.
  2: { constructor; [|constructor]. cbn [fst snd]. repeat split; try exact HD; try exact TD; cbn; intuition discriminate. }
  2: { constructor; [intros [] | constructor]. }
  cbn [app]. change (low (u "Content-Disposition", disp)) with (u "content-disposition", disp).
  assert (F : first_at (crlf ++ bd) (content ++ (crlf ++ bd) ++ u "--" ++ crlf) content).
  { apply (first_at_after 13 (10%N :: bd)); [|exact NO]. intros [X|X]; [discriminate X | exact (HB' X)]. }
  rewrite (run'_bod bd _ content (u "--" ++ crlf)) by exact F. change (prefixb (u "--") (u "--" ++ crlf)) with true. cbv iota.
  match goal with |- context [emit ?q ?o] => destruct (emit_out q o) as (-> & -> & _) end.
  cbn [out_events out_status fst snd]. split; reflexivity.
Qed.

Lemma enc_quote_chars s x : text s -> In x (flat_map quote_byte (utf8_enc s)) ->
  (x < 128)%N /\ x <> 59%N /\ x <> 61%N /\ x <> 13%N /\ x <> 34%N /\ x <> 39%N /\ x <> 32%N /\ is_bspace x = false /\ is_space x = false.
Proof.
  intros T H. apply in_flat_map in H. destruct H as (b & Hb & H). pose proof (enc_bytes s b T Hb) as L.
  unfold quote_byte in H. destruct (unreserved b) eqn:E.
  - destruct H as [<-|[]]. unfold unreserved in E. rewrite !orb_true_iff, !between_spec, !N.eqb_eq in E.
    assert (Q : (b = 45 \/ b = 46 \/ 48 <= b < 128)%N) by lia.
    assert (E' : (b < 128)%N) by lia. repeat (split; [lia|]).
    split; [unfold is_bspace | unfold is_space]; apply not_true_iff_false; rewrite ?orb_true_iff, ?andb_true_iff, ?N.eqb_eq, ?N.leb_le; lia.
  - assert (M := N.mod_lt b 16 ltac:(lia)). assert (L' : (b / 16 < 16)%N) by (apply N.div_lt_upper_bound; lia).
    apply hexdigit_range in M. apply hexdigit_range in L'. set (h1 := hexdigit (b / 16)) in *. set (h2 := hexdigit (b mod 16)) in *.
    assert (Q : (x = 37 \/ 48 <= x <= 70 /\ x <> 59 /\ x <> 61)%N) by (cbn [In] in H; destruct H as [<-|[<-|[<-|[]]]]; lia). clear H.
    assert (x < 128)%N by lia. repeat (split; [lia|]).
    split; [unfold is_bspace | unfold is_space]; apply not_true_iff_false; rewrite ?orb_true_iff, ?andb_true_iff, ?N.eqb_eq, ?N.leb_le; lia.
Qed.

Lemma unquote_enc s : text s -> unquote (flat_map quote_byte (utf8_enc s)) = s.
Proof.
  intros T. rewrite unquote_ascii by (intros x Hx; apply (enc_quote_chars s x T) in Hx; lia).
  rewrite <- (dec_enc s T) at 2. f_equal. assert (B : forall b, In b (utf8_enc s) -> (b < 256)%N) by (intros b; apply enc_bytes; exact T).
  induction (utf8_enc s) as [|b l IH]; [reflexivity|]. cbn [flat_map].
  rewrite unquote_quote_byte by (apply B; left; reflexivity). rewrite IH by (intros c Hc; apply B; right; exact Hc). reflexivity.
Qed.

Lemma find_quotes s : find (u "''") (u "UTF-8''" ++ s) = Some 5.
Proof. reflexivity. Qed.

Lemma decode_encoded codecs s : text s -> (forall b, codecs (u "UTF-8") b = Some (utf8_dec b)) ->
  decode_5987 codecs (rfc5987_encode s) = utf8_dec (latin1 s).
Proof.
  intros T C. unfold decode_5987, rfc5987_encode. rewrite find_quotes.
  change (skipn (5 + 2) (u "UTF-8''" ++ flat_map quote_byte (utf8_enc s))) with (flat_map quote_byte (utf8_enc s)).
  change (firstn 5 (u "UTF-8''" ++ flat_map quote_byte (utf8_enc s))) with (u "UTF-8"). cbv beta iota.
  rewrite (unquote_enc s T). destruct (latin1 s) as [|c l]; [reflexivity|].
  change (match u "UTF-8" with [] => utf8_dec (c :: l) | _ => match codecs (u "UTF-8") (c :: l) with Some t => t | None => unquote (u "UTF-8''" ++ flat_map quote_byte (utf8_enc s)) end end)
    with (match codecs (u "UTF-8") (c :: l) with Some t => t | None => unquote (u "UTF-8''" ++ flat_map quote_byte (utf8_enc s)) end).
  rewrite C. reflexivity.
Qed.

Definition starred (name filename : str) : str :=
  u "form-data; name=" ++ quoted name ++ u "; filename*=" ++ rfc5987_encode filename.

Lemma rfc_chars s x : text s -> In x (rfc5987_encode s) -> (x < 128)%N /\ x <> 59%N /\ x <> 61%N /\ x <> 13%N /\ x <> 34%N /\ is_bspace x = false /\ is_space x = false.
Proof.
  intros T. unfold rfc5987_encode. rewrite in_app_iff. intros [H|H].
  - cbn in H. repeat (destruct H as [<-|H]; [repeat split; try reflexivity; discriminate|]). contradiction.
  - apply (enc_quote_chars s x T) in H. tauto.
Qed.

Lemma rev_rfc s : text s -> match rev (rfc5987_encode s) with c :: _ => is_bspace c = false /\ is_space c = false | [] => False end.
Proof.
  intros T. destruct (rev (rfc5987_encode s)) as [|c r] eqn:R.
  - apply (f_equal (@length N)) in R. rewrite rev_length in R. discriminate R.
  - assert (H : In c (rfc5987_encode s)) by (apply in_rev; rewrite R; left; reflexivity). apply (rfc_chars s c T) in H. tauto.
Qed.

Lemma starred_options name filename : text filename -> ~ In 59%N name ->
  header_options (Some (starred name filename)) = [(u "name", name); (u "filename*", rfc5987_encode filename)].
Proof.
  intros T N59. unfold starred.
  assert (E : u "form-data; name=" ++ quoted name ++ u "; filename*=" ++ rfc5987_encode filename
    = u "form-data" ++ 59%N :: ((u " " ++ (u "name=" ++ quoted name)) ++ 59%N :: (u " " ++ (u "filename*=" ++ rfc5987_encode filename)))).
  { rewrite <- !app_assoc. reflexivity. }
  cbn [header_options]. rewrite E, split_char_app by (cbn; intuition discriminate).
  rewrite split_char_app, split_char_free.
  - cbn [tl fold_left].
    assert (B1 : bstrip (u " " ++ (u "name=" ++ quoted name)) = u "name" ++ 61%N :: quoted name).
    { change (u "name" ++ 61%N :: quoted name) with (u "name=" ++ quoted name). apply (bstrip_quoted (u " ") name eq_refl I (u "name=")); [discriminate | reflexivity]. }
    assert (B2 : bstrip (u " " ++ (u "filename*=" ++ rfc5987_encode filename)) = u "filename*" ++ 61%N :: rfc5987_encode filename).
    { change (u "filename*" ++ 61%N :: rfc5987_encode filename) with (u "filename*=" ++ rfc5987_encode filename).
      replace (u " " ++ (u "filename*=" ++ rfc5987_encode filename)) with (u " " ++ (u "filename*=" ++ rfc5987_encode filename) ++ []) by (rewrite app_nil_r; reflexivity).
      apply strip_by_pad; [reflexivity | reflexivity | reflexivity |]. rewrite rev_app_distr.
      pose proof (rev_rfc filename T) as R. destruct (rev (rfc5987_encode filename)); [contradiction | exact (proj1 R)]. }
    rewrite B1, B2. rewrite !split1_app by (cbn; intuition discriminate). rewrite unquote_quoted.
    assert (B3 : bstrip (rfc5987_encode filename) = rfc5987_encode filename).
    { apply strip_by_id; [reflexivity|]. pose proof (rev_rfc filename T) as R. destruct (rev (rfc5987_encode filename)); [contradiction | exact (proj1 R)]. }
    rewrite B3. assert (Q : unquote_value (rfc5987_encode filename) = rfc5987_encode filename) by reflexivity. rewrite Q. reflexivity.
  - rewrite !in_app_iff. intros [X|[X|X]]; [| |apply (rfc_chars filename _ T) in X; lia];
      cbn in X; repeat (destruct X as [X|X]; [discriminate X|]); exact X.
  - unfold quoted. rewrite !in_app_iff. intros [X|[X|[X|[X|X]]]]; try exact (N59 X); cbn in X; repeat (destruct X as [X|X]; [discriminate X|]); exact X.
Qed.
