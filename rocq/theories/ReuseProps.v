(** C266 - C268: response objects that answer several requests. *)
From Verif Require Import PyStr PyStrFacts HeaderModel GzipModel FileModel RangesModel ReuseModel ReuseSpec.
Open Scope Z_scope.

(** *** C266: without header-editing middlewares, every client gets the same answer *)
Theorem C266_same_answer r qs : reused [] r qs = map (fun _ => mkAns (r_status r) (r_headers r) (r_body r)) qs.
Proof.
  induction qs as [|q qs IH]; [reflexivity|]. destruct r; cbn in *. now rewrite IH.
Qed.
Print Assumptions C266_same_answer.
Example C266_case : reused [] (mkResp 200 [(u "x-a", u "1")] (u "hi")) [mkReq (Some (u "session=a")) false (u "t") true None;
   mkReq None true (u "t2") false None]
  = [mkAns 200 [(u "x-a", u "1")] (u "hi"); mkAns 200 [(u "x-a", u "1")] (u "hi")].
Proof. reflexivity. Qed.

(** *** C267: with them, each client gets only its own headers *)
Definition C267_statement : Prop := forall ls r qs, reused ls r qs = separate ls r qs.

Lemma hget_hadd_same k v h : hget k (hadd k v h) <> None.
Proof.
  unfold hget, hgetall, hadd. rewrite filter_app. cbn [filter fst]. unfold same_name. rewrite seqb_refl, map_app.
  destruct (map snd _); cbn; discriminate.
Qed.
Lemma frame_present v w h : frame_edit v (frame_edit w h) = frame_edit w h.
Proof.
  unfold frame_edit at 2 3. destruct (hget (u "X-Frame-Options") h) eqn:E; unfold frame_edit.
  - now rewrite E.
  - destruct (hget (u "X-Frame-Options") (hadd (u "X-Frame-Options") w h)) eqn:F; [reflexivity|].
    destruct (hget_hadd_same _ _ _ F).
Qed.
(** With idle middlewares, what a request does to the headers is what the frame middlewares do. *)
Fixpoint frames (ls : list layer) (h : headers) : headers :=
  match ls with [] => h | LFrame v :: r => frames r (frame_edit v h) | _ :: r => frames r h end.
Lemma idle_frames q r ls : (forall l, In l ls -> idle r q l) -> forall h, fold_left (edit q) ls (h, r_body r) = (frames ls h, r_body r).
Proof.
  induction ls as [|l ls IH]; intros I h; [reflexivity|]. cbn [fold_left].
  assert (J : forall l, In l ls -> idle r q l) by (intros; apply I; now right).
  pose proof (I l (or_introl eq_refl)) as Il.
  destruct Il as [c E|E|v|m z E|os s E]; cbn [edit frames fst snd].
  - unfold session_edit. rewrite E. destruct (forallb _ _); apply (IH J).
  - unfold csrf_edit. rewrite E. apply (IH J).
  - apply (IH J).
  - unfold gzip_edit. destruct (q_gzip q) eqn:G; cbn [negb]; [|apply (IH J)].
    destruct E as [E|E]; [discriminate|]. destruct (hcontains _ h); [apply (IH J)|].
    apply N.ltb_lt in E. rewrite E. apply (IH J).
  - unfold cors_edit. rewrite E. apply (IH J).
Qed.
Lemma frames_kept ls h : hget (u "X-Frame-Options") h <> None -> frames ls h = h.
Proof.
  induction ls as [|l ls IH]; intros H; [reflexivity|]. destruct l; cbn [frames]; try (now apply IH).
  unfold frame_edit. destruct (hget _ h); [now apply IH|congruence].
Qed.
Lemma frames_twice ls h : frames ls (frames ls h) = frames ls h.
Proof.
  destruct (hget (u "X-Frame-Options") h) eqn:E.
  { rewrite !frames_kept; congruence || (rewrite frames_kept; congruence). }
  assert (A : frames ls h = h \/ hget (u "X-Frame-Options") (frames ls h) <> None).
  { revert h E. induction ls as [|l ls IH]; intros h E; [now left|]. destruct l; cbn [frames]; try (now apply IH).
    right. unfold frame_edit. rewrite E. rewrite frames_kept; apply hget_hadd_same. }
  destruct A as [A|A]; [now rewrite A | now apply frames_kept].
Qed.
Theorem C267_idle_partial ls r qs : (forall q l, In q qs -> In l ls -> idle r q l) -> reused ls r qs = separate ls r qs.
Proof.
  intros I.
  assert (G : forall h, h = r_headers r \/ h = frames ls (r_headers r) ->
     reused ls (mkResp (r_status r) h (r_body r)) qs = separate ls r qs).
  { induction qs as [|q qs IH]; intros h Hh; [reflexivity|].
    assert (Iq : forall l, In l ls -> idle r q l) by (intros; apply I; [now left|assumption]).
    cbn [reused]. unfold separate, call. cbn [r_status r_headers r_body map].
    rewrite !(idle_frames q r ls Iq). cbn [snd].
    assert (F : frames ls h = frames ls (r_headers r)) by (destruct Hh as [-> | -> ]; [reflexivity|apply frames_twice]).
    rewrite F. f_equal. apply IH; [intros; apply I; [now right|assumption]|now right]. }
  specialize (G (r_headers r) (or_introl eq_refl)). now destruct r.
Qed.
Print Assumptions C267_idle_partial.
Definition visitor (l : option str) (gz : bool) : req := mkReq l true (u "t") gz None.
Example C267_case : forall q l, In q [visitor None false; visitor None true] ->
  In l [LSession (u "session"); LFrame (u "DENY"); LGzip 500 (fun b => b); LCsrf] -> idle (mkResp 200 [] (u "hi")) q l.
Proof.
  intros q l Iq [<- |[<- |[<- |[<- |[]]]]]; constructor; try (right; reflexivity); destruct Iq as [<- |[<- |[]]]; reflexivity.
Qed.

(** Bob is given the session cookie of Alice, and not their own. *)
Definition alice := u "session=""alice""; path=/; httponly".
Definition bob := u "session=""bob""; path=/; httponly".
Theorem C267_session_refuted :
  map (fun a => hgetall (u "set-cookie") (a_headers a))
    (reused [LSession (u "session")] (mkResp 200 [] (u "hi")) [visitor (Some alice) false; visitor (Some bob) false]) = [[alice]; [alice]]
  /\ map (fun a => hgetall (u "set-cookie") (a_headers a))
    (separate [LSession (u "session")] (mkResp 200 [] (u "hi")) [visitor (Some alice) false; visitor (Some bob) false]) = [[alice]; [bob]].
Proof. now vm_compute. Qed.
Print Assumptions C267_session_refuted.
Theorem C267_refuted : ~ C267_statement.
Proof.
  intros H. specialize (H [LSession (u "session")] (mkResp 200 [] (u "hi")) [visitor (Some alice) false; visitor (Some bob) false]).
  apply (f_equal (map (fun a => hgetall (u "set-cookie") (a_headers a)))) in H. now vm_compute in H.
Qed.
Print Assumptions C267_refuted.

(** This is no accident of the example: the first session cookie written stays, for every later client. *)
Lemma values_app k h h' : hgetall k (h ++ h') = hgetall k h ++ hgetall k h'.
Proof. unfold hgetall. now rewrite filter_app, map_app. Qed.
Theorem C267_first_cookie_stays_refuted : forall cookie r q line qs,
  (forall l, In l (hgetall (u "set-cookie") (r_headers r)) -> ~ exists t, l = cookie ++ u "=" ++ t) ->
  q_session q = Some line -> (exists t, line = cookie ++ u "=" ++ t) ->
  forall a, In a (reused [LSession cookie] r (q :: qs)) ->
    hgetall (u "set-cookie") (a_headers a) = hgetall (u "set-cookie") (r_headers r) ++ [line].
Proof.
  intros cookie r q line qs No E [t T] a I.
  set (h1 := hadd (u "set-cookie") line (r_headers r)).
  assert (V : hgetall (u "set-cookie") h1 = hgetall (u "set-cookie") (r_headers r) ++ [line]).
  { unfold h1, hadd. rewrite values_app. reflexivity. }
  assert (Q : session_edit cookie q (r_headers r) = h1).
  { unfold session_edit. rewrite E.
    destruct (forallb _ (hgetall (u "set-cookie") (r_headers r))) eqn:F; [reflexivity|]. exfalso.
    assert (forallb (fun l => negb (prefixb (cookie ++ u "=") l)) (hgetall (u "set-cookie") (r_headers r)) = true).
    { apply forallb_forall. intros l Il. destruct (prefixb _ l) eqn:P; [|reflexivity]. exfalso.
      apply prefixb_iff in P as [t' P]. apply (No l Il). exists t'. now rewrite app_assoc. }
    congruence. }
  assert (K : forall q', session_edit cookie q' h1 = h1).
  { intros q'. unfold session_edit. rewrite V.
    destruct (forallb _ (_ ++ [line])) eqn:F; [|reflexivity]. exfalso.
    rewrite forallb_app in F. apply andb_prop in F as [_ F]. cbn [forallb] in F.
    assert (P : prefixb (cookie ++ u "=") line = true) by (apply prefixb_iff; exists t; rewrite T; now rewrite app_assoc).
    rewrite P in F. discriminate. }
  assert (G : forall b st, In a (reused [LSession cookie] (mkResp st h1 b) qs) -> a_headers a = h1).
  { clear I. induction qs as [|q' qs IH]; intros b st I; [destruct I|].
    cbn [reused] in I. unfold call in I. cbn [fold_left edit r_headers r_body r_status fst snd] in I. rewrite (K q') in I.
    destruct I as [<- |I]; [reflexivity|]. exact (IH b st I). }
  cbn [reused] in I. unfold call in I. cbn [fold_left edit fst snd] in I. rewrite Q in I.
  destruct I as [<- |I]; [exact V|]. now rewrite (G _ _ I).
Qed.
Print Assumptions C267_first_cookie_stays_refuted.

(** The token of the first client goes to all of them; and after one client that accepts gzip, the body goes
    out unpacked and labelled gzip with the packed length, whether or not the client accepts gzip. *)
Theorem C267_token_refuted :
  map (fun a => hgetall (u "set-cookie") (a_headers a))
    (reused [LCsrf] (mkResp 200 [] []) [mkReq None false (u "csrftoken=1") false None; mkReq None false (u "csrftoken=2") false None])
  = [[u "csrftoken=1"]; [u "csrftoken=1"]].
Proof. now vm_compute. Qed.
Print Assumptions C267_token_refuted.
Theorem C267_gzip_refuted :
  map (fun a => (hgetall (u "content-encoding") (a_headers a), hgetall (u "content-length") (a_headers a), a_body a))
    (reused [LGzip 4 (fun _ => u "zip")] (mkResp 200 [(u "content-length", u "5")] (u "plain")) [visitor None true; visitor None false])
  = [([u "gzip"], [u "3"], u "zip"); ([u "gzip"], [u "3"], u "plain")].
Proof. now vm_compute. Qed.
Print Assumptions C267_gzip_refuted.
(** A client of one origin is told that another one is allowed; the security headers pile up. *)
Theorem C267_origin_refuted :
  map (fun a => hgetall (u "access-control-allow-origin") (a_headers a))
    (reused [LCors [u "https://a"] []] (mkResp 200 [] []) [mkReq None true [] false (Some (u "https://a")); mkReq None true [] false (Some (u "https://b"))])
  = [[u "https://a"]; [u "https://a"]].
Proof. now vm_compute. Qed.
Print Assumptions C267_origin_refuted.
Theorem C267_security_refuted r k v n : hgetall k (r_headers r) = [] ->
  map (fun a => length (hgetall k (a_headers a))) (reused [LSecurity [(k, v)]] r (repeat (visitor None false) n)) = seq 1 n.
Proof.
  intros E.
  assert (G : forall m h st b, length (hgetall k h) = m ->
    map (fun a => length (hgetall k (a_headers a))) (reused [LSecurity [(k, v)]] (mkResp st h b) (repeat (visitor None false) n)) = seq (S m) n).
  { induction n as [|n IH]; intros m h st b L; [reflexivity|]. cbn [repeat reused call seq].
    unfold call. cbn [fold_left edit security_edit r_headers r_body r_status fst snd map a_headers].
    assert (L' : length (hgetall k (hadd k v h)) = S m).
    { unfold hadd. rewrite values_app, app_length, L. unfold hgetall. cbn [filter fst]. unfold same_name. rewrite seqb_refl. cbn. lia. }
    f_equal; [exact L'|]. now apply IH. }
  destruct r as [st h b]. cbn [r_headers] in E. apply G. now rewrite E.
Qed.
Print Assumptions C267_security_refuted.

(** *** C268: file responses *)
Definition C268_statement : Prop := forall chunk fr vs, 0 < chunk -> file_reused chunk fr vs = file_separate chunk fr vs.

Lemma hdefault_has k v h : dmem k (hdefault k v h) = true.
Proof.
  unfold hdefault. destruct (dmem k h) eqn:E; [exact E|]. apply dmem_iff. rewrite dget_dset_same. eauto.
Qed.
Lemma hdefault_keeps k k' v h : dmem k h = true -> dmem k (hdefault k' v h) = true.
Proof.
  intros E. unfold hdefault. destruct (dmem k' h) eqn:F; [exact E|].
  destruct (seqb k k') eqn:K; [apply seqb_eq in K; congruence|].
  apply dmem_iff in E. apply dmem_iff. rewrite dget_dset_other; [exact E|]. intros ->. now rewrite seqb_refl in K.
Qed.
Lemma hdefault_id k v h : dmem k h = true -> hdefault k v h = h.
Proof. intros E. unfold hdefault. now rewrite E. Qed.
Lemma stat_twice fr fr' : fr_headers fr' = set_stat_headers fr -> set_stat_headers fr' = set_stat_headers fr.
Proof.
  intros E. unfold set_stat_headers at 1. rewrite E.
  assert (A : dmem (u "content-length") (set_stat_headers fr) = true) by (unfold set_stat_headers; apply hdefault_keeps, hdefault_keeps, hdefault_has).
  assert (B : dmem (u "last-modified") (set_stat_headers fr) = true) by (unfold set_stat_headers; apply hdefault_keeps, hdefault_has).
  assert (C : dmem (u "etag") (set_stat_headers fr) = true) by (unfold set_stat_headers; apply hdefault_has).
  now rewrite (hdefault_id _ _ _ A), (hdefault_id _ _ _ B), (hdefault_id _ _ _ C).
Qed.
(** [file_call] reads the headers of the object only with the stat headers on them. *)
Lemma call_stat now chunk fr fr' q : set_stat_headers fr' = set_stat_headers fr ->
  fr_status fr' = fr_status fr -> fr_media fr' = fr_media fr -> fr_allow fr' = fr_allow fr -> fr_boundary fr' = fr_boundary fr ->
  fr_content fr' = fr_content fr -> file_call now chunk fr' q = file_call now chunk fr q.
Proof.
  intros S1 S2 S3 S4 S5 S6. unfold file_call, set_range_headers, get_content_ranges. now rewrite S1, S2, S3, S4, S5, S6.
Qed.
Lemma whole_left now chunk fr q : whole (file_call now chunk fr q) ->
  let fr' := left_over now fr q in
  fr_headers fr' = set_stat_headers fr /\ fr_status fr' = fr_status fr /\ fr_media fr' = fr_media fr /\ fr_allow fr' = fr_allow fr /\
  fr_boundary fr' = fr_boundary fr.
Proof.
  intros W. cbv zeta. unfold left_over. unfold file_call in W.
  destruct (negb (header_only q) && fr_allow fr && check_if_range (set_stat_headers fr) q) eqn:C; [|now repeat split].
  destruct (set_range_headers now fr (set_stat_headers fr) q) as [h st [c|]| |] eqn:R; try (now repeat split).
  exfalso.
  assert (H : st = 206 /\ dget (u "content-length") h = Some (decz (cr_size c))).
  { unfold set_range_headers in R. destruct (get_content_ranges fr (set_stat_headers fr) q) as [|c0 m| |]; try discriminate.
    destruct (m && negb (has_boundary (fr_boundary fr))); [discriminate|]. destruct m.
    - injection R as <- <- <-. split; [reflexivity|]. apply dget_dset_same.
    - destruct (cr_ranges _) as [|r0 rs] eqn:Q; [discriminate|]. injection R as <- <- <-. split; [reflexivity|].
      apply dget_dset_same. }
  destruct H as [-> H]. apply andb_prop in C as [C _]. apply andb_prop in C as [C _]. apply negb_true_iff in C. rewrite C, H in W.
  cbv zeta in W. rewrite int_parse_decz in W. destruct (fq_pathsend q && false); now apply (W _ _ eq_refl).
Qed.
(** As long as the file stays as it is and no answer before was a 206, the object answers like a new one. *)
Theorem C268_whole_partial chunk fr vs : (forall v w, In v vs -> In w vs -> same_file v w) ->
  (forall v, In v (removelast vs) -> whole (file_call (v_now v) chunk (look fr v) (v_req v))) ->
  file_reused chunk fr vs = file_separate chunk fr vs.
Proof.
  intros Same W.
  assert (G : forall fr', fr_status fr' = fr_status fr -> fr_media fr' = fr_media fr -> fr_allow fr' = fr_allow fr ->
     fr_boundary fr' = fr_boundary fr ->
     (forall v, In v vs -> set_stat_headers (look fr' v) = set_stat_headers (look fr v)) ->
     file_reused chunk fr' vs = file_separate chunk fr vs).
  { induction vs as [|v vs IH]; intros fr' E1 E2 E3 E4 S; [reflexivity|].
    unfold file_separate. cbn [file_reused map].
    assert (Q : file_call (v_now v) chunk (look fr' v) (v_req v) = file_call (v_now v) chunk (look fr v) (v_req v)).
    { apply call_stat; try (cbn; assumption); [|reflexivity]. apply S. now left. }
    f_equal; [exact Q|]. destruct vs as [|w vs]; [reflexivity|].
    assert (Wv : whole (file_call (v_now v) chunk (look fr' v) (v_req v))) by (rewrite Q; apply W; now left).
    destruct (whole_left _ _ _ _ Wv) as (L1 & L2 & L3 & L4 & L5).
    apply IH.
    - intros a b Ia Ib. apply Same; now right.
    - intros a Ia. apply W. now right.
    - rewrite L2. exact E1.
    - rewrite L3. exact E2.
    - rewrite L4. exact E3.
    - rewrite L5. exact E4.
    - intros a Ia. rewrite <- (S a (or_intror Ia)).
      assert (SF : set_stat_headers (look fr' a) = set_stat_headers (look fr' v)).
      { destruct (Same a v (or_intror Ia) (or_introl eq_refl)) as (A & B & C & _).
        unfold set_stat_headers, look. cbn. now rewrite A, B, C. }
      rewrite SF. apply stat_twice. cbn [look fr_headers]. exact L1. }
  now apply G.
Qed.
Print Assumptions C268_whole_partial.

Definition a_file := mkFR 200 [(u "accept-ranges", u "bytes")] (u "text/plain") true BoundaryAuto 0 [] [] [].
Definition get (range : str) := mkFQ (Some (u "GET")) range [] false false.
Definition visits (rs : list str) := map (fun r => mkVisit (u "1.0") 10 (u "e") (u "m") (u "0123456789") (get r)) rs.
Example C268_case : let vs := visits [[]; u "bytes=50-60"; u "bytes=2-3"] in
  (forall v w, In v vs -> In w vs -> same_file v w) /\
  (forall v, In v (removelast vs) -> whole (file_call (v_now v) 4 (look a_file v) (v_req v))) /\
  ~ whole (nth 2 (file_reused 4 a_file vs) FError).
Proof.
  cbv zeta. split; [|split].
  - intros v w [<- |[<- |[<- |[]]]] [<- |[<- |[<- |[]]]]; repeat split.
  - intros v [<- |[<- |[]]] h ms; vm_compute; intros E; discriminate E.
  - intros W. eapply (W _ _). vm_compute. reflexivity.
Qed.

Definition shown (o : file_out) : option (Z * option str * str) :=
  match o with
  | FOk (MStart st h :: ms) => Some (st, dget (u "content-range") h, flat_map (fun m => match m with MBody b _ => b | _ => [] end) ms)
  | _ => None
  end.
(** After a client asked for two bytes, the next one that asks for the file gets its first two bytes,
    announced as the range of the other client. *)
Theorem C268_range_refuted :
  map shown (file_reused 4 a_file (visits [u "bytes=4-5"; []])) =
    [Some (206, Some (u "bytes 4-5/10"), u "45"); Some (206, Some (u "bytes 4-5/10"), u "01")]
  /\ map shown (file_separate 4 a_file (visits [u "bytes=4-5"; []])) =
    [Some (206, Some (u "bytes 4-5/10"), u "45"); Some (200, None, u "0123456789")].
Proof. now vm_compute. Qed.
Print Assumptions C268_range_refuted.
Theorem C268_refuted : ~ C268_statement.
Proof.
  intros H. specialize (H 4 a_file (visits [u "bytes=4-5"; []]) eq_refl). apply (f_equal (map shown)) in H. now vm_compute in H.
Qed.
Print Assumptions C268_refuted.
(** When the file has grown between two requests, the second client gets the new file cut to the old length. *)
Theorem C268_changed_file_refuted :
  map shown (file_reused 4 a_file [mkVisit (u "1.0") 2 (u "e") (u "m") (u "ab") (get []); mkVisit (u "2.0") 4 (u "f") (u "n") (u "wxyz") (get [])]) =
    [Some (200, None, u "ab"); Some (200, None, u "wx")].
Proof. now vm_compute. Qed.
Print Assumptions C268_changed_file_refuted.
