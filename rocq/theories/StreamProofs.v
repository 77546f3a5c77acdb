From Verif Require Import PyStr PyStrFacts Asgi StreamModel StreamSpec.

Lemma stream_done enc chunks : forall last,
  abody_complete (stream enc last chunks Exhausted) /\
  abytes (stream enc last chunks Exhausted) =
    (match last with Some b => b | None => [] end) ++ concat (map (chunk_bytes enc) chunks).
Proof.
  induction chunks as [|c rest IH]; intros last; cbn [stream map concat].
  - split; [constructor|]. unfold abytes. cbn. now rewrite !app_nil_r.
  - destruct (IH (Some (chunk_bytes enc c))) as [H1 H2]. destruct last as [b|].
    + split; [now constructor|]. unfold abytes in *. cbn [map concat abody]. now rewrite H2.
    + split; [assumption|]. rewrite H2. reflexivity.
Qed.

Lemma abody_complete_no_prefix ms : abody_complete ms -> forall k, k < length ms ->
  Forall (fun m => exists b, m = ABody b true) (firstn k ms).
Proof.
  induction 1 as [b|b ms H IH]; intros k Hk; destruct k as [|k]; cbn in *; try constructor; try lia.
  - eauto.
  - apply IH. lia.
Qed.

Lemma stream_raises enc chunks : forall last,
  Forall (fun m => exists b, m = ABody b true) (stream enc last chunks Raises) /\
  is_prefix (abytes (stream enc last chunks Raises))
    ((match last with Some b => b | None => [] end) ++ concat (map (chunk_bytes enc) chunks)).
Proof.
  induction chunks as [|c rest IH]; intros last; cbn [stream map concat].
  - split; [constructor|]. eexists. reflexivity.
  - destruct (IH (Some (chunk_bytes enc c))) as [H1 (t & H2)]. destruct last as [b|].
    + split; [constructor; eauto|]. exists t. unfold abytes in *. cbn [map concat abody].
      rewrite <- app_assoc. f_equal. exact H2.
    + split; [assumption|]. exists t. exact H2.
Qed.


Lemma sent_app a b : sent (a ++ b) = sent a ++ sent b.
Proof. unfold sent. apply flat_map_app. Qed.
Lemma sent_map ms : sent (map Sent ms) = ms.
Proof. induction ms as [|m ms IH]; [reflexivity|]. cbn. f_equal. exact IH. Qed.
Lemma sent_bg (b : bool) : sent (if b then [Background] else []) = [].
Proof. destruct b; reflexivity. Qed.

Lemma sent_cons m es : sent (Sent m :: es) = m :: sent es.
Proof. reflexivity. Qed.
Lemma sent_cleanup es : sent (Cleanup :: es) = sent es.
Proof. reflexivity. Qed.
Lemma sent_run m ms bg : sent (Sent m :: map Sent ms ++ Cleanup :: (if bg : bool then [Background] else [])) = m :: ms.
Proof. rewrite sent_cons, sent_app, sent_map, sent_cleanup, sent_bg, app_nil_r. reflexivity. Qed.

Lemma streaming_complete enc bg st h chunks :
  let es := streaming_call false bg st h (stream enc None chunks Exhausted) Exhausted None in
  exists body, sent es = AStart st h :: body /\ abody_complete body /\
    abytes body = concat (map (chunk_bytes enc) chunks) /\
    es = map Sent (sent es) ++ Cleanup :: (if bg then [Background] else []).
Proof.
  cbv zeta. unfold streaming_call. destruct (stream_done enc chunks None) as [H1 H2].
  cbn [app]. rewrite sent_run.
  eexists. split; [reflexivity|]. split; [exact H1|]. split; [exact H2|]. reflexivity.
Qed.

Lemma streaming_cut enc bg st h chunks e k :
  let full := stream enc None chunks e in
  let es := streaming_call false bg st h full e (Some k) in
  exists body, sent es = AStart st h :: body /\ is_prefix body full /\
    is_prefix (abytes body) (concat (map (chunk_bytes enc) chunks)) /\
    es = map Sent (sent es) ++ Cleanup :: (if bg then [Background] else []).
Proof.
  cbv zeta. unfold streaming_call. set (full := stream enc None chunks e).
  cbn [app]. rewrite sent_run. eexists. split; [reflexivity|].
  assert (P : is_prefix (firstn k full) full) by (exists (skipn k full); now rewrite firstn_skipn).
  split; [exact P|]. split; [|reflexivity].
  assert (Q : is_prefix (abytes full) (concat (map (chunk_bytes enc) chunks))).
  { unfold full. destruct e.
    - destruct (stream_done enc chunks None) as [_ ->]. exists []. now rewrite app_nil_r.
    - exact (proj2 (stream_raises enc chunks None)). }
  destruct P as [t Ht]. destruct Q as [t' Hq]. rewrite Ht in Hq. unfold abytes in *.
  rewrite map_app, concat_app in Hq. exists (concat (map abody t) ++ t').
  now rewrite app_assoc.
Qed.

Lemma streaming_raise enc bg st h chunks :
  let es := streaming_call false bg st h (stream enc None chunks Raises) Raises None in
  exists body, sent es = AStart st h :: body /\ Forall (fun m => exists b, m = ABody b true) body /\
    is_prefix (abytes body) (concat (map (chunk_bytes enc) chunks)) /\
    es = map Sent (sent es) ++ [Cleanup; Raised].
Proof.
  cbv zeta. unfold streaming_call. set (full := stream enc None chunks Raises).
  assert (E : sent (Sent (AStart st h) :: map Sent full ++ [Cleanup] ++ [Raised]) = AStart st h :: full).
  { rewrite sent_cons, sent_app, sent_map. cbn. now rewrite app_nil_r. }
  rewrite E. eexists. split; [reflexivity|].
  destruct (stream_raises enc chunks None) as [H1 H2].
  split; [exact H1|]. split; [exact H2|]. cbn [map app]. reflexivity.
Qed.

(** ** NDJSON, CSV *)
Lemma ndjson_body {row} (dump : row -> str) rows : forall last,
  abody_complete (ndjson_stream row dump last rows) /\
  abytes (ndjson_stream row dump last rows) =
    join [10%N] ((match last with Some b => [b] | None => [] end) ++ map dump rows).
Proof.
  induction rows as [|r rest IH]; intros last; cbn [ndjson_stream map].
  - destruct last; (split; [constructor|]); unfold abytes; cbn; now rewrite ?app_nil_r.
  - destruct (IH (Some (dump r))) as [H1 H2]. destruct last as [b|].
    + split; [now constructor|]. unfold abytes in *. cbn [map concat abody]. rewrite H2.
      cbn [app join]. now rewrite <- app_assoc.
    + split; assumption.
Qed.

Lemma csv_rows_body headers rows : forall last,
  abody_complete (csv_rows headers last rows) /\
  abytes (csv_rows headers last rows) = join [10%N] (map (csv_line headers) (last :: rows)).
Proof.
  induction rows as [|r rest IH]; intros last; cbn [csv_rows].
  - split; [constructor|]. unfold abytes. cbn. apply app_nil_r.
  - destruct (IH r) as [H1 H2]. split; [now constructor|].
    unfold abytes in *. cbn [map concat abody]. rewrite H2. cbn [map join]. now rewrite <- app_assoc.
Qed.

Lemma csv_stream_body src row1 rest :
  abody_complete (csv_stream src (row1 :: rest)) /\
  abytes (csv_stream src (row1 :: rest)) =
    join [10%N] (join (u ",") (dkeys row1) :: map (csv_line (dkeys row1))
       (row1 :: match src with Generator => rest | Reiterable => row1 :: rest end)).
Proof.
  cbn [csv_stream].
  destruct (csv_rows_body (dkeys row1) (match src with Generator => rest | Reiterable => row1 :: rest end) row1)
    as [H1 H2].
  split; [now constructor|]. unfold abytes in *. cbn [map concat abody]. rewrite H2.
  cbn [map join]. now rewrite <- app_assoc.
Qed.

Lemma join_no c sep l : (forall w, In w l -> ~ In c w) -> ~ In c sep -> ~ In c (join sep l).
Proof.
  intros H Hs. induction l as [|w l IH]; [auto|]. cbn [join].
  destruct l as [|w' l]; [now apply H; left|].
  rewrite !in_app_iff. intros [Hw|[Hw|Hw]]; [now apply (H w); [left|]|auto|].
  apply IH; [intros x Hx; apply H; now right|assumption].
Qed.


Lemma csv_read_back (row1 : csv_row) (rest : list csv_row) :
  row1 <> [] ->
  (forall h, In h (dkeys row1) -> ~ In 44%N h /\ ~ In 10%N h) ->
  (forall r h, In r (row1 :: rest) -> In h (dkeys row1) -> ~ In 44%N (cell r h) /\ ~ In 10%N (cell r h)) ->
  csv_read (abytes (csv_stream Generator (row1 :: rest))) =
  dkeys row1 :: map (fun r => map (cell r) (dkeys row1)) (row1 :: rest).
Proof.
  intros Hne Hh Hc. destruct (csv_stream_body Generator row1 rest) as [_ ->]. unfold csv_read.
  assert (dkeys row1 <> []) as Hk by (destruct row1; [congruence|discriminate]).
  rewrite split_char_join.
  - cbn [map]. f_equal.
    + apply (split_char_join 44); [assumption|]. intros w Hw. now apply Hh.
    + assert (forall r, In r (row1 :: rest) ->
                split_char 44 (csv_line (dkeys row1) r) = map (cell r) (dkeys row1)) as L.
      { intros r Hr. unfold csv_line. apply (split_char_join 44).
        * destruct (dkeys row1); [congruence|discriminate].
        * intros w Hw. apply in_map_iff in Hw as (h & <- & Hin). now apply (Hc r h). }
      f_equal; [apply L; now left|]. rewrite map_map. apply map_ext_in. intros r Hr. apply L. now right.
  - discriminate.
  - intros w [<-|Hw].
    + apply join_no; [intros h Hin; now apply Hh|]. cbn. intuition discriminate.
    + apply in_map_iff in Hw as (r & <- & Hr). apply join_no.
      * intros x Hx. apply in_map_iff in Hx as (h & <- & Hin). now apply (Hc r h).
      * cbn. intuition discriminate.
Qed.
