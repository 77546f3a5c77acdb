(** Property theorems for streamed responses: C06, C51, C52. *)
From Verif Require Import PyStr PyStrFacts Asgi StreamModel StreamSpec StreamProofs.

(** C06, no disconnect: start, then a complete body that is the concatenation of the chunks;
    afterwards one cleanup and the background task. *)
Theorem C06_stream_complete enc bg st h chunks :
  let es := streaming_call false bg st h (stream enc None chunks Exhausted) Exhausted None in
  exists body, sent es = AStart st h :: body /\ abody_complete body /\
    abytes body = concat (map (chunk_bytes enc) chunks) /\
    es = map Sent (sent es) ++ Cleanup :: (if bg then [Background] else []).
Proof. exact (streaming_complete enc bg st h chunks). Qed.
Print Assumptions C06_stream_complete.

(** C06, client gone after any number of messages: a prefix was sent, cleanup still runs once. *)
Theorem C06_stream_cut enc bg st h chunks e k :
  let full := stream enc None chunks e in
  let es := streaming_call false bg st h full e (Some k) in
  exists body, sent es = AStart st h :: body /\ is_prefix body full /\
    is_prefix (abytes body) (concat (map (chunk_bytes enc) chunks)) /\
    es = map Sent (sent es) ++ Cleanup :: (if bg then [Background] else []).
Proof. exact (streaming_cut enc bg st h chunks e k). Qed.
Print Assumptions C06_stream_cut.

(** C06, the iterator raises: no message claims that the body is complete, the bytes sent are a
    prefix of those produced, cleanup runs once, the exception propagates, no background task. *)
Theorem C06_stream_raises enc bg st h chunks :
  let es := streaming_call false bg st h (stream enc None chunks Raises) Raises None in
  exists body, sent es = AStart st h :: body /\ Forall (fun m => exists b, m = ABody b true) body /\
    is_prefix (abytes body) (concat (map (chunk_bytes enc) chunks)) /\
    es = map Sent (sent es) ++ [Cleanup; Raised].
Proof. exact (streaming_raise enc bg st h chunks). Qed.
Print Assumptions C06_stream_raises.

(** C06, HEAD and OPTIONS in any capitalisation. *)
Theorem C06_header_only m bg st h msgs e cut :
  upper m = u "HEAD" \/ upper m = u "OPTIONS" ->
  streaming_call (is_header_only (Some m)) bg st h msgs e cut = [Sent (AStart st h); Cleanup].
Proof. intros H. unfold is_header_only. now destruct H as [-> | ->]. Qed.
Print Assumptions C06_header_only.
Theorem C06_other_methods m : upper m <> u "HEAD" -> upper m <> u "OPTIONS" -> is_header_only (Some m) = false.
Proof.
  intros H1 H2. unfold is_header_only. apply smem_not_In. intros [E|[E|[]]]; auto.
Qed.
Print Assumptions C06_other_methods.

Example C06_example :
  streaming_call (is_header_only (Some (u "get"))) true 200 [] (stream (fun t => t) None [CText (u "ab"); CBytes []; CText (u "c")] Exhausted) Exhausted None =
  [Sent (AStart 200 []); Sent (ABody (u "ab") true); Sent (ABody [] true); Sent (ABody (u "c") false); Cleanup; Background].
Proof. reflexivity. Qed.
Example C06_example_head : upper (u "Head") = u "HEAD". Proof. reflexivity. Qed.

(** C51: an NDJSON response is a complete body; when the row encoder emits no raw newline,
    cutting it at newlines gives back exactly the encoded rows. *)
Theorem C51_ndjson {row} (dump : row -> str) rows :
  abody_complete (ndjson_stream row dump None rows) /\
  (rows <> [] -> (forall r, In r rows -> ~ In 10%N (dump r)) ->
   split_char 10 (abytes (ndjson_stream row dump None rows)) = map dump rows) /\
  (rows = [] -> abytes (ndjson_stream row dump None rows) = []).
Proof.
  destruct (ndjson_body dump rows None) as [H1 H2]. split; [exact H1|]. rewrite H2. cbn [app]. split.
  - intros Hne Hn. apply split_char_join; [destruct rows; [congruence|discriminate]|].
    intros w Hw. apply in_map_iff in Hw as (r & <- & Hr). auto.
  - intros ->. reflexivity.
Qed.
Print Assumptions C51_ndjson.
Example C51_example : abytes (ndjson_stream N dec None [1; 22; 3]%N) = u "1" ++ [10%N] ++ u "22" ++ [10%N] ++ u "3".
Proof. reflexivity. Qed.

(** C52, full statement: reading the CSV back gives the header of the first row and its columns
    of every row, for all rows. *)
Definition C52_statement : Prop := forall (src : source) (row1 : csv_row) (rest : list csv_row),
  row1 <> [] ->
  csv_read (abytes (csv_stream src (row1 :: rest))) =
  dkeys row1 :: map (fun r => map (cell r) (dkeys row1)) (row1 :: rest).

(** False: cells are not quoted ... *)
Theorem C52_quoting_refuted : ~ C52_statement.
Proof.
  intros H. specialize (H Generator [(u "a", u "x,y")] [] ltac:(discriminate)).
  vm_compute in H. discriminate H.
Qed.
Print Assumptions C52_quoting_refuted.
(** ... and a re-iterable (non-generator) async content repeats its first row. *)
Theorem C52_first_row_refuted : exists rows,
  csv_read (abytes (csv_stream Reiterable rows)) = [[u "a"]; [u "1"]; [u "1"]; [u "2"]] /\
  length rows = 2.
Proof. exists [[(u "a", u "1")]; [(u "a", u "2")]]. split; reflexivity. Qed.
Print Assumptions C52_first_row_refuted.

(** What holds: for generators and cells without comma and newline, the full round trip. *)
Theorem C52_csv_partial (row1 : csv_row) (rest : list csv_row) :
  row1 <> [] ->
  (forall h, In h (dkeys row1) -> ~ In 44%N h /\ ~ In 10%N h) ->
  (forall r h, In r (row1 :: rest) -> In h (dkeys row1) -> ~ In 44%N (cell r h) /\ ~ In 10%N (cell r h)) ->
  csv_read (abytes (csv_stream Generator (row1 :: rest))) =
  dkeys row1 :: map (fun r => map (cell r) (dkeys row1)) (row1 :: rest).
Proof. exact (csv_read_back row1 rest). Qed.
Print Assumptions C52_csv_partial.
Theorem C52_csv_complete src rows : abody_complete (csv_stream src rows).
Proof. destruct rows as [|r rest]; [constructor|]. exact (proj1 (csv_stream_body src r rest)). Qed.
Print Assumptions C52_csv_complete.
Example C52_example :
  csv_read (abytes (csv_stream Generator [[(u "a", u "1"); (u "b", u "2")]; [(u "b", u "3")]])) =
  [[u "a"; u "b"]; [u "1"; u "2"]; [[]; u "3"]].
Proof. reflexivity. Qed.
