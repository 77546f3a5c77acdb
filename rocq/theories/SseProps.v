(** Property theorems for server-sent events: C07, C08, C09. *)
From Verif Require Import PyStr PyStrFacts Asgi SseModel SseSpec SseConcModel SseProofs SseConcProofs.

(** C07, full statement: any message decodes to one event with its fields. *)
Definition C07_statement : Prop := forall m,
  (forall z, sm_retry m = Some z -> (0 <= z)%Z) ->
  snd (es_parse (to_wire m) es_init) =
  [mkEv (opt_text (sm_event m)) (join [10%N] (splitlines (sm_data m))) (opt_text (sm_id m))].

(** False: the event name can contain a line break and then forges data (or whole events). *)
Theorem C07_event_name_refuted : ~ C07_statement.
Proof.
  intros H. specialize (H (mkSSE (u "x") (Some (u "a" ++ [10%N] ++ u "data: forged")) None None)).
  specialize (H ltac:(discriminate)). vm_compute in H. discriminate H.
Qed.
Print Assumptions C07_event_name_refuted.

(** C07: whatever the data contains, if event name and id are single-line texts, a conforming
    parser in between events gets exactly one event, with that name, id, retry and data
    (lines joined by LF).  Missing for the full property: event names and ids with CR or LF. *)
Theorem C07_to_wire_partial m s :
  (forall x, sm_event m = Some x -> single_line x) ->
  (forall x, sm_id m = Some x -> single_line x /\ ~ In 0%N x) ->
  (forall z, sm_retry m = Some z -> (0 <= z)%Z) ->
  es_data s = None -> es_type s = [] ->
  let id' := match sm_id m with Some (c :: r) => c :: r | _ => es_id s end in
  let retry' := match sm_retry m with Some z => Some (Z.to_N z) | None => es_retry s end in
  es_parse (to_wire m) s =
  (mkES None [] id' retry',
   [mkEv (opt_text (sm_event m)) (join [10%N] (splitlines (sm_data m))) id']).
Proof. exact (to_wire_parse m s). Qed.
Print Assumptions C07_to_wire_partial.

(** Data without any line boundary comes back unchanged. *)
Theorem C07_single_line_data_partial d s :
  forallb (fun c => negb (is_linebreak c)) d = true -> es_data s = None -> es_type s = [] ->
  snd (es_parse (to_wire (mkSSE d None None None)) s) = [mkEv [] d (es_id s)].
Proof.
  intros Hd H1 H2. rewrite to_wire_parse; cbn [sm_event sm_id sm_retry sm_data]; try discriminate; auto.
  cbn [snd opt_text]. destruct d as [|c d]; [reflexivity|]. rewrite splitlines_id by (auto; discriminate). reflexivity.
Qed.
Print Assumptions C07_single_line_data_partial.

(** Data in which every line boundary is an inner CR, LF or CRLF comes back with its line endings
    normalised to LF, together with its name and id (the event stream format cannot express more). *)
Theorem C07_multiline_data_partial d ev id s :
  (forall c, In c d -> ~ In c [11; 12; 28; 29; 30; 133; 8232; 8233]%N) ->
  (forall d', d <> d' ++ [10%N] /\ d <> d' ++ [13%N]) ->
  single_line ev -> ev <> [] -> single_line id -> ~ In 0%N id -> id <> [] ->
  es_data s = None -> es_type s = [] ->
  snd (es_parse (to_wire (mkSSE d (Some ev) (Some id) None)) s) = [mkEv ev (nl_normal d) id].
Proof.
  intros Hd He Hv Hv0 Hi Hi0 Hin H1 H2. rewrite to_wire_parse; cbn [sm_event sm_id sm_retry sm_data]; auto.
  - cbn [snd opt_text]. rewrite splitlines_nl.
    + destruct id; [congruence|reflexivity].
    + split; [|split; intros d'; apply (He d')]. intros c Hc Hb. specialize (Hd c Hc).
      unfold is_linebreak in Hb. cbn [In] in Hd. lia.
  - intros x E; inversion E; subst; assumption.
  - intros x E; inversion E; subst; split; assumption.
  - discriminate.
Qed.
Print Assumptions C07_multiline_data_partial.
Example C07_multiline_example :
  snd (es_parse (to_wire (mkSSE (u "a" ++ [13; 10]%N ++ u "id: 9" ++ [13%N] ++ u "b") (Some (u "e")) (Some (u "1")) None)) es_init)
  = [mkEv (u "e") (u "a" ++ [10%N] ++ u "id: 9" ++ [10%N] ++ u "b") (u "1")].
Proof. vm_compute. reflexivity. Qed.
Example C07_example :
  es_parse (to_wire (mkSSE (u "a" ++ [10%N; 10%N] ++ u "data: b") (Some (u "tick")) (Some (u "7")) (Some 3000%Z))) es_init =
  (mkES None [] (u "7") (Some 3000%N),
   [mkEv (u "tick") (u "a" ++ [10%N; 10%N] ++ u "data: b") (u "7")]).
Proof. vm_compute. reflexivity. Qed.

(** C08, full statement. *)
Definition C08_statement : Prop := forall (d : str) (sep : str),
  is_sep sep ->
  exists d', snd (es_parse (encode_event sep None (mkED None None None (Some d) None)) es_init) = [mkEv [] d' []].

(** False: data with two line breaks makes two events, the second chosen by the data. *)
Theorem C08_refuted : ~ C08_statement.
Proof.
  intros H. destruct (H (u "a" ++ [10%N; 10%N] ++ u "data: forged") [10%N] (or_introl eq_refl)) as [d' E].
  vm_compute in E. discriminate E.
Qed.
Print Assumptions C08_refuted.
Theorem C08_forged_event_refuted :
  snd (es_parse (encode_event [10%N] None
        (mkED None None (Some (u "chat")) (Some (u "a" ++ [10%N; 10%N] ++ u "event: admin" ++ [10%N] ++ u "data: b")) None)) es_init) =
  [mkEv (u "chat") (u "a") []; mkEv (u "admin") (u "b") []].
Proof. vm_compute. reflexivity. Qed.
Print Assumptions C08_forged_event_refuted.

(** C08 for single-line field values, any separator, any parser state between events: exactly
    the given fields, and exactly one event (none when there is no data field).
    Missing for the full property: values containing CR or LF. *)
Theorem C08_encode_partial sep retry e s : is_sep sep ->
  (forall x, ed_comment e = Some x -> single_line x) ->
  (forall x, ed_id e = Some x -> single_line x /\ ~ In 0%N x) ->
  (forall x, ed_event e = Some x -> single_line x) ->
  (forall x, ed_data e = Some x -> single_line x) ->
  (forall z, ed_retry e = Some (Some z) -> (0 <= z)%Z) -> (forall z, retry = Some z -> (0 <= z)%Z) ->
  es_data s = None -> es_type s = [] ->
  let id' := match ed_id e with Some x => x | None => es_id s end in
  let r' := match ed_retry e with
            | Some r => r
            | None => match retry with Some z => if Z.eqb z 0 then None else Some z | None => None end
            end in
  es_parse (encode_event sep retry e) s =
  (mkES None [] id' (match r' with Some z => Some (Z.to_N z) | None => es_retry s end),
   match ed_data e with Some d => [mkEv (opt_text (ed_event e)) d id'] | None => [] end).
Proof. exact (encode_parse sep retry e s). Qed.
Print Assumptions C08_encode_partial.
Example C08_example :
  es_parse (encode_event [13%N; 10%N] (Some 5%Z) (mkED (Some (u "note")) (Some (u "1")) (Some (u "tick")) (Some (u "hi")) None)) es_init =
  (mkES None [] (u "1") (Some 5%N), [mkEv (u "tick") (u "hi") (u "1")]).
Proof. vm_compute. reflexivity. Qed.

(** C09, full statement: whenever the stream task has finished, one complete response was sent. *)
Definition C09_statement : Prop := forall status headers ping evs timeout interval sched,
  let s := run status headers ping sched (init evs timeout interval) in
  ss_prog s = [] -> ss_stopped s = false -> response_complete (ss_trace s).

(** False when the ping task gets its first turn after the stream ended ... *)
Theorem C09_late_first_ping_refuted : ~ C09_statement.
Proof.
  intros H. specialize (H 200%Z [] (u "p") [u "e"] None true [TStream; TStream; TStream; TStream; TPing] eq_refl eq_refl).
  vm_compute in H. inversion H as [? ? ? H1]; subst. inversion H1 as [|? ? H2]; subst. inversion H2.
Qed.
Print Assumptions C09_late_first_ping_refuted.
(** ... when it wakes while the final message is being sent ... *)
Theorem C09_ping_during_final_refuted :
  let s := run 200 [] (u "p") [TStream; TPing; TPing; TStream; TPing; TStream] (init [] None true) in
  ss_prog s = [] /\ ss_trace s = [AStart 200 []; ABody (u "p") true; ABody [] false; ABody (u "p") true].
Proof. vm_compute. split; reflexivity. Qed.
Print Assumptions C09_ping_during_final_refuted.
(** ... and, without any ping, when an event times out: the final message is sent twice. *)
Theorem C09_timeout_refuted :
  let s := run 200 [] (u "p") [TStream; TStream; TStream; TStream; TStream] (init [] (Some 0) false) in
  ss_prog s = [] /\ ss_trace s = [AStart 200 []; ABody [] false; ABody [] false].
Proof. vm_compute. split; reflexivity. Qed.
Print Assumptions C09_timeout_refuted.

(** C09, no timeout, every schedule of stream, pings and disconnects: one start, first; then a
    prefix of the events in order, mixed with pings, all announcing more; the final message at
    most once and only after every event; after it only pings. *)
Theorem C09_shape_partial status headers ping evs interval sched :
  let tr := ss_trace (run status headers ping sched (init evs None interval)) in
  tr = [] \/
  (exists sent ms, is_prefix sent evs /\ with_pings ping sent ms /\ tr = AStart status headers :: ms) \/
  (exists ms pings, with_pings ping evs ms /\ Forall (eq (ABody ping true)) pings /\
     tr = AStart status headers :: ms ++ ABody [] false :: pings).
Proof. exact (trace_shape status headers ping evs interval sched). Qed.
Print Assumptions C09_shape_partial.

(** C09, a complete response on every schedule in which the ping task made its first step before
    the end and no ping step falls between the final message and the deactivation. *)
Theorem C09_quiet_end_partial status headers ping evs interval s1 s2 :
  let st := run status headers ping s1 (init evs None interval) in
  ss_stopped st = false -> ss_prog st = [AcFinal; AcInactive] -> ss_ping st <> PFirst ->
  exists ms, with_pings ping evs ms /\
  ss_trace (run status headers ping (s1 ++ TStream :: TStream :: s2) (init evs None interval)) =
  AStart status headers :: ms ++ [ABody [] false] /\
  response_complete (AStart status headers :: ms ++ [ABody [] false]).
Proof. exact (quiet_complete status headers ping evs interval s1 s2). Qed.
Print Assumptions C09_quiet_end_partial.

(** C09 with pings disabled and no timeout, every schedule: a prefix of, and when finished
    exactly, start, the events in order, one final message. *)
Theorem C09_no_ping_partial status headers ping evs sched :
  let s := run status headers ping sched (init evs None false) in
  let full := AStart status headers :: map (fun b => ABody b true) evs ++ [ABody [] false] in
  is_prefix (ss_trace s) full /\ (ss_prog s = [] -> ss_trace s = full) /\ response_complete full.
Proof.
  intros s full.
  assert (flat_map (msg_of status headers) (stream_prog evs None) = full) as E.
  { unfold stream_prog, full. cbn [flat_map msg_of app]. rewrite flat_bodies. reflexivity. }
  destruct (noping_inv status headers ping sched (init evs None false) full eq_refl E) as [_ H].
  fold s in H. split; [eexists; symmetry; exact H|]. split.
  - intros Hp. rewrite Hp in H. cbn in H. now rewrite app_nil_r in H.
  - constructor. apply complete_bodies.
Qed.
Print Assumptions C09_no_ping_partial.
Example C09_example_quiet :
  let st := run 200 [] (u "p") [TStream; TPing; TPing; TStream; TPing] (init [u "e"] None true) in
  ss_stopped st = false /\ ss_prog st = [AcFinal; AcInactive] /\ ss_ping st <> PFirst /\
  ss_trace st = [AStart 200 []; ABody (u "p") true; ABody (u "e") true; ABody (u "p") true].
Proof. vm_compute. repeat split; discriminate. Qed.
