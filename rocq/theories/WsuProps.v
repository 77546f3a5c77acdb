(** C351-C355: whom the reverse proxy connects to, and proxied websockets. *)
From Verif Require Import PyStr PyStrFacts RelayModel RelayProps RelayHttpProps WsuModel.
Local Open Scope N_scope.

Definition with_prefix (p : str) : config :=
  {| base_host := u "up"; upstream_prefix := p; preserve_host := false; extra := []; drop_request := []; drop_response := [];
     allow_request := None; allow_response := None; max_retries := 0; retry_statuses := []; rewrite := None |}.

(** ** C351 *)
Lemma no_lead p r : lstrip_by (fun c => N.eqb c 47) p = 47 :: r -> False.
Proof.
  intros E. destruct (lstrip_by_decomp (fun c => N.eqb c 47) p) as (w & _ & _ & M). rewrite E in M. cbn in M. discriminate M.
Qed.
Lemma joined_one prefix raw : (forall t, prefix <> 47 :: 47 :: t) -> prefixb (u "//") (join_paths prefix raw) = false.
Proof.
  intros NP. destruct (prefixb (u "//") (join_paths prefix raw)) eqn:E; [exfalso|reflexivity]. apply prefixb_iff in E as (t & E).
  change (u "//") with [47; 47] in E. cbn [app] in E. unfold join_paths in E. change (u "/") with [47] in E.
  destruct prefix as [|a [|b prefix]].
  - cbn in E. injection E as E. exact (no_lead raw t E).
  - destruct (N.eqb_spec a 47) as [-> |NA].
    + cbn in E. injection E as E. exact (no_lead raw t E).
    + destruct (suffixb [47] [a]); cbn in E; injection E as E _; contradiction.
  - destruct (suffixb [47] (a :: b :: prefix)); cbn [app] in E; injection E as -> -> _; exact (NP prefix eq_refl).
Qed.
(** Whatever path a client asks for, the request or websocket goes to the configured server and has the client's
    query; the websocket goes to the path the request would go to, with a websocket's scheme. *)
Theorem C351_server : forall base cfg sc c, (forall t, upstream_prefix cfg <> 47 :: 47 :: t) ->
  let http := build_upstream_url base cfg sc in let ws := fst (handle_websocket base cfg sc c) in
  (a_scheme http = a_scheme base /\ a_authority http = a_authority base /\ a_query http = s_query sc)
  /\ a_authority ws = a_authority base /\ a_path ws = a_path http /\ a_query ws = s_query sc /\ (a_scheme ws = u "ws" \/ a_scheme ws = u "wss").
Proof.
  intros base cfg sc c NP. cbn zeta. unfold handle_websocket. cbn [fst]. unfold build_upstream_ws_url, build_upstream_url, join_reference. cbn zeta.
  rewrite (joined_one _ (s_raw_path sc) NP). cbn [a_scheme a_authority a_path a_query].
  refine (conj (conj eq_refl (conj eq_refl eq_refl)) (conj eq_refl (conj eq_refl (conj eq_refl _)))). destruct (seqb _ _); auto.
Qed.
Print Assumptions C351_server.
Example C351_case : (forall t, upstream_prefix (with_prefix (u "/")) <> 47 :: 47 :: t)
  /\ handle_websocket {| a_scheme := u "http"; a_authority := u "up:80"; a_path := []; a_query := [] |} (with_prefix (u "/")) {| s_scheme := Some (u "ws"); s_raw_path := u "//evil.org/x"; s_query := u "a=1" |} Fails
     = ({| a_scheme := u "ws"; a_authority := u "up:80"; a_path := u "/evil.org/x"; a_query := u "a=1" |}, [Accept; Close 1011 (u "Upstream WS error")])
  /\ a_authority (join_reference {| a_scheme := u "http"; a_authority := u "up:80"; a_path := []; a_query := [] |} (u "//evil.org/x")) = u "evil.org".
Proof. split; [intros t; vm_compute; discriminate|split; reflexivity]. Qed.

(** ** C352 *)
(** The websocket to an upstream is encrypted exactly if the upstream is configured with https. *)
Definition C352_statement : Prop := forall base cfg sc c scheme, s_scheme sc = Some scheme -> (scheme = u "ws" \/ scheme = u "wss") ->
  (a_scheme base = u "http" \/ a_scheme base = u "https") ->
  (a_scheme (fst (handle_websocket base cfg sc c)) = u "wss" <-> a_scheme base = u "https").
Definition secure : address := {| a_scheme := u "https"; a_authority := u "up"; a_path := []; a_query := [] |}.
Definition secure_client : ws_scope := {| s_scheme := Some (u "wss"); s_raw_path := u "/chat"; s_query := [] |}.
(** It is never encrypted: the scheme of a websocket is compared with that of a request, and the configured one is not asked. *)
Theorem C352_refuted : ~ C352_statement
  /\ forall base cfg sc c scheme, s_scheme sc = Some scheme -> (scheme = u "ws" \/ scheme = u "wss") -> a_scheme (fst (handle_websocket base cfg sc c)) = u "ws".
Proof.
  assert (G : forall base cfg sc c scheme, s_scheme sc = Some scheme -> (scheme = u "ws" \/ scheme = u "wss") -> a_scheme (fst (handle_websocket base cfg sc c)) = u "ws").
  { intros base cfg sc c scheme E S. unfold handle_websocket, build_upstream_ws_url. cbn [fst a_scheme]. rewrite E. destruct S as [-> | -> ]; reflexivity. }
  split; [|exact G]. intros H. specialize (H secure (with_prefix (u "/")) secure_client Fails (u "wss") eq_refl (or_intror eq_refl) (or_intror eq_refl)).
  destruct H as [_ H]. specialize (H eq_refl). vm_compute in H. discriminate H.
Qed.
Print Assumptions C352_refuted.
(** An upstream configured with http gets unencrypted websockets. *)
Theorem C352_partial : forall base cfg sc c scheme, s_scheme sc = Some scheme -> (scheme = u "ws" \/ scheme = u "wss") -> a_scheme base = u "http" ->
  (a_scheme (fst (handle_websocket base cfg sc c)) = u "wss" <-> a_scheme base = u "https").
Proof.
  intros base cfg sc c scheme E S B. destruct C352_refuted as [_ G]. rewrite (G base cfg sc c scheme E S), B. split; intros H; vm_compute in H; discriminate H.
Qed.
Print Assumptions C352_partial.
Example C352_case : s_scheme secure_client = Some (u "wss") /\ fst (handle_websocket {| a_scheme := u "http"; a_authority := u "up"; a_path := []; a_query := [] |} (with_prefix (u "/api")) secure_client Fails)
  = {| a_scheme := u "ws"; a_authority := u "up"; a_path := u "/api/chat"; a_query := [] |}.
Proof. split; reflexivity. Qed.

(** ** C353 *)
(** The upstream is told whether the client's connection is encrypted. *)
Definition C353_statement : Prop := forall cfg hs client scheme, In scheme [u "http"; u "https"; u "ws"; u "wss"] ->
  dget (u "x-forwarded-proto") (prepare_request_headers cfg hs client scheme)
  = Some (if existsb (seqb scheme) [u "https"; u "wss"] then u "https" else u "http").
Lemma proto cfg hs client scheme : dget (u "x-forwarded-proto") (prepare_request_headers cfg hs client scheme) = Some (if seqb scheme (u "https") then u "https" else u "http").
Proof. unfold prepare_request_headers. cbn zeta. rewrite dget_dset_other by (vm_compute; discriminate). apply dget_dset_same. Qed.
(** Of an encrypted websocket it is told that it is not. *)
Theorem C353_refuted : ~ C353_statement /\ forall cfg hs client, dget (u "x-forwarded-proto") (prepare_request_headers cfg hs client (u "wss")) = Some (u "http").
Proof.
  split; [|intros; apply proto]. intros H. specialize (H (with_prefix (u "/")) [] None (u "wss")). rewrite proto in H.
  assert (I : In (u "wss") [u "http"; u "https"; u "ws"; u "wss"]) by (cbn; auto). specialize (H I). vm_compute in H. discriminate H.
Qed.
Print Assumptions C353_refuted.
(** For requests and unencrypted websockets it is told the truth, whatever the client claims and whatever is configured. *)
Theorem C353_partial : forall cfg hs client scheme, In scheme [u "http"; u "https"; u "ws"] ->
  dget (u "x-forwarded-proto") (prepare_request_headers cfg hs client scheme) = Some (if existsb (seqb scheme) [u "https"; u "wss"] then u "https" else u "http").
Proof. intros cfg hs client scheme I. rewrite proto. cbn [In] in I. destruct I as [<- |[<- |[<- |[]]]]; reflexivity. Qed.
Print Assumptions C353_partial.
Example C353_case : dget (u "x-forwarded-proto") (prepare_request_headers (with_prefix (u "/")) [(u "x-forwarded-proto", u "http")] None (u "https")) = Some (u "https").
Proof. reflexivity. Qed.

(** ** C354 *)
(** The path of the configured address comes before that of the request. *)
Definition C354_statement : Prop := forall base rest q, no_dots (a_path base) -> (forall t, a_path base <> t ++ [47]) -> no_dots rest -> ~ In 47 rest ->
  a_path (build_upstream_url base (with_prefix (u "/")) {| s_scheme := None; s_raw_path := 47 :: rest; s_query := q |}) = a_path base ++ u "/" ++ rest.
Lemma plain_joined base cfg sc : prefixb (u "/") (upstream_prefix cfg) = true -> (forall t, upstream_prefix cfg <> 47 :: 47 :: t) ->
  a_path (build_upstream_url base cfg sc) = upstream_path cfg (s_raw_path sc).
Proof.
  intros P NP. unfold build_upstream_url, join_reference. cbn zeta. rewrite (joined_one _ _ NP). cbn [a_path]. unfold upstream_path.
  assert (E : prefixb (u "/") (join_paths (upstream_prefix cfg) (s_raw_path sc)) = true).
  { apply prefixb_iff in P as (t & T). apply prefixb_iff. unfold join_paths. destruct (suffixb (u "/") (upstream_prefix cfg)); rewrite T; rewrite <- !app_assoc; eexists; reflexivity. }
  rewrite E. reflexivity.
Qed.
(** It is dropped: with a prefix that begins with a slash, as the default does, the path is the same whatever that of the address. *)
Theorem C354_refuted : ~ C354_statement
  /\ forall s a p p' q q' cfg sc, prefixb (u "/") (upstream_prefix cfg) = true -> (forall t, upstream_prefix cfg <> 47 :: 47 :: t) ->
     a_path (build_upstream_url {| a_scheme := s; a_authority := a; a_path := p; a_query := q |} cfg sc)
     = a_path (build_upstream_url {| a_scheme := s; a_authority := a; a_path := p'; a_query := q' |} cfg sc).
Proof.
  split; [|intros; rewrite !plain_joined by assumption; reflexivity]. intros H.
  specialize (H {| a_scheme := u "http"; a_authority := u "up"; a_path := u "/v1"; a_query := [] |} (u "users") []).
  assert (X : u "/users" = u "/v1" ++ u "/" ++ u "users").
  { apply H; cbn [a_path].
    - intros s I. vm_compute in I. repeat (destruct I as [<- |I]; [split; vm_compute; discriminate|]). destruct I.
    - intros t T. assert (L : last (u "/v1") 0 = last (t ++ [47]) 0) by (rewrite <- T; reflexivity). rewrite last_last in L. vm_compute in L. discriminate L.
    - intros s I. vm_compute in I. repeat (destruct I as [<- |I]; [split; vm_compute; discriminate|]). destruct I.
    - vm_compute. intuition discriminate. }
  vm_compute in X. discriminate X.
Qed.
Print Assumptions C354_refuted.
(** With an address without a path the path is the request's. *)
Theorem C354_partial : forall base rest q, a_path base = [] -> no_dots rest -> ~ In 47 rest ->
  a_path (build_upstream_url base (with_prefix (u "/")) {| s_scheme := None; s_raw_path := 47 :: rest; s_query := q |}) = a_path base ++ u "/" ++ rest.
Proof.
  intros base rest q B ND NS. rewrite plain_joined by (try reflexivity; intros t; vm_compute; discriminate). cbn [s_raw_path]. rewrite B. cbn [app].
  assert (ND' : no_dots (47 :: rest)). { intros s I. cbn [split_char] in I. rewrite N.eqb_refl in I. destruct I as [<- |I]; [split; vm_compute; discriminate|exact (ND s I)]. }
  assert (NP : no_dots (upstream_prefix (with_prefix (u "/")))). { intros s I. vm_compute in I. destruct I as [<- |[<- |[]]]; split; vm_compute; discriminate. }
  destruct (C88_path_partial (with_prefix (u "/")) (47 :: rest) (u "/") (or_introl (ex_intro _ [] (conj eq_refl eq_refl))) NP ND') as (r & n & E & NR & U).
  rewrite U. change (u "/") with [47]. cbn [app]. f_equal. destruct n as [|[|n]]; cbn [repeat app] in E.
  - destruct (NR rest). symmetry. exact E.
  - injection E as E. symmetry. exact E.
  - injection E as E. destruct NS. rewrite E. left. reflexivity.
Qed.
Print Assumptions C354_partial.
Example C354_case : no_dots (u "users") /\ ~ In 47 (u "users") /\ a_path (build_upstream_url secure (with_prefix (u "/")) {| s_scheme := None; s_raw_path := u "/users"; s_query := [] |}) = u "/users".
Proof. split; [|split; [vm_compute; intuition discriminate|reflexivity]]. intros s I. vm_compute in I. destruct I as [<- |[]]; split; vm_compute; discriminate. Qed.

(** ** C355 *)
Definition is_frame (m : to_client) : Prop := exists f, m = Frame f.
Definition ending (m : to_client) : Prop := m = Close 1000 (u "Upstream closed") \/ m = Close 1011 (u "Upstream WS error").
Definition shape (p : pump) : Prop := exists fs cs, to_down p = map Sends fs ++ map Closes cs /\ (forall c, In c cs -> c = 1000 \/ c = 1011)
  /\ (iterating p = true -> cs = []) /\ (iterating p = false -> cs <> []).
Lemma shape_more fs cs extra0 : map Sends fs ++ map Closes cs ++ map Closes extra0 = map Sends fs ++ map Closes (cs ++ extra0).
Proof. rewrite map_app. reflexivity. Qed.
Lemma shape_break cleans p : shape p -> shape (break_pump cleans p).
Proof.
  intros (fs & cs & E & C & I & O). exists fs, (cs ++ (if iterating p && cleans then [1000] else []) ++ [1011]). unfold break_pump. cbn [to_down iterating]. rewrite E.
  refine (conj _ (conj _ (conj _ _))).
  - rewrite <- !app_assoc. f_equal. rewrite !map_app. f_equal. destruct (iterating p && cleans); reflexivity.
  - intros c H. apply in_app_or in H as [H|H]; [exact (C c H)|]. destruct (iterating p && cleans); cbn in H; intuition auto.
  - discriminate.
  - intros _ X. apply app_eq_nil in X as [_ X]. apply app_eq_nil in X as [_ X]. discriminate X.
Qed.
Lemma shape_step cleans p e : shape p -> shape (pump_step cleans p e).
Proof.
  intros S. destruct e as [t b| |f| |nm]; cbn [pump_step].
  - destruct (reading p); [|exact S]. destruct (client_frame t b); [|exact S]. destruct (up_open p); [exact S|]. apply shape_break. exact S.
  - destruct (reading p); exact S.
  - destruct (iterating p) eqn:IT; [|exact S]. destruct S as (fs & cs & E & C & I & O). rewrite (I IT) in *. exists (fs ++ [f]), []. cbn [to_down iterating]. rewrite E. cbn [map]. rewrite map_app, !app_nil_r.
    refine (conj eq_refl (conj _ (conj (fun _ => eq_refl) _))); [intros c []|discriminate].
  - exact S.
  - destruct (iterating p) eqn:IT; [|exact S].
    assert (S' : shape {| reading := reading p; iterating := false; up_open := false; to_up := to_up p; to_down := to_down p ++ [Closes 1000] |}).
    { destruct S as (fs & cs & E & C & I & O). exists fs, [1000]. cbn [to_down iterating]. rewrite E, (I IT). cbn [map]. rewrite app_nil_r.
      refine (conj eq_refl (conj _ (conj _ _))); [intros c [<- |[]]; auto|discriminate|discriminate]. }
    destruct nm; [exact S'|apply shape_break; exact S'].
Qed.
Lemma shape_run cleans es : shape (pump_run cleans es).
Proof.
  unfold pump_run. assert (G : forall es p, shape p -> shape (fold_left (pump_step cleans) es p)).
  { clear es. induction es as [|e es IH]; intros p S; [exact S|]. cbn [fold_left]. apply IH, shape_step, S. }
  apply G. exists [], []. refine (conj eq_refl (conj _ (conj (fun _ => eq_refl) _))); [intros c []|discriminate].
Qed.
Lemma ended cleans es nm : In (UpstreamEnds nm) es -> iterating (pump_run cleans es) = false.
Proof.
  unfold pump_run. generalize pump0.
  assert (ST : forall e p, iterating p = false -> iterating (pump_step cleans p e) = false).
  { intros e p H. destruct e as [t b| |f| |n]; cbn [pump_step]; rewrite ?H; auto.
    - destruct (reading p); auto. destruct (client_frame t b); auto. destruct (up_open p); auto.
    - destruct (reading p); auto. }
  assert (STS : forall es p, iterating p = false -> iterating (fold_left (pump_step cleans) es p) = false).
  { intros l. induction l as [|e l IH]; intros p H; [exact H|]. cbn [fold_left]. apply IH, ST, H. }
  induction es as [|e es IH]; intros p H; [destruct H|]. cbn [fold_left]. destruct H as [H|H]; [|exact (IH _ H)]. subst e. apply STS. cbn [pump_step]. destruct (iterating p) eqn:IT; [|exact IT]. destruct nm; reflexivity.
Qed.
(** A proxied websocket is accepted first and once.  If the upstream cannot be reached the client is told so by one
    close.  Otherwise it is sent frames of the upstream, unchanged, in order and without a gap, and then only closes; if the
    upstream ends there is one. *)
Theorem C355_session : forall base cfg sc c, exists rest, snd (handle_websocket base cfg sc c) = Accept :: rest /\ ~ In Accept rest
  /\ (c = TimesOut -> rest = [Close 1011 (u "Upstream WS timeout")])
  /\ (c = Fails -> rest = [Close 1011 (u "Upstream WS error")])
  /\ (forall cleans es, c = Connects cleans es -> exists fs closing later, rest = map Frame fs ++ closing /\ upstream_frames es = fs ++ later /\ Forall ending closing
       /\ (forall nm, In (UpstreamEnds nm) es -> closing <> [])).
Proof.
  intros base cfg sc c. unfold handle_websocket. cbn [snd]. eexists. split; [reflexivity|].
  destruct c as [| |cleans es].
  1, 2: refine (conj _ (conj _ (conj _ _))); [intros [H|[]]; discriminate H|intros H; (reflexivity || discriminate H)|intros H; (reflexivity || discriminate H)|intros cl es H; discriminate H].
  destruct (shape_run cleans es) as (fs & cs & E & C & _ & O).
  assert (ME : map with_reason (to_down (pump_run cleans es)) = map Frame fs ++ map with_reason (map Closes cs)) by (rewrite E, map_app, map_map; reflexivity).
  refine (conj _ (conj _ (conj _ _))); try discriminate.
  - rewrite in_map_iff. intros (d & D & _). destruct d; discriminate D.
  - intros cl es' H. injection H as <- <-. destruct (C87_order cleans es) as (_ & (later & L) & _). exists fs, (map with_reason (map Closes cs)), later.
    refine (conj ME (conj _ (conj _ _))).
    + rewrite L, E. f_equal. unfold sends. rewrite flat_map_app. clear. induction fs as [|f fs IH]; cbn [map flat_map app].
      * induction cs as [|x cs IH]; [reflexivity|exact IH].
      * f_equal. exact IH.
    + apply Forall_forall. intros m M. rewrite map_map, in_map_iff in M. destruct M as (x & <- & I). destruct (C x I) as [-> | -> ]; [left|right]; reflexivity.
    + intros nm I X. apply (O (ended cleans es nm I)). destruct cs; [reflexivity|discriminate X].
Qed.
Print Assumptions C355_session.
Example C355_case : snd (handle_websocket secure (with_prefix (u "/")) secure_client (Connects true [FromUpstream (TextFrame (u "a")); FromClient (Some (u "x")) None; FromUpstream (BytesFrame (u "b")); UpstreamEnds true; FromUpstream (TextFrame (u "late"))]))
  = [Accept; Frame (TextFrame (u "a")); Frame (BytesFrame (u "b")); Close 1000 (u "Upstream closed")].
Proof. reflexivity. Qed.
