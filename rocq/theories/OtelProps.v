(** C197-C203: the tracing middleware. *)
From Verif Require Import PyStr PyStrFacts HeaderModel UrlModel PathNestProofs OtelModel OtelSpec OtelProofs.
Local Open Scope Z_scope.

Lemma serve_call ip_ok v s p x : o_type s = u "http" -> build_from_scope ip_ok (url_scope s) = Some x ->
  serve v (call ip_ok s p) = run v [] ([Begin (u "HTTP " ++ o_method s) (carrier_of (o_headers s))] ++ first_attributes s x) None None (traced s (o_route s) (o_path s) 500 p).
Proof. intros T U. unfold serve, call. rewrite T. change (seqb (u "http") (u "http")) with true. cbn [negb run]. rewrite U, run_note_all. reflexivity. Qed.

(** * C197: requests pass unchanged *)
Theorem C197_transparent : forall ip_ok v s p,
  (o_type s <> u "http" -> serve v (call ip_ok s p) = serve v p) /\
  (o_type s = u "http" -> build_from_scope ip_ok (url_scope s) <> None -> o_server s <> Null ->
   let t := serve v (call ip_ok s p) in let o := serve v p in
   same_for_the_server t o /\ left_route t = left_route o /\ left_path t = left_path o).
Proof.
  intros ip_ok v s p. split.
  - intros T. unfold call. now rewrite (proj2 (seqb_neq _ _) T).
  - intros T U NN. destruct (build_from_scope ip_ok (url_scope s)) as [x|] eqn:B; [|now destruct U]. cbv zeta. rewrite (serve_call _ _ _ _ _ T B).
    destruct (run_traced v s 500 (o_route s) (o_path s) p NN [] [] ([Begin (u "HTTP " ++ o_method s) (carrier_of (o_headers s))] ++ first_attributes s x) None None) as (A & B' & C & D & _).
    refine (conj (conj A B') (conj C D)).
Qed.
Print Assumptions C197_transparent.

Definition no_ip (s : str) : bool := false.
Definition a_scope (server : where_) (host : str) : oscope :=
  {| o_type := u "http"; o_method := u "GET"; o_scheme := u "http"; o_server := server; o_client := Some (u "10.0.0.9", 4711%N); o_path := u "/users/7"; o_query := u "q=1";
     o_headers := [(u "host", host); (u "traceparent", u "00-1")]; o_route := None |}.
(** A server whose client goes away after the first chunk, and an application that streams until then. *)
Definition a_server : server :=
  {| answer := fun h => match h with [] => Body [] false | _ => Disconnect end; accept := fun h _ => if (3 <? Z.of_nat (length h)) then Some (Exn (u "OSError") (u "gone")) else None |}.
Definition an_app : prog :=
  Receive (fun _ => SetRoute (u "/users/{id}") (Send (Start (Some 201) []) (fun _ => Send (Chunk (u "a") true) (fun _ => Send (Chunk (u "b") true) (fun _ => Send (Chunk (u "c") true)
    (fun r => match r with Some e => Raise e | None => Done end)))))).
Example C197_case : let s := a_scope (At (u "10.0.0.1") (Some 80%N)) (u "example.org") in
  build_from_scope no_ip (url_scope s) <> None /\ o_server s <> Null /\
  ended (serve a_server (call no_ip s an_app)) = Some (Exn (u "OSError") (u "gone")) /\ length (calls (serve a_server (call no_ip s an_app))) = 5%nat /\
  status_written (notes (serve a_server (call no_ip s an_app))) = Some true.
Proof. refine (conj _ (conj _ (conj _ (conj _ _)))); vm_compute; congruence. Qed.

(** * C198: whatever the scope *)
Definition C198_statement : Prop := forall ip_ok v s p, same_for_the_server (serve v (call ip_ok s p)) (serve v p).
Definition hello : prog := Send (Start (Some 200) []) (fun _ => Send (Chunk (u "hi") false) (fun _ => Done)).
(** A server on a unix socket has no address: the response is sent and the request ends with a TypeError. *)
Theorem C198_server_refuted : ~ C198_statement.
Proof. intros H. destruct (H no_ip a_server (a_scope Null (u "example.org")) hello) as (_ & E). vm_compute in E. discriminate E. Qed.
Print Assumptions C198_server_refuted.
(** A client that names a port which is none: the application is not called. *)
Theorem C198_host_refuted : ~ C198_statement.
Proof. intros H. destruct (H no_ip a_server (a_scope (At (u "10.0.0.1") (Some 80%N)) (u "example.org:x")) hello) as (E & _). vm_compute in E. discriminate E. Qed.
Print Assumptions C198_host_refuted.
(** What happens then: every call is made and the end is the TypeError, whatever the application did, also when it
    was cancelled; or no call is made. *)
Theorem C198_otherwise_partial : forall ip_ok v s p, o_type s = u "http" ->
  (build_from_scope ip_ok (url_scope s) <> None -> o_server s = Null ->
   calls (serve v (call ip_ok s p)) = calls (serve v p) /\ ended (serve v (call ip_ok s p)) = Some TypeError) /\
  (build_from_scope ip_ok (url_scope s) = None -> calls (serve v (call ip_ok s p)) = [] /\ ended (serve v (call ip_ok s p)) = Some ValueError) /\
  (build_from_scope ip_ok (url_scope s) <> None -> o_server s <> Null -> same_for_the_server (serve v (call ip_ok s p)) (serve v p)).
Proof.
  intros ip_ok v s p T. refine (conj _ (conj _ _)).
  - intros U NN. destruct (build_from_scope ip_ok (url_scope s)) as [x|] eqn:B; [|now destruct U]. rewrite (serve_call _ _ _ _ _ T B). now apply run_ends.
  - intros U. unfold serve, call. rewrite T. change (seqb (u "http") (u "http")) with true. cbn [negb run]. rewrite U. split; reflexivity.
  - intros U NN. now apply (proj2 (C197_transparent ip_ok v s p)).
Qed.
Print Assumptions C198_otherwise_partial.
Example C198_case : build_from_scope no_ip (url_scope (a_scope Null (u "example.org"))) <> None /\
  ended (serve a_server (call no_ip (a_scope Null (u "example.org")) (Raise (Exit (u "CancelledError"))))) = Some TypeError.
Proof. split; vm_compute; congruence. Qed.

Section Tail.
Variables (ip_ok : str -> bool) (v : server) (s : oscope) (p : prog).
Hypotheses (T : o_type s = u "http") (U : build_from_scope ip_ok (url_scope s) <> None) (NN : o_server s <> Null).
Lemma notes_call : exists x mid, build_from_scope ip_ok (url_scope s) = Some x /\
  let o := serve v p in
  notes (serve v (call ip_ok s p)) = ([Begin (u "HTTP " ++ o_method s) (carrier_of (o_headers s))] ++ first_attributes s x) ++ mid ++
    tail_notes s (fst (written o (o_route s) (o_path s))) (snd (written o (o_route s) (o_path s))) (code_now 500 (calls o)) (ended o) /\
  (silent p -> recorded mid = [] /\ forall k, k <> u "http.response.status_code" -> attribute k mid = None).
Proof.
  destruct (build_from_scope ip_ok (url_scope s)) as [x|] eqn:B; [|now destruct U].
  destruct (run_traced v s 500 (o_route s) (o_path s) p NN [] [] ([Begin (u "HTTP " ++ o_method s) (carrier_of (o_headers s))] ++ first_attributes s x) None None) as (_ & _ & _ & _ & mid & M & S0).
  exists x, mid. split; [reflexivity|]. split; [|exact S0]. rewrite (serve_call _ _ _ _ _ T B). exact M.
Qed.
End Tail.
Lemma recorded_app a b : recorded (a ++ b) = recorded a ++ recorded b.
Proof. unfold recorded. apply flat_map_app. Qed.
Lemma recorded_first s x : recorded (first_attributes s x) = [].
Proof.
  unfold first_attributes. rewrite !recorded_app. destruct (port _) as [[n|]|]; [destruct (N.eqb n 0)| |]; destruct (o_client s) as [[h q]|]; destruct (o_route s); reflexivity.
Qed.

(** * C199: the status of the span *)
Theorem C199_status : forall ip_ok v s p, o_type s = u "http" -> build_from_scope ip_ok (url_scope s) <> None -> o_server s <> Null ->
  let o := serve v p in let span := notes (serve v (call ip_ok s p)) in
  (forall c text, ended o = Some (Exn c text) -> status_written span = Some true /\ (silent p -> recorded span = [Exn c text])) /\
  (ended o = None ->
   (forall z, last_code (calls o) = Some z -> status_written span = Some ((400 <=? z) && (z <? 600))) /\
   (last_code (calls o) = None -> status_written span = Some true) /\
   (silent p -> recorded span = [])).
Proof.
  intros ip_ok v s p T U NN o span. destruct (notes_call ip_ok v s p T U NN) as (x & mid & B & M & S0). fold o in M. fold span in M. split.
  - intros c text E. rewrite M, E. unfold tail_notes. split.
    + unfold status_written. rewrite !last_of_app. reflexivity.
    + intros SI. destruct (S0 SI) as (R & _). rewrite !recorded_app, recorded_first, R. reflexivity.
  - intros E. rewrite M, E. unfold tail_notes, code_now. refine (conj _ (conj _ _)).
    + intros z Z. rewrite Z. unfold status_written. rewrite !last_of_app. reflexivity.
    + intros Z. rewrite Z. unfold status_written. rewrite !last_of_app. reflexivity.
    + intros SI. destruct (S0 SI) as (R & _). rewrite !recorded_app, recorded_first, R. reflexivity.
Qed.
Print Assumptions C199_status.
Definition failing : prog := Send (Start (Some 503) []) (fun _ => Send (Chunk [] false) (fun _ => Done)).
Example C199_case : let s := a_scope (At (u "10.0.0.1") (Some 80%N)) (u "example.org") in
  build_from_scope no_ip (url_scope s) <> None /\ silent failing /\ last_code (calls (serve a_server failing)) = Some 503 /\
  status_written (notes (serve a_server (call no_ip s failing))) = Some true /\ status_written (notes (serve a_server (call no_ip s hello))) = Some false.
Proof. refine (conj _ (conj _ (conj _ (conj _ _)))); try (vm_compute; congruence). cbn. auto. Qed.

(** * C200: only a request that was served is fine *)
Definition C200_statement : Prop := forall ip_ok v s p, o_type s = u "http" -> build_from_scope ip_ok (url_scope s) <> None -> o_server s <> Null -> silent p ->
  status_written (notes (serve v (call ip_ok s p))) = Some false -> ended (serve v p) = None.
(** Cancelled after the start of its response. *)
Definition cut_off : prog := Send (Start (Some 200) []) (fun _ => Raise (Exit (u "CancelledError"))).
Theorem C200_refuted : ~ C200_statement.
Proof.
  intros H. specialize (H no_ip a_server (a_scope (At (u "10.0.0.1") (Some 80%N)) (u "example.org")) cut_off eq_refl).
  assert (E : ended (serve a_server cut_off) = None); [|discriminate E]. apply H; try (vm_compute; congruence). cbn. auto.
Qed.
Print Assumptions C200_refuted.
(** A span that is fine belongs to a request that did not fail with an Exception and whose response was started with
    a status that is no error; cancelled requests are judged like served ones, and nothing is recorded. *)
Theorem C200_fine_partial : forall ip_ok v s p, o_type s = u "http" -> build_from_scope ip_ok (url_scope s) <> None -> o_server s <> Null ->
  status_written (notes (serve v (call ip_ok s p))) = Some false ->
  (forall c text, ended (serve v p) <> Some (Exn c text)) /\ exists z, last_code (calls (serve v p)) = Some z /\ ~ (400 <= z < 600).
Proof.
  intros ip_ok v s p T U NN. destruct (notes_call ip_ok v s p T U NN) as (x & mid & B & M & _). cbv zeta in M. rewrite M. unfold status_written, tail_notes. rewrite !last_of_app.
  destruct (ended (serve v p)) as [[c t|c]|]; [discriminate| |]; cbn [app]; rewrite ?last_of_one; intros E; (split; [discriminate|]); apply (f_equal (fun o : option bool => match o with Some b => b | None => true end)) in E; cbn in E;
    unfold code_now in E; destruct (last_code (calls (serve v p))) as [z|]; try discriminate E; exists z; (split; [reflexivity | lia]).
Qed.
Print Assumptions C200_fine_partial.

(** * C201: the attributes of the span *)
Theorem C201_attributes : forall ip_ok v s p, o_type s = u "http" -> build_from_scope ip_ok (url_scope s) <> None -> o_server s <> Null ->
  let o := serve v p in let span := notes (serve v (call ip_ok s p)) in
  let path := match left_path o with Some q => q | None => o_path s end in
  attribute (u "http.request.method") span = Some (AStr (o_method s)) /\
  attribute (u "url.path") span = Some (AStr path) /\
  attribute (u "lilya.route") span = Some (AStr (match left_route o, o_route s with Some r, _ => r | None, Some r => r | None, None => path end)) /\
  (silent p -> attribute (u "http.response.status_code") span = option_map AInt (last_code (calls o))).
Proof.
  intros ip_ok v s p T U NN o span path. destruct (notes_call ip_ok v s p T U NN) as (x & mid & B & M & _). fold o in M. fold span in M.
  assert (F : forall k r q c e, k = u "http.request.method" \/ k = u "url.path" \/ k = u "lilya.route" ->
    attribute k (tail_notes s r q c e) = Some (AStr (if seqb k (u "http.request.method") then o_method s else if seqb k (u "url.path") then q else r))).
  { intros k r q c e K. unfold tail_notes, attribute. rewrite !last_of_app. destruct K as [-> |[-> | ->]]; destruct e as [[? ?|?]|]; reflexivity. }
  refine (conj _ (conj _ (conj _ _))).
  - rewrite M. unfold attribute. rewrite !last_of_app. fold (attribute (u "http.request.method") (tail_notes s (fst (written o (o_route s) (o_path s))) (snd (written o (o_route s) (o_path s))) (code_now 500 (calls o)) (ended o))). rewrite F by auto. reflexivity.
  - rewrite M. unfold attribute. rewrite !last_of_app. fold (attribute (u "url.path") (tail_notes s (fst (written o (o_route s) (o_path s))) (snd (written o (o_route s) (o_path s))) (code_now 500 (calls o)) (ended o))). rewrite F by auto. reflexivity.
  - rewrite M. unfold attribute. rewrite !last_of_app. fold (attribute (u "lilya.route") (tail_notes s (fst (written o (o_route s) (o_path s))) (snd (written o (o_route s) (o_path s))) (code_now 500 (calls o)) (ended o))). rewrite F by auto.
    unfold written, path. cbn [fst snd]. change (seqb (u "lilya.route") (u "http.request.method")) with false. change (seqb (u "lilya.route") (u "url.path")) with false. cbv iota.
    destruct (left_route o); [reflexivity|]. destruct (o_route s); reflexivity.
  - intros SI. pose proof (proj2 (C197_transparent ip_ok v s p) T U NN) as ((CE & _) & _). cbv zeta in CE. fold o in CE. unfold span. rewrite <- CE. rewrite (serve_call _ _ _ _ _ T B).
    apply run_code; [exact NN | exact SI |]. unfold attribute, first_attributes. rewrite !last_of_app. destruct (port _) as [[n|]|]; [destruct (N.eqb n 0)| |]; destruct (o_client s) as [[h q]|]; destruct (o_route s); reflexivity.
Qed.
Print Assumptions C201_attributes.
Example C201_case : let s := a_scope (At (u "10.0.0.1") (Some 80%N)) (u "example.org") in let span := notes (serve a_server (call no_ip s an_app)) in
  silent an_app /\ attribute (u "lilya.route") span = Some (AStr (u "/users/{id}")) /\ attribute (u "http.response.status_code") span = Some (AInt 201) /\
  attribute (u "url.path") span = Some (AStr (u "/users/7")) /\ attribute (u "http.route") span = None.
Proof. refine (conj _ (conj _ (conj _ (conj _ _)))); try (vm_compute; congruence). cbn. intros. destruct r2; exact I. Qed.

(** * C202: the attribute http.route names the route *)
Definition C202_statement : Prop := forall ip_ok v s p r, o_type s = u "http" -> build_from_scope ip_ok (url_scope s) <> None -> o_server s <> Null -> silent p ->
  left_route (serve v p) = Some r -> attribute (u "http.route") (notes (serve v (call ip_ok s p))) = Some (AStr r).
Theorem C202_refuted : ~ C202_statement.
Proof.
  intros H. specialize (H no_ip a_server (a_scope (At (u "10.0.0.1") (Some 80%N)) (u "example.org")) an_app (u "/users/{id}") eq_refl).
  assert (E : attribute (u "http.route") (notes (serve a_server (call no_ip (a_scope (At (u "10.0.0.1") (Some 80%N)) (u "example.org")) an_app))) = Some (AStr (u "/users/{id}"))); [|vm_compute in E; discriminate E].
  apply H; try (vm_compute; congruence). cbn. intros. destruct r2; exact I.
Qed.
Print Assumptions C202_refuted.
(** It names the route known before the application ran, if there was one. *)
Theorem C202_route_partial : forall ip_ok v s p, o_type s = u "http" -> build_from_scope ip_ok (url_scope s) <> None -> o_server s <> Null -> silent p ->
  attribute (u "http.route") (notes (serve v (call ip_ok s p))) = option_map AStr (o_route s).
Proof.
  intros ip_ok v s p T U NN SI. destruct (notes_call ip_ok v s p T U NN) as (x & mid & B & M & S0). destruct (S0 SI) as (_ & A). specialize (A (u "http.route") ltac:(vm_compute; discriminate)).
  cbv zeta in M. rewrite M. unfold attribute in *. rewrite !last_of_app, A. unfold tail_notes, first_attributes. rewrite !last_of_app.
  destruct (ended (serve v p)) as [[? ?|?]|]; destruct (port _) as [[n|]|]; try destruct (N.eqb n 0); destruct (o_client s) as [[h q]|]; destruct (o_route s); reflexivity.
Qed.
Print Assumptions C202_route_partial.
Example C202_case : let s := {| o_type := u "http"; o_method := u "GET"; o_scheme := u "http"; o_server := Missing; o_client := None; o_path := u "/a"; o_query := []; o_headers := []; o_route := Some (u "/{x}") |} in
  build_from_scope no_ip (url_scope s) <> None /\ o_server s <> Null /\ silent hello /\ attribute (u "http.route") (notes (serve a_server (call no_ip s hello))) = Some (AStr (u "/{x}")).
Proof. refine (conj _ (conj _ (conj _ _))); try (vm_compute; congruence). cbn. auto. Qed.

(** * C203: the address and the port of the server belong together *)
(** Both are those of the URL, or both those of the socket. *)
Definition C203_statement : Prop := forall ip_ok v s p x z a, o_type s = u "http" -> build_from_scope ip_ok (url_scope s) = Some x -> o_server s <> Null -> silent p ->
  let span := notes (serve v (call ip_ok s p)) in
  attribute (u "server.port") span = Some (AInt (Z.of_N z)) -> attribute (u "server.address") span = Some (AStr a) ->
  (hostname (p_netloc (split x)) = Some a /\ port (p_netloc (split x)) = Some (Some z)) \/ o_server s = At a (Some z).
Theorem C203_refuted : ~ C203_statement.
Proof.
  intros H. set (s := a_scope (At (u "10.0.0.1") (Some 80%N)) (u "example.org:8080")).
  destruct (build_from_scope no_ip (url_scope s)) as [x|] eqn:B; [|vm_compute in B; discriminate B].
  destruct (H no_ip a_server s hello x 8080%N (u "10.0.0.1") eq_refl B) as [(E & _)|E]; try (vm_compute; congruence); [cbn; auto | |vm_compute in E; discriminate E].
  vm_compute in B. injection B as <-. vm_compute in E. discriminate E.
Qed.
Print Assumptions C203_refuted.
(** The address is that of the socket, the port that of the URL unless it is 0. *)
Theorem C203_server_partial : forall ip_ok v s p x, o_type s = u "http" -> build_from_scope ip_ok (url_scope s) = Some x -> o_server s <> Null -> silent p ->
  let span := notes (serve v (call ip_ok s p)) in
  attribute (u "server.address") span = Some (AStr (match o_server s with At h _ => h | _ => u "testserver" end)) /\
  attribute (u "server.port") span = match port (p_netloc (split x)) with Some (Some n) => if N.eqb n 0 then None else Some (AInt (Z.of_N n)) | _ => None end.
Proof.
  intros ip_ok v s p x T B NN SI span. destruct (notes_call ip_ok v s p T ltac:(rewrite B; discriminate) NN) as (x' & mid & B' & M & S0). rewrite B in B'. injection B' as <-.
  destruct (S0 SI) as (_ & A). cbv zeta in M. fold span in M. rewrite M. split.
  - unfold attribute, tail_notes. rewrite !last_of_app. destruct (ended (serve v p)) as [[? ?|?]|]; reflexivity.
  - specialize (A (u "server.port") ltac:(vm_compute; discriminate)). unfold attribute in *. rewrite !last_of_app, A. unfold tail_notes, first_attributes. rewrite !last_of_app.
    destruct (ended (serve v p)) as [[? ?|?]|]; destruct (port _) as [[n|]|]; try destruct (N.eqb n 0); destruct (o_client s) as [[h q]|]; destruct (o_route s); reflexivity.
Qed.
Print Assumptions C203_server_partial.

(** * C204: the context is read from the headers of the request *)
(** The span begins with a name made of the method and a context read from a dict that has the last value of every
    header, and only that. *)
Theorem C204_context : forall ip_ok v s p, o_type s = u "http" ->
  exists carrier rest, notes (serve v (call ip_ok s p)) = Begin (u "HTTP " ++ o_method s) carrier :: rest /\ NoDup (dkeys carrier) /\
  forall k, dget k carrier = last_of (fun e => if seqb (fst e) k then Some (snd e) else None) (o_headers s).
Proof.
  intros ip_ok v s p T. exists (carrier_of (o_headers s)).
  assert (R : forall p h n r q, exists l, notes (run v h n r q p) = n ++ l).
  { clear. induction p as [|e|k IH|m k IH|x p IH|x p IH|e p IH]; intros h n r q; cbn [run notes]; try (exists []; now rewrite app_nil_r); eauto.
    destruct (IH h (n ++ [e]) r q) as (l & E). exists (e :: l). now rewrite E, <- app_assoc. }
  unfold serve, call. rewrite T. change (seqb (u "http") (u "http")) with true. cbn [negb run app].
  match goal with |- exists rest, notes (run v [] ?n None None ?p) = _ /\ _ => destruct (R p [] n None None) as (l & E) end. exists l. refine (conj E _). clear.
  induction (o_headers s) as [|[k0 v0] h IH] using rev_ind; [split; [constructor | reflexivity]|]. unfold carrier_of in *. rewrite fold_left_app. cbn [fold_left fst snd]. destruct IH as (ND & G). split.
  - now apply PathNestProofs.NoDup_dset.
  - intros k. rewrite last_of_app, last_of_one. cbn [fst snd]. destruct (seqb_spec k0 k) as [EQ|NE]; [subst k0; apply dget_dset_same|]. rewrite dget_dset_other by congruence. apply G.
Qed.
Print Assumptions C204_context.
Example C204_case : carrier_of [(u "traceparent", u "1"); (u "accept", u "*"); (u "traceparent", u "2")] = [(u "traceparent", u "2"); (u "accept", u "*")].
Proof. reflexivity. Qed.

(** The query of the span is the query of the request, whenever the request has the usual form. *)
From Verif Require UrlSpec HostSpec HostProofs.
Theorem C201_query : forall ip_ok v s p name prt, o_type s = u "http" -> In (o_scheme s) [u "http"; u "https"] -> o_server s <> Null -> silent p ->
  HostSpec.request_authority (url_scope s) name prt -> HostSpec.host_name name -> (forall n, prt = Some n -> (n <= 65535)%N) ->
  HostSpec.plain_path (o_path s) -> HostSpec.sent_query (o_query s) ->
  attribute (u "url.query") (notes (serve v (call ip_ok s p))) = Some (AStr (o_query s)).
Proof.
  intros ip_ok v s p name prt T SC NN SI A HN PR P Q.
  destruct (HostProofs.scope_url ip_ok (url_scope s) name prt) as (y & BY & SH); try assumption.
  { cbn [s_scheme url_scope]. cbn [In] in SC |- *. tauto. }
  destruct (notes_call ip_ok v s p T ltac:(rewrite BY; discriminate) NN) as (x & mid & B & M & S0). rewrite BY in B. injection B as <-.
  destruct (S0 SI) as (_ & AM). specialize (AM (u "url.query") ltac:(vm_compute; discriminate)).
  cbv zeta in M. rewrite M. unfold attribute in *. rewrite !last_of_app, AM. unfold tail_notes, first_attributes. rewrite !last_of_app.
  unfold UrlSpec.shows in SH. rewrite SH. cbn [p_query p_path p_netloc].
  destruct (ended (serve v p)) as [[? ?|?]|]; destruct (port _) as [[n|]|]; try destruct (N.eqb n 0); destruct (o_client s) as [[h q]|]; destruct (o_route s); reflexivity.
Qed.
Print Assumptions C201_query.
Example C201_query_case : let s := a_scope (At (u "10.0.0.1") (Some 80%N)) (u "example.org") in
  HostSpec.request_authority (url_scope s) (u "example.org") None /\ attribute (u "url.query") (notes (serve a_server (call no_ip s an_app))) = Some (AStr (u "q=1")).
Proof. split; [left; vm_compute; reflexivity | vm_compute; reflexivity]. Qed.
