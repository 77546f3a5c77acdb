(** C40, C74: authentication. *)
From Verif Require Import PyStr PyStrFacts UrlModel UrlSpec UrlProofs AuthModel.

(** ** C40 *)
(** The first backends, asked in order. *)
Definition asked {C U E} (n : nat) : list (event C U E) := map Ask (seq 0 n).
Lemma auth_first {C U E} (pre post : list (answer C U E)) a : forall i, (forall x, In x pre -> x = Unknown) -> a <> Unknown ->
  authenticate i (pre ++ a :: post) = (map Ask (seq i (S (length pre))), a).
Proof.
  induction pre as [|x pre IH]; intros i P A.
  - destruct a; [contradiction A; reflexivity|reflexivity..].
  - rewrite (P x (or_introl eq_refl)). cbn [app authenticate]. rewrite IH; [|intros y Y; apply P; right; exact Y|exact A]. reflexivity.
Qed.
Lemma auth_none {C U E} (l : list (answer C U E)) : forall i, (forall x, In x l -> x = Unknown) -> authenticate i l = (map Ask (seq i (length l)), Unknown).
Proof.
  induction l as [|x l IH]; intros i P; [reflexivity|]. rewrite (P x (or_introl eq_refl)). cbn [authenticate].
  rewrite IH by (intros y Y; apply P; right; exact Y). reflexivity.
Qed.
(** The first backend that answers decides; those after it are not asked. *)
Theorem C40_first : forall C U E k anonymous (pre post : list (answer C U E)) c user,
  k <> Lifespan -> (forall x, In x pre -> x = Unknown) ->
  auth_call k anonymous (pre ++ Knows c user :: post) = asked (S (length pre)) ++ [Call (Some (c, user))].
Proof.
  intros C U E k anonymous pre post c user K P. unfold auth_call. rewrite (auth_first pre post (Knows c user) 0 P) by discriminate.
  destruct k; [reflexivity|reflexivity|contradiction].
Qed.
Print Assumptions C40_first.
(** If none answers, the user is anonymous. *)
Theorem C40_anonymous : forall C U E k anonymous (l : list (answer C U E)),
  k <> Lifespan -> (forall x, In x l -> x = Unknown) -> auth_call k anonymous l = asked (length l) ++ [Call (Some anonymous)].
Proof.
  intros C U E k anonymous l K P. unfold auth_call. rewrite (auth_none l 0 P). destruct k; [reflexivity|reflexivity|contradiction].
Qed.
Print Assumptions C40_anonymous.
(** If one raises, the error is answered (or the exception goes on) and the application is not called. *)
Theorem C40_refused : forall C U E k anonymous (pre post : list (answer C U E)) e,
  k <> Lifespan -> (forall x, In x pre -> x = Unknown) ->
  auth_call k anonymous (pre ++ Refuses e :: post) = asked (S (length pre)) ++ [OnError e; if match k with WebSocket => true | _ => false end then CloseWs 1000 else SendError e]
  /\ auth_call k anonymous (pre ++ Fails e :: post) = asked (S (length pre)) ++ [Raise e].
Proof.
  intros C U E k anonymous pre post e K P. unfold auth_call. rewrite (auth_first pre post (Refuses e) 0 P), (auth_first pre post (Fails e) 0 P) by discriminate.
  destruct k; [split; reflexivity|split; reflexivity|contradiction].
Qed.
Print Assumptions C40_refused.
(** In every case exactly one of these happens: the application is called, the error is answered, an exception goes on. *)
Definition final {C U E} (x : event C U E) : bool := match x with Ask _ | OnError _ => false | _ => true end.
Theorem C40_one : forall C U E k anonymous (l : list (answer C U E)),
  length (filter final (auth_call k anonymous l)) = 1 /\ exists t x, auth_call k anonymous l = t ++ [x] /\ final x = true.
Proof.
  intros C U E k anonymous l.
  assert (T : forall i, filter final (fst (authenticate i l)) = []).
  { induction l as [|x l IH]; intros i; [reflexivity|]. cbn [authenticate]. destruct x; try reflexivity.
    specialize (IH (S i)). destruct (authenticate (S i) l). exact IH. }
  unfold auth_call. specialize (T 0). destruct (authenticate 0 l) as (t, a). cbn [fst] in T.
  destruct k, a; cbn [process_exception]; rewrite ?filter_app, ?T; (split; [reflexivity|]);
    first [exists []; eexists; split; reflexivity
          | exists t; eexists; split; reflexivity
          | eexists (t ++ [_]), _; split; [rewrite <- app_assoc; reflexivity|reflexivity]].
Qed.
Print Assumptions C40_one.
Example C40_case : auth_call (E := nat) Http (0, 0) [Unknown; Knows 1 2; Refuses 3] = [Ask 0; Ask 1; Call (Some (1, 2))]
  /\ auth_call (C := nat) (U := nat) WebSocket (0, 0) [Unknown; Refuses 3; Knows 1 2] = [Ask 0; Ask 1; OnError 3; CloseWs 1000].
Proof. split; reflexivity. Qed.

(** ** C74 *)
(** A handler that requires scopes runs only for a connection that has them all. *)
Definition entitled (a : auth) (required : list str) : Prop := exists l, a = Scopes l /\ incl required l.
Definition C74_statement : Prop :=
  (forall route is_async s params a url others, In (u "request") params ->
     http_handler route is_async s params (VRequest a url) others = Some Runs -> entitled a (scopes_list s)) /\
  (forall route is_async s a others, dget (u "websocket") others = None ->
     socket_handler route is_async s [u "websocket"] (VSocket a) others = Some Runs -> entitled a (scopes_list s)).
(** The framework hands websockets over as positional arguments, where the decorator does not look: the
    handler runs whatever the client is. *)
Theorem C74_socket_never : forall route is_async s params socket others,
  (forall p, connection_param s params = Some (Some p) -> dget p others = None) -> connection_param s params <> None ->
  socket_handler route is_async s params socket others = Some Runs.
Proof.
  intros route is_async s params socket others D N. unfold socket_handler, wrapper. destruct (connection_param s params) as [[p|]|]; [|reflexivity|contradiction N; reflexivity].
  rewrite (D p eq_refl). reflexivity.
Qed.
Print Assumptions C74_socket_never.
Theorem C74_refuted : ~ C74_statement.
Proof.
  intros [_ H]. specialize (H (fun _ => None) true {| scopes_list := [u "admin"]; status_code := 403; redirect := None; must_find := true; conn_param := None |} (Scopes []) [] eq_refl eq_refl).
  destruct H as (l & E & I). injection E as <-. specialize (I (u "admin") (or_introl eq_refl)). destruct I.
Qed.
Print Assumptions C74_refuted.

Lemma required_incl have required : has_required_scope have required = true <-> incl required have.
Proof. unfold has_required_scope. rewrite forallb_forall. split; intros H x I; apply smem_In, H, I. Qed.
Lemma found s params : In (u "request") params -> (forall n, In n params -> n = u "websocket" \/ conn_param s = Some n -> n = u "request") ->
  connection_param s params = Some (Some (u "request")).
Proof.
  intros I F. unfold connection_param. set (wanted := fun n : str => _).
  destruct (List.find wanted params) as [n|] eqn:E.
  - apply List.find_some in E. destruct E as [J W]. f_equal. f_equal. unfold wanted in W.
    destruct (seqb_spec n (u "request")) as [->|]; [reflexivity|]. cbn [orb] in W. apply F; [exact J|].
    destruct (seqb_spec n (u "websocket")) as [->|]; [left; reflexivity|]. cbn [orb] in W. right.
    destruct (conn_param s) as [p|]; [|discriminate W]. apply seqb_eq in W. congruence.
  - exfalso. assert (X := List.find_none wanted params E _ I). unfold wanted in X. discriminate X.
Qed.
(** A http handler with a request parameter runs exactly for the connections that have every scope; the
    others get the status, or a redirect with the URL they asked for. *)
Theorem C74_http_partial : forall route is_async s params l url others,
  In (u "request") params -> (forall n, In n params -> n = u "websocket" \/ conn_param s = Some n -> n = u "request") ->
  let r := http_handler route is_async s params (VRequest (Scopes l) url) others in
  (r = Some Runs <-> incl (scopes_list s) l)
  /\ (~ incl (scopes_list s) l -> match redirect s with
      | None => r = Some (Denied (status_code s))
      | Some target => exists q, r = Some (Redirected (match route target with Some p => p | None => target end ++ u "?" ++ q))
                       /\ (texts [(u "next", url)] -> parse_qsl q = [(u "next", url)])
      end).
Proof.
  intros route is_async s params l url others I F. cbv zeta. unfold http_handler, http_kwargs. rewrite (found s params I F), (proj2 (smem_In _ _) I).
  unfold wrapper. rewrite dget_dset_same. destruct (has_required_scope l (scopes_list s)) eqn:H.
  - apply required_incl in H. split; [tauto|]. intros X. contradiction.
  - assert (NI : ~ incl (scopes_list s) l) by (intros X; apply required_incl in X; congruence).
    unfold handle_redirect_or_error. split.
    + split; [|intros X; contradiction]. destruct (redirect s); intros X; discriminate X.
    + intros _. destruct (redirect s) as [t|]; [|reflexivity]. eexists. split; [reflexivity|]. apply parse_encode.
Qed.
Print Assumptions C74_http_partial.
(** Without authentication installed it does not run at all. *)
Theorem C74_unauthenticated : forall route is_async s params url others a,
  In (u "request") params -> (forall n, In n params -> n = u "websocket" \/ conn_param s = Some n -> n = u "request") ->
  a = NoAuth \/ a = AuthNone -> http_handler route is_async s params (VRequest a url) others <> Some Runs.
Proof.
  intros route is_async s params url others a I F A. unfold http_handler, http_kwargs. rewrite (found s params I F), (proj2 (smem_In _ _) I).
  unfold wrapper. rewrite dget_dset_same. destruct A as [-> | ->]; [discriminate|]. destruct is_async; [|discriminate].
  unfold handle_redirect_or_error. destruct (redirect s); discriminate.
Qed.
Print Assumptions C74_unauthenticated.
Example C74_case :
  let s := {| scopes_list := [u "a"; u "b"]; status_code := 403; redirect := Some (u "login"); must_find := true; conn_param := None |} in
  http_handler (fun _ => Some (u "/login")) true s [u "id"; u "request"] (VRequest (Scopes [u "b"; u "c"; u "a"]) (u "http://x/p?q=1")) [(u "id", VOther 3)] = Some Runs
  /\ http_handler (fun _ => Some (u "/login")) true s [u "id"; u "request"] (VRequest (Scopes [u "b"]) (u "http://x/p?q=1")) [(u "id", VOther 3)]
     = Some (Redirected (u "/login?next=http%3A%2F%2Fx%2Fp%3Fq%3D1")).
Proof. split; vm_compute; reflexivity. Qed.
