From Verif Require Import PyStr PyStrFacts Utf8 OutModel TcModel TcSpec TcProofs.
From Verif Require CookieProofs EnvProofs PathIncProofs RouterDeferProofs.
From Coq Require Import Lia.
Local Open Scope N_scope.

(** * C129: the test client shows the response that was sent *)
Definition C129_statement : Prop :=
  forall c body p ms st hs x fin, plays body p false [] ms Returned -> answer fin ms st hs x -> Forall good_header hs ->
  process c body p = Response {| status := st; headers := hs; content := if head c then [] else x; info := last_debug ms None |}.
Definition any_client (a : bool) : client := {| asynchronous := a; raise_server := true; conformance := true; head := false |}.
(** A response that is never finished: what was sent of it is not shown, and nothing is reported. *)
Definition unfinished : asgi := Send (Start 200 None) (fun _ => Send (Body (Some (Bytes (u "hi"))) (Some true)) (fun _ => Return)).
Theorem C129_refuted : ~ C129_statement.
Proof.
  intros H. specialize (H (any_client false) [] unfinished [Start 200 None; Body (Some (Bytes (u "hi"))) (Some true)] 200 [] (u "hi" ++ []) false).
  assert (E : process (any_client false) [] unfinished = Response {| status := 200; headers := []; content := u "hi" ++ []; info := None |}).
  { apply H.
    - apply plays_send, plays_send, plays_return.
    - apply (answer_start false 200 None), chunks_more; [left; reflexivity | constructor].
    - constructor. }
  vm_compute in E. discriminate.
Qed.
Print Assumptions C129_refuted.
(** The asynchronous client lets a message after the end overwrite the beginning; the synchronous one reports it. *)
Definition late : asgi :=
  Send (Start 200 None) (fun _ => Send (Body (Some (Bytes (u "hello"))) None) (fun _ => Send (Body (Some (Bytes (u "J"))) None) (fun e => match e with Some e => Raise e | None => Return end))).
Theorem C129_late_refuted :
  process (any_client true) [] late = Response {| status := 200; headers := []; content := u "Jello"; info := None |} /\
  process (any_client false) [] late = Error AssertionError.
Proof. split; vm_compute; reflexivity. Qed.
Print Assumptions C129_late_refuted.
Lemma chunk_det b x y : chunk b x -> chunk b y -> y = x.
Proof. intros [-> |[-> ->]] [E|[E ->]]; congruence. Qed.
(** Both clients show a finished response as it was sent, also if the application fails after it and exceptions are not to
    be raised. *)
Theorem C129_partial : forall c body p ms st hs x o,
  plays body p false [] ms o -> o = Returned \/ (raise_server c = false /\ exists e, o = Raised e) -> answer true ms st hs x -> Forall good_header hs ->
  process c body p = Response {| status := st; headers := hs; content := if head c then [] else x; info := last_debug ms None |}.
Proof.
  intros c body p ms st hs x o P O A G. destruct (run_plays c body p false [] ms o P initial st hs x (inv_initial c) A) as (s & E & (_ & D & ph & Q)).
  unfold process. rewrite E.
  assert (GH : forallb header_ok hs = true) by (apply forallb_forall; rewrite Forall_forall in G; intros h I; apply header_ok_iff, G, I).
  assert (DET : forall f ms st hs x, answer f ms st hs x -> forall g st' hs' x', answer g ms st' hs' x' -> st' = st /\ hs' = hs /\ (f = true -> g = true -> x' = x)).
  { clear. assert (CD : forall ms x, chunks true ms x -> forall y, chunks true ms y -> y = x).
    { intros ms x H. remember true as t. induction H as [|b more x r K M F|b x fin r y K H IH|m fin r y A H IH]; try discriminate; intros z C; inversion C; subst; try congruence; try (match goal with A : aside (Body _ _) |- _ => destruct A end); try (destruct A).
      - eapply chunk_det; eassumption.
      - f_equal; [eapply chunk_det; eassumption | eapply IH; eauto].
      - eapply IH; eauto. }
    intros f ms st hs x H. induction H as [st hs ms x H|m ms st hs x A H IH]; intros g st' hs' x' B; inversion B; subst; try (match goal with A : aside (Start _ _) |- _ => destruct A end); try destruct A.
    - refine (conj eq_refl (conj eq_refl _)). intros -> ->. eapply CD; eassumption.
    - eapply IH; eassumption. }
  assert (R : match started s with None => Error (SpecViolation (u "TestClient did not receive any response.")) | Some (st, hs) => finish c st hs (io_read (stream s)) (debug s) end = Response {| status := st; headers := hs; content := if head c then [] else x; info := last_debug ms None |} /\ started s <> None).
  { destruct ph as [|st' hs' x'|st' hs' x'].
    - exfalso. destruct Q as (F & _). apply aside_starts in F. rewrite (answer_starts _ _ _ _ _ A) in F. discriminate.
    - exfalso. destruct Q as (B & _). apply answer_finished in B, A. destruct B as [B _], A as [_ A]. discriminate (B (A eq_refl)).
    - destruct Q as (B & S & _ & ST). destruct (DET _ _ _ _ _ A _ _ _ _ B) as (-> & -> & X). rewrite (X eq_refl eq_refl) in ST. rewrite S, ST, D. split; [|discriminate]. unfold finish. rewrite GH. cbn [negb]. rewrite andb_false_r. reflexivity. }
  destruct R as [R NS]. destruct (started s) as [[st' hs']|]; [|congruence]. destruct O as [-> |[RS (e & ->)]]; [exact R | rewrite RS; exact R].
Qed.
Print Assumptions C129_partial.
(** The synchronous client reports everything else: from an application that catches nothing it accepts only the messages
    of one response in order. *)
Theorem C129_reports : forall c body p r, asynchronous c = false -> raise_server c = true -> conformance c = true \/ head c = false -> uncaught p ->
  process c body p = Response r ->
  exists ms fin x, plays body p false [] ms Returned /\ answer fin ms (status r) (headers r) x /\ content r = (if fin && negb (head c) then x else []) /\ info r = last_debug ms None.
Proof.
  intros c body p r SY RS TX UN H. unfold process in H. destruct (run c body p initial) as [s o] eqn:E. rewrite RS in H. destruct o as [|e|]; [|discriminate..].
  destruct (run_reports c body SY TX p UN false [] initial s Returned (inv_initial c) E eq_refl) as (ms & P & (_ & D & ph & Q)).
  destruct (started s) as [[st hs]|] eqn:S; [|discriminate]. unfold finish in H. destruct (conformance c && negb (forallb header_ok hs)); [discriminate|]. injection H as <-. cbn [status headers content info].
  destruct ph as [|st' hs' x|st' hs' x]; destruct Q as (A & S' & _ & ST); [congruence| |]; rewrite S in S'; injection S' as -> ->.
  - exists ms, false, x. refine (conj P (conj A (conj _ D))). rewrite ST. unfold io_read. cbn [fst snd andb]. apply skipn_all2. lia.
  - exists ms, true, x. refine (conj P (conj A (conj _ D))). rewrite ST. unfold io_read, shown. cbn [fst snd andb]. destruct (head c); reflexivity.
Qed.
Print Assumptions C129_reports.
(** Whatever the application does, a client that checks conformance shows no header that is not bytes, or has a newline. *)
Theorem C129_headers : forall c body p r, conformance c = true -> process c body p = Response r -> Forall good_header (headers r).
Proof.
  intros c body p r CO H. unfold process in H. destruct (run c body p initial) as [s o].
  assert (F : forall st hs x i, finish c st hs x i = Response r -> Forall good_header (headers r)).
  { intros st hs x i. unfold finish. rewrite CO. destruct (forallb header_ok hs) eqn:G; cbn; [|discriminate]. intros [= <-]. cbn [headers]. apply Forall_forall. intros h I. apply header_ok_iff. rewrite forallb_forall in G. apply G, I. }
  assert (R : match started s with None => if raise_server c || conformance c then Error (SpecViolation (u "TestClient did not receive any response.")) else finish c 500 [] (if asynchronous c then u "Internal Server Error" else []) (debug s) | Some (st, hs) => finish c st hs (io_read (stream s)) (debug s) end = Response r -> Forall good_header (headers r)).
  { destruct (started s) as [[st hs]|]; [apply F|]. destruct (raise_server c || conformance c); [discriminate | apply F]. }
  destruct o as [|e|]; [exact (R H) | destruct (raise_server c); [discriminate | exact (R H)] | discriminate].
Qed.
Print Assumptions C129_headers.
(** An application that echoes its request in two chunks, waits for the disconnect and then fails. *)
Definition echo : asgi :=
  Receive (fun m => match m with
    | RBody b => Send (Start 201 (Some [(Bytes (u "x"), Bytes (u "y"))])) (fun e => match e with Some e => Raise e | None =>
                 Send (Debug 1 2) (fun e => match e with Some e => Raise e | None =>
                 Send (Body (Some (Bytes b)) (Some true)) (fun e => match e with Some e => Raise e | None =>
                 Send (Body (Some (Bytes b)) None) (fun e => match e with Some e => Raise e | None => Receive (fun m => Raise (AppError 1)) end) end) end) end)
    | RDisconnect => Return end).
Example C129_case : exists ms, plays (u "ab") echo false [] ms (Raised (AppError 1)) /\ answer true ms 201 [(Bytes (u "x"), Bytes (u "y"))] (u "abab") /\
  Forall good_header [(Bytes (u "x"), Bytes (u "y"))] /\ uncaught echo /\
  process {| asynchronous := true; raise_server := false; conformance := true; head := false |} (u "ab") echo = Response {| status := 201; headers := [(Bytes (u "x"), Bytes (u "y"))]; content := u "abab"; info := Some (1, 2) |}.
Proof.
  eexists. split; [|split; [|split; [|split]]].
  - apply plays_first, plays_send, plays_send, plays_send, plays_send, plays_later; [exists (Some (Bytes (u "ab"))), None; cbn; split; [tauto | discriminate]|]. apply plays_raise.
  - apply (answer_start true 201 (Some _)). apply chunks_aside; [exact I|]. change (u "abab") with (u "ab" ++ u "ab"). apply chunks_more; [left; reflexivity|]. apply chunks_last; [left; reflexivity | discriminate | constructor].
  - constructor; [|constructor]. exists (u "x"), (u "y"). cbn. intuition discriminate.
  - apply uncaught_receive. intros [b|]; [|constructor]. apply uncaught_send; [|reflexivity]. apply uncaught_send; [|reflexivity]. apply uncaught_send; [|reflexivity]. apply uncaught_send; [|reflexivity]. apply uncaught_receive. intros _. constructor.
  - vm_compute. reflexivity.
Qed.

(** * C130: the application sees the request that was made *)
(** A URL for a path, a host and perhaps a port. *)
Definition addressed (w : url) (p host : str) (port : Z) : Prop :=
  (scheme w = u "http" \/ scheme w = u "https") /\ encoded_path w = quote p /\
  ((netloc w = host /\ port = if seqb (scheme w) (u "http") then 80%Z else 443%Z) \/ exists n, netloc w = host ++ u ":" ++ dec n /\ port = Z.of_N n).
Definition host_given (hs : list (str * str)) : Prop := exists n v, In (n, v) hs /\ lower n = u "host".
Definition C130_statement : Prop :=
  forall root method w hs (st : dict (option N)) p host port, (forall x, In x p -> scalar x) -> addressed w p host port ->
  exists sc, build_scope root method w hs st = Some sc /\ s_method sc = method /\ s_root_path sc = root /\ s_scheme sc = scheme w /\
    s_path sc = p /\ s_raw_path sc = encoded_path w /\ s_query sc = (match query w with Some q => q | None => [] end) /\ s_server sc = (host, port).
Definition site (path : str) (q : option str) (netloc : str) : url := {| scheme := u "http"; netloc := netloc; encoded_path := path; query := q |}.
(** The path is decoded twice: /100%25 arrives as it should, but /%2541 arrives as /A. *)
Theorem C130_refuted : ~ C130_statement.
Proof.
  intros H. destruct (H [] (u "GET") (site (u "/%2541") None (u "testserver")) [] [] (u "/%41") (u "testserver") 80%Z) as (sc & E & _ & _ & _ & P & _).
  - intros x I. left. cbn in I. repeat (destruct I as [<-|I]; [lia|]). destruct I.
  - refine (conj (or_introl eq_refl) (conj _ (or_introl (conj eq_refl eq_refl)))). vm_compute. reflexivity.
  - vm_compute in E. injection E as <-. vm_compute in P. discriminate.
Qed.
Print Assumptions C130_refuted.
(** raw_path contains the query string, against the ASGI specification. *)
Theorem C130_raw_path_refuted : exists sc : scope (option N), build_scope [] (u "GET") (site (u "/a") (Some (u "x=1")) (u "testserver")) [] [] = Some sc /\ s_raw_path sc = u "/a?x=1".
Proof. eexists. split; vm_compute; reflexivity. Qed.
Print Assumptions C130_raw_path_refuted.
(** An IPv6 address as a host fails. *)
Theorem C130_ipv6_refuted : build_scope [] (u "GET") (site (u "/") None (u "[::1]:8000")) [] ([] : dict (option N)) = None.
Proof. vm_compute. reflexivity. Qed.
Print Assumptions C130_ipv6_refuted.
Lemma unquote_bytes_quote l : (forall b, In b l -> b < 256) -> unquote_bytes (flat_map quote_char l) = l.
Proof.
  induction l as [|b l IH]; intros H; [reflexivity|]. cbn [flat_map]. unfold quote_char at 1. destruct (N.eqb_spec b 47) as [->|E].
  - cbn [app unquote_bytes]. change (47 =? 37) with false. cbv iota. f_equal. apply IH. intros x I. apply H. right. exact I.
  - rewrite unquote_quote_byte by (apply H; left; reflexivity). f_equal. apply IH. intros x I. apply H. right. exact I.
Qed.
Lemma unquote_quote p : (forall x, In x p -> scalar x) -> unquote (quote p) = p.
Proof.
  intros H. unfold quote. rewrite unquote_ascii.
  - rewrite unquote_bytes_quote by (intros b I; exact (enc_bytes p b H I)). apply dec_enc, H.
  - intros x I. apply in_flat_map in I. destruct I as (b & Ib & I). unfold quote_char in I. destruct (N.eqb_spec b 47) as [->|E]; [destruct I as [<-|[]]; lia|].
    apply quote_byte_ascii in I; [lia | exact (enc_bytes p b H Ib)].
Qed.
Theorem C130_partial : forall (V : Type) root method w hs (st : dict (option V)) p host port, (forall x, In x p -> scalar x) -> addressed w p host port ->
  ~ In 37 p -> ~ In 58 host ->
  exists sc, build_scope root method w hs st = Some sc /\ s_method sc = method /\ s_root_path sc = root /\ s_scheme sc = scheme w /\
    s_path sc = p /\ (query w = None -> s_raw_path sc = encoded_path w) /\ s_query sc = (match query w with Some q => q | None => [] end) /\ s_server sc = (host, port) /\
    let sent := map (fun h => (lower (fst h), snd h)) hs in
    (host_given hs -> s_headers sc = sent) /\
    (~ host_given hs -> exists v, s_headers sc = (u "host", v) :: sent /\
       (port = (if seqb (scheme w) (u "http") then 80%Z else 443%Z) /\ v = host \/ port <> (if seqb (scheme w) (u "http") then 80%Z else 443%Z) /\ v = host ++ u ":" ++ decz port)).
Proof.
  intros V root method w hs st p host port SC (SCH & EP & NL) NP NC.
  set (d := if seqb (scheme w) (u "http") then 80%Z else 443%Z) in *.
  assert (DP : default_port (scheme w) = Some d) by (unfold d, default_port; destruct SCH as [-> | ->]; reflexivity).
  assert (HP : parse_host_and_port (netloc w) (scheme w) = Some (host, port, d)).
  { unfold parse_host_and_port. rewrite DP. destruct NL as [[-> ->]|(n & -> & ->)].
    - rewrite (proj2 (split1_none 58 host) NC). reflexivity.
    - change (host ++ u ":" ++ dec n) with (host ++ 58 :: dec n). rewrite (split1_app 58 host (dec n) NC), int_parse_dec0. reflexivity. }
  unfold build_scope. rewrite HP. destruct (inject_user st) as [user st']. eexists. split; [reflexivity|]. cbn [s_method s_root_path s_scheme s_path s_raw_path s_query s_server s_headers].
  refine (conj eq_refl (conj eq_refl (conj eq_refl (conj _ (conj _ (conj eq_refl (conj eq_refl _))))))).
  - unfold url_path. rewrite EP, unquote_quote by exact SC. apply unquote_plain, NP.
  - intros ->%eq_sym || intros Q. unfold url_raw_path. rewrite Q. apply app_nil_r.
  - assert (GI : existsb (fun h => seqb (lower (fst h)) (u "host")) hs = true <-> host_given hs).
    { rewrite existsb_exists. unfold host_given. split; [intros ((n & v) & I & E); apply seqb_eq in E; eauto | intros (n & v & I & E); exists (n, v); split; [exact I | apply seqb_eq, E]]. }
    cbv zeta. unfold build_headers. split; intros G.
    + rewrite (proj2 GI G). reflexivity.
    + destruct (existsb _ hs); [destruct (G (proj1 GI eq_refl))|]. destruct (Z.eqb_spec port d) as [E|E]; eexists; (split; [reflexivity|]); auto.
Qed.
Print Assumptions C130_partial.
Example C130_case : addressed (site (quote (u "/a b")) None (u "testserver:8000")) (u "/a b") (u "testserver") 8000 /\ ~ host_given [(u "X-Y", u "1")] /\
  option_map s_headers (build_scope [] (u "GET") (site (quote (u "/a b")) None (u "testserver:8000")) [(u "X-Y", u "1")] ([] : dict (option N))) = Some [(u "host", u "testserver:8000"); (u "x-y", u "1")].
Proof.
  refine (conj (conj (or_introl eq_refl) (conj eq_refl (or_intror _))) (conj _ _)).
  - exists 8000. split; vm_compute; reflexivity.
  - intros (n & v & [[= <- <-]|[]] & E). vm_compute in E. discriminate.
  - vm_compute. reflexivity.
Qed.

(** * C131: the authenticated user *)
Section Users.
Context {V : Type}.
Implicit Types (d : dict (option V)).
Definition effective d : option V := match dget auth_key d with Some (Some w) => Some w | _ => None end.
Definition op_ind' (P : @op V -> Prop) (HA : forall w, P (Authenticate w)) (HL : P Logout) (HR : P Request) (HF : P Fail) (HW : forall w l, Forall P l -> P (With w l)) : forall o, P o :=
  fix go o := match o with
  | Authenticate w => HA w | Logout => HL | Request => HR | Fail => HF
  | With w l => HW w l ((fix each l : Forall P l := match l with [] => Forall_nil _ | o :: r => Forall_cons _ (go o) (each r) end) l)
  end.
Lemma effective_set w d : effective (dset auth_key w d) = w.
Proof. unfold effective. rewrite dget_dset_same. destruct w; reflexivity. Qed.
Lemma effective_del d : NoDup (dkeys d) -> effective (ddel auth_key d) = None.
Proof. intros D. unfold effective. rewrite dget_ddel_same. reflexivity. Qed.
Definition agrees (o : @op V) : Prop := forall d, let '(d', seen, failed) := perform o d in users o (effective d) = (effective d', seen, failed).
Lemma agrees_all l : Forall agrees l -> forall d, let '(d', seen, failed) := perform_all l d in users_all l (effective d) = (effective d', seen, failed).
Proof.
  induction 1 as [|o l A F IH]; intros d; [reflexivity|]. cbn [perform_all users_all]. specialize (A d). destruct (perform o d) as [[d1 s1] f1]. rewrite A. destruct f1; [reflexivity|].
  specialize (IH d1). destruct (perform_all l d1) as [[d2 s2] f2]. rewrite IH. reflexivity.
Qed.
Lemma all_agree : forall o, agrees o.
Proof.
  apply op_ind'.
  - intros w d. cbn. rewrite effective_set. reflexivity.
  - intros d. cbn. unfold effective. rewrite dget_ddel_same. reflexivity.
  - intros d. cbn [perform users]. unfold inject_user, effective. destruct (dget auth_key d) as [[w|]|]; reflexivity.
  - intros d. reflexivity.
  - intros w l F d. cbn [perform users].
    change (fix all (l : list op) (d : dict (option V)) := match l with [] => (d, [], false) | o :: r => let '(d', seen, failed) := perform o d in if failed : bool then (d', seen, true) else let '(d'', seen', failed') := all r d' in (d'', seen ++ seen', failed') end) with (@perform_all V).
    change (fix all (l : list op) (current : option V) := match l with [] => (current, [], false) | o :: r => let '(now, seen, failed) := users o current in if failed : bool then (now, seen, true) else let '(after, seen', failed') := all r now in (after, seen ++ seen', failed') end) with (@users_all V).
    pose proof (agrees_all l F (dset auth_key w d)) as A. rewrite effective_set in A. destruct (perform_all l (dset auth_key w d)) as [[d1 s1] f1]. rewrite A. f_equal. f_equal.
    unfold effective at 1. destruct (dget auth_key d) as [[p|]|]; [rewrite effective_set; reflexivity|..]; unfold effective; rewrite dget_ddel_same; reflexivity.
Qed.
(** Every request finds the user that the nesting of blocks says, after any sequence of operations. *)
Theorem C131_users : forall (l : list (@op V)) d, let '(d', seen, failed) := perform_all l d in users_all l (effective d) = (effective d', seen, failed).
Proof. intros l d. apply agrees_all. apply Forall_forall. intros o _. apply all_agree. Qed.
(** A block leaves the user as it was, whatever happens in it. *)
Theorem C131_block : forall w (l : list (@op V)) d, effective (fst (fst (perform (With w l) d))) = effective d.
Proof.
  intros w l d. pose proof (all_agree (With w l) d) as A. cbn [users] in A.
  change (fix all (l : list op) (current : option V) := match l with [] => (current, [], false) | o :: r => let '(now, seen, failed) := users o current in if failed : bool then (now, seen, true) else let '(after, seen', failed') := all r now in (after, seen ++ seen', failed') end) with (@users_all V) in A.
  destruct (perform (With w l) d) as [[d1 s1] f1]. destruct (users_all l w) as [[u1 s2] f2]. injection A as E _ _. symmetry. exact E.
Qed.
Lemma some_inj {A} (x y : A) : Some x = Some y -> x = y.
Proof. congruence. Qed.
Definition C131_state_statement : Prop :=
  forall root method w hs (d : dict (option V)) sc x, build_scope root method w hs d = Some sc -> effective d = Some x -> s_user sc = Some (Some x) /\ dget (u "user") (s_state sc) = Some (Some x).
Theorem C131_partial : forall root method w hs (d : dict (option V)) sc x, build_scope root method w hs d = Some sc -> effective d = Some x ->
  s_user sc = Some (Some x) /\ (dget (u "user") d = None -> dget (u "user") (s_state sc) = Some (Some x)) /\ (forall n, n <> u "user" -> dget n (s_state sc) = dget n d).
Proof.
  intros root method w hs d sc x E F. unfold build_scope in E. destruct (parse_host_and_port _ _) as [[[host port] dp]|]; [|discriminate]. unfold inject_user, effective in *.
  destruct (dget auth_key d) as [[y|]|]; [|discriminate..]. injection F as ->. apply some_inj in E. subst sc. cbn [s_user s_state option_map]. refine (conj eq_refl (conj _ _)).
  - intros ->. apply dget_dset_same.
  - intros n N. destruct (dget (u "user") d); [reflexivity|]. apply dget_dset_other, N.
Qed.
Theorem C131_anonymous : forall root method w hs (d : dict (option V)) sc, build_scope root method w hs d = Some sc -> effective d = None -> s_user sc = None /\ s_state sc = d.
Proof.
  intros root method w hs d sc E F. unfold build_scope in E. destruct (parse_host_and_port _ _) as [[[host port] dp]|]; [|discriminate]. unfold inject_user, effective in *.
  destruct (dget auth_key d) as [[y|]|]; [discriminate|..]; injection E as <-; auto.
Qed.
End Users.
Print Assumptions C131_users.
Print Assumptions C131_block.
Print Assumptions C131_partial.
Print Assumptions C131_anonymous.
(** If the lifespan left a user in the state, scope["user"] and scope["state"]["user"] differ. *)
Theorem C131_refuted : ~ @C131_state_statement N.
Proof.
  intros H. destruct (H [] (u "GET") (site (u "/") None (u "t")) [] [(u "user", Some 1); (auth_key, Some 2)] _ 2 eq_refl eq_refl) as [_ E]. vm_compute in E. discriminate.
Qed.
Print Assumptions C131_refuted.
Example C131_case : perform_all [Authenticate (Some 1); Request; With (Some 2) [Request; With (Some 3) [Logout; Request]; Request; Fail; Request]; Request] [] = ([(auth_key, Some 1)], [Some 1; Some 2; None; Some 2], true).
Proof. vm_compute. reflexivity. Qed.

(** * C132: cookies of a test client *)
Definition proper_requests (l : list (option (dict str) * (dict str -> dict str))) : Prop := Forall (fun r => (forall g, fst r = Some g -> NoDup (dkeys g)) /\ forall d, NoDup (dkeys (snd r d))) l.
Definition C132_statement : Prop := forall jar l, NoDup (dkeys jar) -> proper_requests l -> exists jar', browses (fun n => dget n jar) l (fst (session jar l)) jar' /\ forall n, jar' n = dget n (snd (session jar l)).
(** A cookie that the response to a request with cookies of its own sets is lost. *)
Theorem C132_refuted : ~ C132_statement.
Proof.
  intros H. destruct (H [] [(Some [(u "lang", u "en")], fun _ => [(u "sid", u "1")])] (NoDup_nil _)) as (jar' & B & E).
  - constructor; [|constructor]. cbn. split; [intros g [= <-] | intros _]; repeat constructor; cbn; intuition discriminate.
  - inversion B as [|? ? ? ? ? ? ? S B2]; subst. inversion B2; subst. specialize (E (u "sid")). vm_compute in E. discriminate.
Qed.
Print Assumptions C132_refuted.
Lemma session_cons jar g a r : session jar ((g, a) :: r) = (fst (request_cookies jar g a) :: fst (session (snd (request_cookies jar g a)) r), snd (session (snd (request_cookies jar g a)) r)).
Proof. cbn [session]. destruct (request_cookies jar g a) as [x y]. cbn [fst snd]. destruct (session y r). reflexivity. Qed.
Lemma browses_ext l : forall jar sents jar1 jar', browses jar l sents jar1 -> (forall n, jar n = jar' n) -> exists jar2, browses jar' l sents jar2 /\ forall n, jar2 n = jar1 n.
Proof.
  induction l as [|(g, a) l IH]; intros jar sents jar1 jar' B E; inversion B; subst.
  - exists jar'. split; [constructor | intros n; symmetry; apply E].
  - destruct (IH (over (a sent) jar) sents0 jar1 (over (a sent) jar') H6) as (jar2 & B2 & E2); [ intros n; unfold over; destruct (dget n (a sent)); [reflexivity | apply E]|].
    exists jar2. split; [|exact E2]. constructor; [|exact B2]. intros n. rewrite H5. destruct g as [g|]; unfold over; [destruct (dget n g); [reflexivity|]|]; apply E.
Qed.
(** Without that, cookies are sent and kept as by a browser; those given with one request are not kept. *)
Theorem C132_partial : forall l jar, NoDup (dkeys jar) -> proper_requests l -> Forall (fun r => fst r <> None -> forall d, snd r d = []) l ->
  exists jar', browses (fun n => dget n jar) l (fst (session jar l)) jar' /\ forall n, jar' n = dget n (snd (session jar l)).
Proof.
  induction l as [|(g, a) l IH]; intros jar D PR F.
  - exists (fun n => dget n jar). split; [constructor | reflexivity].
  - inversion PR as [|? ? [P1 P2] PR']; subst. inversion F as [|? ? F1 F2]; subst. cbn [fst snd] in *. rewrite session_cons. cbn [fst snd].
    assert (X : NoDup (dkeys (snd (request_cookies jar g a))) /\ (forall n, dget n (fst (request_cookies jar g a)) = match g with Some g => over g (fun n => dget n jar) n | None => dget n jar end) /\
      forall n, dget n (snd (request_cookies jar g a)) = over (a (fst (request_cookies jar g a))) (fun n => dget n jar) n).
    { destruct g as [g|]; cbn [request_cookies fst snd].
      - replace (filter (fun _ => false) (dupdate (dupdate jar g) (a (dupdate jar g)))) with (@nil (str * str)) by (symmetry; induction (dupdate _ _) as [|x q IHq]; [reflexivity | exact IHq]).
        rewrite (CookieProofs.dupdate_nodup jar D). refine (conj D (conj _ _)); intros n.
        + rewrite PathIncProofs.dget_dupdate by (apply P1; reflexivity). reflexivity.
        + rewrite F1 by discriminate. reflexivity.
      - refine (conj _ (conj (fun n => eq_refl) _)); [apply RouterDeferProofs.NoDup_dupdate, D|]. intros n. rewrite PathIncProofs.dget_dupdate by apply P2. reflexivity. }
    destruct X as (X1 & X2 & X3). destruct (IH _ X1 PR' F2) as (jar1 & B & E). destruct (browses_ext _ _ _ _ _ B X3) as (jar2 & B2 & E2).
    exists jar2. split; [constructor; assumption | intros n; rewrite E2; apply E].
Qed.
Print Assumptions C132_partial.
Example C132_case : let l := [(None, fun _ => [(u "sid", u "1")]); (Some [(u "lang", u "en")], fun _ => []); (None, fun _ => [(u "a", u "b")])] in
  proper_requests l /\ session [] l = ([[]; [(u "sid", u "1"); (u "lang", u "en")]; [(u "sid", u "1")]], [(u "sid", u "1"); (u "a", u "b")]).
Proof. cbv zeta. split; [|vm_compute; reflexivity]. repeat apply Forall_cons; [..|apply Forall_nil]; cbn; (split; [intros g [= <-] || intros g E; try discriminate E | intros _]); repeat constructor; cbn; intuition discriminate. Qed.
