(** C95: permissions are enforced. C96: the shortcut of an application with one path changes nothing.
    C97: an application configured step by step is the application made at once. *)
From Verif Require Import PyStr Asgi ExcModel DispModel DispSpec DispProofs PyStrFacts.

(** What stays true of an application. *)
Record kept (c : config) (a : appl) : Prop := {
  k_perms : perms a = c_perms c;
  k_routes : exists added, routes a = c_routes c ++ added;
  k_fast : forall r, fast_route a = Some r -> one_fixed_path c /\ c_routes c = [r] /\ mids a = [] /\ handlers a = [] /\ debug a = false /\ intercept a = false;
  k_built : forall b, built a = Some b -> fst b = mids a }.
Lemma kept_make c : kept c (construct c).
Proof.
  constructor; cbn; try easy.
  - exists []. now rewrite app_nil_r.
  - unfold compute_fast_route, compute_fast_http. intros r H.
    destruct (c_debug c) eqn:D; [discriminate|]. destruct (c_handlers c) eqn:Hh; [|discriminate].
    destruct (c_mids c) eqn:M; [|discriminate]. destruct (c_intercept c) eqn:I; [discriminate|].
    destruct (c_settings c) eqn:St; [discriminate|]. cbn in H.
    destruct (c_routes c) as [|r0 [|]] eqn:Rs; try discriminate. destruct (r_params r0) eqn:P; [discriminate|]. injection H as <-.
    repeat split; auto. exists r0. auto.
Qed.
Lemma kept_step w c a o : kept c a -> kept c (fst (step w a o)).
Proof.
  intros [P (l & Rs) F B].
  destruct o as [m|p|k h|r|n d| |q]; cbn.
  - destruct (built a) eqn:E; cbn; constructor; cbn; eauto; rewrite ?E; try easy; eauto.
  - constructor; cbn; eauto.
  - constructor; cbn; eauto. discriminate.
  - constructor; cbn; eauto. rewrite Rs. exists (l ++ [r]). now rewrite app_assoc.
  - constructor; cbn; eauto.
  - constructor; cbn; eauto.
  - unfold dispatch. destruct (fast_http a), (fast_route a) eqn:Fr; cbn.
    all: constructor; cbn; rewrite ?Fr; eauto.
    all: destruct (built a) as [b'|] eqn:E; cbn; intros b [= <-]; cbn; auto.
Qed.
Lemma kept_history w c os : forall a, kept c a -> kept c (fst (history w a os)).
Proof.
  induction os as [|o os IH]; cbn; intros a K; [exact K|].
  destruct (step w a o) as [a' x] eqn:E. pose proof (kept_step w c a o K) as K'. rewrite E in K'. cbn in K'.
  specialize (IH a' K'). destruct (history w a' os). exact IH.
Qed.
Lemma answer_cases w c os q r : answer_after w c os q r ->
  let a := fst (history w (construct c) os) in
  (exists r0, fast_route a = Some r0 /\ r = fast w a r0 q) \/
  (exists t, r = general w a (mids a) t q).
Proof.
  intros H a. unfold answer_after in H. fold a in H. pose proof (kept_history w c os _ (kept_make c)) as K. fold a in K.
  cbn in H. unfold dispatch in H. destruct (fast_http a), (fast_route a) eqn:F; cbn in H; injection H as <-; eauto; right;
    destruct (built a) as [b|] eqn:B; cbn; eauto; rewrite <- (k_built _ _ K _ B); eauto.
Qed.

(** ** C95 *)
Definition C95_statement : Prop := forall w c os q r, answer_after w c os q r ->
  asked w q Perm (c_perms c) (events r).

(** An application with anything but one fixed path enforces its permissions. *)
Theorem C95_permissions_partial : forall w c os q r, ~ one_fixed_path c -> answer_after w c os q r ->
  asked w q Perm (c_perms c) (events r).
Proof.
  intros w c os q r N H. pose proof (kept_history w c os _ (kept_make c)) as K.
  destruct (answer_cases _ _ _ _ _ H) as [(r0 & F & _) | (t & ->)].
  - destruct (k_fast _ _ K _ F) as [O _]. contradiction.
  - rewrite <- (k_perms _ _ K). apply general_perms.
Qed.
Print Assumptions C95_permissions_partial.

(** The permissions and middlewares of a path are always enforced. *)
Theorem C95_path : forall w c os q r, answer_after w c os q r ->
  exists added, route_asked w q (c_routes c ++ added) (events r).
Proof.
  intros w c os q r H. pose proof (kept_history w c os _ (kept_make c)) as K.
  destruct (k_routes _ _ K) as (l & E). exists l. rewrite <- E.
  destruct (answer_cases _ _ _ _ _ H) as [(r0 & F & ->) | (t & ->)].
  - apply fast_route_asked. rewrite E. destruct (k_fast _ _ K _ F) as (_ & -> & _). now left.
  - apply general_route.
Qed.
Print Assumptions C95_path.

(** Middlewares are always in front. *)
Theorem C95_middlewares : forall w c os q r, answer_after w c os q r -> asked w q Mid (c_mids c) (events r).
Proof.
  intros w c os q r H. pose proof (kept_history w c os _ (kept_make c)) as K.
  assert (Sub : forall os a, (forall n, In n (c_mids c) -> In n (mids a)) -> forall n, In n (c_mids c) -> In n (mids (fst (history w a os)))).
  { clear. induction os as [|o os IH]; cbn; intros a S n I; [auto|].
    destruct (step w a o) as [a' x] eqn:E. specialize (IH a'). destruct (history w a' os) as [a'' xs]. cbn in *. apply IH; auto.
    intros n' I'. specialize (S n' I'). destruct o as [m|p|k h|r|nm d| |q]; cbn in E; try (injection E as <- _; exact S).
    - destruct (built a); injection E as <- _; cbn; auto.
    - unfold dispatch in E. destruct (fast_http a), (fast_route a); injection E as <- _; exact S. }
  specialize (Sub os (construct c) (fun n I => I)).
  destruct (answer_cases _ _ _ _ _ H) as [(r0 & F & _) | (t & ->)].
  - destruct (k_fast _ _ K _ F) as (_ & _ & M & _). intros t1 t2 h ov _ n I. specialize (Sub n I). rewrite M in Sub. destruct Sub.
  - intros t1 t2 h ov E n I. eapply general_mids; eauto.
Qed.
Print Assumptions C95_middlewares.

(** Cases. A world: guard 1 refuses, callbacks do nothing, the handlers answer 200, except that
    the handler 7 raises a 418, and 8 defers. *)
Definition error (id : nat) (mro : list nat) (s : sattr) : exc := {| e_id := id; e_mro := mro; e_status := s; e_text := u "Oops"; e_response := None |}.
Definition ok : list amsg := [AStart 200 []; ABody (u "ok") false].
Definition denied : exc := error 1 [cHTTP; cException] (Has 403).
Definition ex_env : env :=
  {| acts := fun n e => Gives [AStart (Z.of_nat (900 + n)) []; ABody [] false] None; coroutine := fun _ => false;
     heads := fun _ => []; shown := fun _ => u "Internal Server Error"; py_error := error 0 [cException] NoAttr |}.
Definition ex_world : world :=
  {| guard := fun n _ => if Nat.eqb n 1 then Refuse denied else Pass; callback := fun _ _ => None;
     endpoint := fun h _ _ => if Nat.eqb h 7 then ([], Err (error 7 [cHTTP; cException] (Has 418))) else if Nat.eqb h 8 then ([], Defer) else (ok, Done);
     w_env := ex_env; moved := fun _ => [AStart 307 []; ABody [] false];
     not_found := error 2 [cHTTP; cException] (Has 404); not_allowed := fun _ => error 3 [cHTTP; cException] (Has 405) |}.
Definition fixed (h : nat) (p : str) : route :=
  {| r_path := p; r_params := false; r_fits := fun _ => false; r_methods := [u "GET"; u "HEAD"]; r_handler := h; r_wrapped := true;
     r_mids := []; r_perms := []; r_before := []; r_after := []; r_handlers := [] |}.
Definition with_routes (ps : list nat) (rs : list route) : config :=
  {| c_debug := false; c_intercept := false; c_settings := false; c_handlers := []; c_mids := []; c_perms := ps;
     c_before := []; c_after := []; c_routes := rs; c_slashes := true |}.
Definition get (p : str) : req := {| q_method := u "GET"; q_path := p; q_root := [] |}.
Definition post (p : str) : req := {| q_method := u "POST"; q_path := p; q_root := [] |}.

(** With two routes the refusing permission answers 403; with one, it is not even asked. *)
Example C95_case : answers ex_world (with_routes [1] [fixed 0 (u "/"); fixed 5 (u "/b")]) [Request (get (u "/"))]
  = [Served (R [Perm 1] [AStart 403 []; ABody (u "Oops") false] Done)].
Proof. reflexivity. Qed.
Theorem C95_refuted : ~ C95_statement.
Proof.
  intros H. destruct (H ex_world (with_routes [1] [fixed 0 (u "/")]) [] (get (u "/")) (R [Ran 0 []] ok Done) eq_refl [] [] 0 [] eq_refl 1) as [X _]; [now left | discriminate].
Qed.
Print Assumptions C95_refuted.

(** ** C96 *)
Definition C96_statement : Prop := forall w c os, sensible w -> one_fixed_path c ->
  Forall2 same_answer (answers w c os) (answers w (with_settings c) os).

(** The exceptions that meet the framework's own handlers. *)
Lemma lookup_none e : ~ off_topic e -> lookup (tables []) e = if is_http e then Some HttpDefault else None.
Proof.
  unfold lookup, tables, is_http, off_topic. cbn [fold_left fst snd aget]. intros W.
  replace (if existsb (Nat.eqb cHTTP) (e_mro e) then None else None) with (@None handler) by (now destruct (existsb _ _)).
  induction (e_mro e) as [|x l IH]; [easy|].
  cbn [by_class aget existsb]. rewrite (Nat.eqb_sym x cHTTP). destruct (Nat.eqb cHTTP x) eqn:E; [easy|].
  destruct (Nat.eqb x cWS) eqn:Ew; [apply Nat.eqb_eq in Ew; subst x; exfalso; apply W; now left|].
  cbn [orb]. rewrite IH; [easy | intros X; apply W; now right].
Qed.
Definition alike (x y : res) : Prop := events x = events y /\ messages x = messages y /\ (ends x = Done <-> ends y = Done).
Definition settled (en : env) (r : res) : res :=
  on_errors (server_error en false None) (on_errors (exception_middleware en []) r).
Lemma default_gives en e : exists ms, http_default en e = Gives ms None.
Proof. unfold http_default. destruct (e_response e); [eauto|]. destruct (match e_status e with Has _ => _ | _ => _ end); eauto. Qed.
(** Both ways settle an exception alike. *)
Lemma settle w r : (forall e, ends r = Err e -> ~ off_topic e) ->
  alike (on_errors (fast_errors w) r) (settled (w_env w) r).
Proof.
  destruct r as [ev ms [|e|]]; intros W; [split; [easy | split; easy] | | split; [easy | split; easy]].
  specialize (W e eq_refl). unfold settled, on_errors. cbn [ends messages events].
  unfold fast_errors, exception_middleware. rewrite (lookup_none e W).
  destruct (started ms) eqn:S.
  - destruct (is_http e); unfold alike; cbn -[started]; rewrite ?S; cbn; repeat split; easy.
  - destruct (is_http e).
    + cbn [act]. destruct (default_gives (w_env w) e) as (ms' & ->). unfold alike; cbn -[started]. repeat split; easy.
    + unfold alike; cbn -[started]; rewrite ?S; cbn; repeat split; easy.
Qed.

Definition tame_end (o : ending) : Prop := match o with Err e => ~ off_topic e | _ => True end.
Lemma tame_calls w k ids q : sensible w -> tame_end (ends (calls w k ids q)) /\ ends (calls w k ids q) <> Defer.
Proof.
  intros S. induction ids as [|n ids IH]; cbn; [easy|]. destruct (callback w n q) eqn:E; cbn; [|exact IH].
  split; [eapply s_callback; eauto | easy].
Qed.
Lemma tame_guards w k ids q inner : sensible w -> tame_end (ends inner) -> tame_end (ends (guards w k ids q inner)).
Proof.
  intros S I. induction ids as [|n ids IH]; cbn; [exact I|]. destruct (guard w n q) eqn:E; cbn; auto. eapply s_guard; eauto.
Qed.
Lemma tame_bind a b : tame_end (ends a) -> tame_end (ends b) -> tame_end (ends (bind a b)).
Proof. unfold bind. destruct (ends a) eqn:E; cbn; auto; now rewrite E. Qed.

Lemma route_nothing en r : route_handlers en [] r = r.
Proof. destruct r as [ms [e|]]; cbn; [|easy]. destruct (e_status e); reflexivity. Qed.
Lemma on_nothing en r : on_errors (route_handlers en []) r = r.
Proof. unfold on_errors. destruct r as [ev ms [|e|]]; cbn [ends messages events]; auto. now rewrite route_nothing. Qed.

Section Alike.
  Variable w : world.
  Hypothesis S : sensible w.

  (** What the wrapper of a function makes of its exceptions is what the outer handlers make of them. *)
  Lemma settled_wrapper h : tame_end (ends h) -> alike (settled (w_env w) h) (settled (w_env w) (wrapper w (Some ([], None)) h)).
  Proof.
    destruct h as [ev ms [|e|]]; cbn [ends tame_end]; intros T; try (split; [easy | split; easy]).
    unfold wrapper. unfold on_errors at 1. cbn [ends messages events].
    unfold endpoint_wrapper. rewrite (lookup_none e T). destruct (is_http e) eqn:Hh.
    - cbn [act]. destruct (default_gives (w_env w) e) as (ms' & D). destruct (started ms) eqn:St.
      + rewrite D. split; [easy | split; easy].
      + rewrite D. cbn [respond]. unfold settled, on_errors. cbn [ends messages events]. unfold exception_middleware.
        rewrite (lookup_none e T), Hh, St. cbn [act]. rewrite D. cbn. repeat split; easy.
    - destruct (started ms); split; try easy; split; easy.
  Qed.
  Lemma alike_refl x : alike x x. Proof. repeat split; auto. Qed.
  Lemma alike_trans x y z : alike x y -> alike y z -> alike x z.
  Proof. intros (A & B & C) (D & E & F). repeat split; try congruence; tauto. Qed.
  Lemma alike_sym x y : alike x y -> alike y x.
  Proof. intros (A & B & C). repeat split; try congruence; tauto. Qed.

  (** Settling goes through what stands in front. *)
  Lemma settled_guards k ids q h h' : alike (settled (w_env w) h) (settled (w_env w) h') ->
    alike (settled (w_env w) (guards w k ids q h)) (settled (w_env w) (guards w k ids q h')).
  Proof.
    intros A. induction ids as [|n ids IH]; cbn; [exact A|]. destruct (guard w n q); try apply alike_refl.
    assert (Cons : forall (x : event) r, settled (w_env w) (R (x :: events r) (messages r) (ends r)) =
      R (x :: events (settled (w_env w) r)) (messages (settled (w_env w) r)) (ends (settled (w_env w) r))).
    { intros x [ev ms [|e|]]; try reflexivity. unfold settled, on_errors. cbn [ends messages events].
      destruct (exception_middleware _ _ _) as [ms1 [e1|]]; cbn [ends messages events]; [|reflexivity].
      destruct (server_error _ _ _ _) as [ms2 [e2|]]; reflexivity. }
    rewrite !Cons. destruct IH as (E1 & E2 & E3). split; [cbn; congruence | split; [exact E2 | exact E3]].
  Qed.
  Lemma server_first a r : server_error a false None (fst r, snd r) = server_error a false None r.
  Proof. now destruct r. Qed.
  Lemma settled_before b h h' : messages b = [] -> alike (settled (w_env w) h) (settled (w_env w) h') ->
    alike (settled (w_env w) (bind b h)) (settled (w_env w) (bind b h')).
  Proof.
    destruct b as [ev ms o]. cbn. intros -> A. unfold bind. destruct o; cbn [ends]; try apply alike_refl. cbn [events messages ends app].
    assert (Cons : forall r, settled (w_env w) (R (ev ++ events r) (messages r) (ends r)) =
      R (ev ++ events (settled (w_env w) r)) (messages (settled (w_env w) r)) (ends (settled (w_env w) r))).
    { intros [ev' ms' [|e|]]; try reflexivity. unfold settled, on_errors. cbn [ends messages events].
      destruct (exception_middleware _ _ _) as [ms1 [e1|]]; cbn [ends messages events]; [|reflexivity].
      destruct (server_error _ _ _ _) as [ms2 [e2|]]; reflexivity. }
    rewrite !Cons. destruct A as (E1 & E2 & E3). split; [cbn; congruence | split; [exact E2 | exact E3]].
  Qed.
  Lemma calls_silent k ids q : messages (calls w k ids q) = [].
  Proof. induction ids as [|n ids IH]; cbn; [easy|]. now destruct (callback w n q). Qed.
  Lemma bind_nothing r : bind r (R [] [] Done) = r.
  Proof. destruct r as [ev ms [|e|]]; cbn; [now rewrite !app_nil_r | easy | easy]. Qed.
  Lemma nothing_bind r : bind (R [] [] Done) r = r.
  Proof. now destruct r. Qed.

  (** A path without handlers and callbacks of its own after the handler. *)
  Definition simple (r : route) : Prop := r_handlers r = [] /\ r_after r = [].
  Definition answering (r : route) (q : req) : Prop := forall ms e, endpoint w (r_handler r) q [] <> (ms, Err e).

  Lemma dispatch_tame r q : tame_end (ends (handle_dispatch w None [] r q)).
  Proof.
    unfold handle_dispatch. destruct (wrong_method r q); [apply (s_not_allowed w S)|].
    destruct (endpoint w (r_handler r) q []) as [ms o] eqn:E.
    assert (T : tame_end o) by (destruct o; cbn; auto; eapply (s_endpoint w S); eauto).
    set (h := if r_wrapped r then _ else _). assert (Th : tame_end (ends h)) by (unfold h; now destruct (r_wrapped r)).
    set (b := bind _ _). assert (Tb : tame_end (ends b)).
    { unfold b. apply tame_bind; [apply tame_calls, S|]. apply tame_bind; [|apply tame_calls, S]. apply tame_guards, tame_guards; auto. }
    clearbody b. unfold on_errors. destruct b as [ev m [|e|]]; auto. cbn [ends messages events].
    unfold route_handlers. destruct (match (match e_status e with NoAttr => _ | _ => _ end) with Some n => _ | None => _ end) as [n|]; [|exact Tb].
    destruct (coroutine _ n); [apply (s_python w S)|]. destruct (acts (w_env w) n e) as [m' [e'|]|e'] eqn:A; cbn; auto; eapply (s_handler w S); eauto.
  Qed.
  Lemma dispatch_alike r q : r_params r = false -> simple r \/ answering r q ->
    alike (settled (w_env w) (handle_dispatch w None [] r q)) (settled (w_env w) (handle_dispatch w (Some ([], None)) [] r q)).
  Proof.
    intros _ D. unfold handle_dispatch. destruct (wrong_method r q); [apply alike_refl|].
    destruct (endpoint w (r_handler r) q []) as [ms o] eqn:E.
    assert (T : tame_end o) by (destruct o; cbn; auto; eapply (s_endpoint w S); eauto).
    destruct (r_wrapped r); [|apply alike_refl].
    destruct D as [[-> ->] | D].
    - cbn [wrapper]. rewrite !on_nothing. cbn [calls]. rewrite !bind_nothing.
      apply settled_before; [apply calls_silent|]. apply settled_guards, settled_guards.
      apply (settled_wrapper (R [Ran (r_handler r) []] ms o)). exact T.
    - destruct o as [|e|]; [apply alike_refl | exfalso; eapply D; eauto | apply alike_refl].
  Qed.
End Alike.

(** Requests to an application with one fixed path, no permissions, callbacks and overrides; the path has
    no handlers and no callbacks after it, or its handler raises nothing; it does not defer. *)
Record undisturbed (w : world) (c : config) (r : route) (q : req) : Prop := {
  u_routes : c_routes c = [r]; u_perms : c_perms c = []; u_before : c_before c = []; u_after : c_after c = [];
  u_simple : (r_handlers r = [] /\ r_after r = []) \/ (forall ms e, endpoint w (r_handler r) q [] <> (ms, Err e));
  u_defer : forall ms, endpoint w (r_handler r) q [] <> (ms, Defer) }.

Lemma not_defer w t r q : sensible w -> (forall ms, endpoint w (r_handler r) q [] <> (ms, Defer)) ->
  ends (handle_dispatch w t [] r q) <> Defer.
Proof.
  intros S N. unfold handle_dispatch. destruct (wrong_method r q); [discriminate|].
  destruct (endpoint w (r_handler r) q []) as [ms o] eqn:E.
  set (h := if r_wrapped r then _ else _).
  assert (On : forall f x, ends x <> Defer -> ends (on_errors f x) <> Defer).
  { intros f x X. unfold on_errors. destruct (ends x) eqn:Ex; try (now rewrite Ex). destruct (f _) as [m [e'|]]; discriminate. }
  assert (Hd : ends h <> Defer).
  { unfold h. assert (o <> Defer) by (intros ->; eapply N; eauto). destruct (r_wrapped r); [|exact H]. unfold wrapper. destruct t as [[t' eh]|]; auto. }
  apply On. unfold bind at 1. destruct (ends (calls w Before (r_before r) q)) eqn:B; [cbn | now rewrite B |].
  2:{ exfalso. now apply (proj2 (tame_calls w Before (r_before r) q S)). }
  assert (G : ends (guards w Mid (r_mids r) q (guards w Perm (r_perms r) q h)) <> Defer).
  { assert (Gd : forall k ids x, ends x <> Defer -> ends (guards w k ids q x) <> Defer).
    { intros k ids x X. induction ids as [|n ids IH]; cbn; [exact X|]. destruct (guard w n q); cbn; auto; discriminate. }
    now apply Gd, Gd. }
  unfold bind. destruct (ends (guards w Mid _ q _)) eqn:Eg; cbn; [| now rewrite Eg | contradiction].
  apply (tame_calls w After (r_after r) q S).
Qed.

Theorem C96_shortcut_partial : forall w c r q, sensible w -> one_fixed_path c -> undisturbed w c r q ->
  Forall2 same_answer (answers w c [Request q]) (answers w (with_settings c) [Request q]).
Proof.
  intros w c r q S (Dbg & Int & St & Hh & M & r0 & Rs & Pr) [U1 U2 U3 U4 U5 U6].
  rewrite Rs in U1. injection U1 as ->. unfold answers, construct, with_settings.
  cbn [c_debug c_intercept c_settings c_handlers c_mids c_perms c_before c_after c_routes c_slashes].
  rewrite Dbg, Int, St, Hh, M, Rs, U2, U3, U4. cbn. unfold dispatch. cbn. rewrite Pr. cbn. constructor; [|constructor].
  match goal with |- same_answer (Served (fast w ?x r q)) (Served (general w ?y _ _ q)) =>
    set (a := x); set (a' := y); change (alike (fast w a r q) (general w a' [] [] q)) end.
  assert (G : general w a' [] [] q = settled (w_env w) (router_call w a' (Some ([], None)) q)) by reflexivity.
  assert (RC : forall t, router_call w a' t q = app_one w (c_slashes c) t [] r q).
  { intros t. transitivity (bind (R [] [] Done) (bind (app_one w (c_slashes c) t [] r q) (R [] [] Done))); [reflexivity | now rewrite nothing_bind, bind_nothing]. }
  assert (RC' : forall t, router_call w a t q = app_one w (c_slashes c) t [] r q).
  { intros t. transitivity (bind (R [] [] Done) (bind (app_one w (c_slashes c) t [] r q) (R [] [] Done))); [reflexivity | now rewrite nothing_bind, bind_nothing]. }
  rewrite G, RC. unfold fast. rewrite RC'. unfold app_one.
  destruct (seqb (route_path q) (r_path r)) eqn:Ep.
  - assert (Sx : search r q <> NoMatch) by (unfold search; rewrite Pr, Ep; destruct (wrong_method r q); discriminate).
    eapply alike_trans with (y := settled (w_env w) (handle_dispatch w (Some ([], None)) [] r q)).
    + eapply alike_trans; [|apply dispatch_alike; auto].
      apply settle. intros e He.
      pose proof (dispatch_tame w S r q) as T. rewrite He in T. exact T.
    + destruct (search r q); [contradiction | |];
        (pose proof (not_defer w (Some ([], None)) r q S U6) as Nd; destruct (ends (handle_dispatch w (Some ([], None)) [] r q)); [apply alike_refl | apply alike_refl | contradiction]).
  - assert (Sx : search r q = NoMatch) by (unfold search; now rewrite Pr, Ep).
    rewrite Sx. destruct (redirects (c_slashes c) [r] q); [apply alike_refl|]. apply settle.
    intros e [= <-]. apply (s_not_found w S).
Qed.
Print Assumptions C96_shortcut_partial.

(** Cases of C96: the hypotheses are met by a path that answers and by one that raises. *)
Lemma ex_sensible : sensible ex_world.
Proof.
  constructor; cbn; try (intros; intros [X|[X|[]]]; discriminate).
  - intros n q e. destruct (n =? 1)%nat; [|discriminate]. intros [= <-] [X|[X|[]]]; discriminate.
  - easy.
  - intros h q ov ms e. destruct (h =? 7)%nat; [intros [= <- <-] [X|[X|[]]]; discriminate|]. destruct (h =? 8)%nat; discriminate.
  - intros n e e' [X|(ms & X)]; discriminate.
  - intros [X|[]]; discriminate.
Qed.
Example C96_case : one_fixed_path (with_routes [] [fixed 7 (u "/")]) /\ undisturbed ex_world (with_routes [] [fixed 7 (u "/")]) (fixed 7 (u "/")) (get (u "/"))
  /\ answers ex_world (with_routes [] [fixed 7 (u "/")]) [Request (get (u "/"))] = [Served (R [Ran 7 []] [AStart 418 []; ABody (u "Oops") false] Done)].
Proof. split; [|split; [|reflexivity]]; [repeat split; eexists; split; reflexivity|]. constructor; try reflexivity; [now left | discriminate]. Qed.

Definition differs (c : config) (os : list op) : Prop := one_fixed_path c /\ ~ Forall2 same_answer (answers ex_world c os) (answers ex_world (with_settings c) os).
Lemma same_nth l l' : Forall2 same_answer l l' -> forall n, same_answer (nth n l Quiet) (nth n l' Quiet).
Proof. induction 1; intros [|n]; cbn; auto. Qed.
Theorem C96_refuted : ~ C96_statement.
Proof.
  intros H. specialize (H ex_world (with_routes [1] [fixed 0 (u "/")]) [Request (get (u "/"))] ex_sensible).
  assert (O : one_fixed_path (with_routes [1] [fixed 0 (u "/")])) by (repeat split; eexists; split; reflexivity).
  specialize (H O). pose proof (same_nth _ _ H 0) as X. vm_compute in X. destruct X as (E & _). discriminate.
Qed.
Print Assumptions C96_refuted.
(** Each of the other conditions is needed: a callback of the router, an overridden dependency, a handler that
    defers, a method added to the same path, a handler of exceptions of the path. *)
Definition with_callback : config :=
  {| c_debug := false; c_intercept := false; c_settings := false; c_handlers := []; c_mids := []; c_perms := [];
     c_before := [4]; c_after := []; c_routes := [fixed 0 (u "/")]; c_slashes := true |}.
Theorem C96_callbacks_refuted : differs with_callback [Request (get (u "/"))].
Proof. split; [repeat split; eexists; split; reflexivity|]. intros H. pose proof (same_nth _ _ H 0) as X. vm_compute in X. destruct X as (E & _). discriminate. Qed.
Print Assumptions C96_callbacks_refuted.
Theorem C96_overrides_refuted : differs (with_routes [] [fixed 0 (u "/")]) [Override (u "db") 9; Request (get (u "/"))].
Proof. split; [repeat split; eexists; split; reflexivity|]. intros H. pose proof (same_nth _ _ H 1) as X. vm_compute in X. destruct X as (E & _). discriminate. Qed.
Print Assumptions C96_overrides_refuted.
Theorem C96_defer_refuted : differs (with_routes [] [fixed 8 (u "/")]) [Request (get (u "/"))].
Proof. split; [repeat split; eexists; split; reflexivity|]. intros H. pose proof (same_nth _ _ H 0) as X. vm_compute in X. destruct X as (_ & E & _). discriminate. Qed.
Print Assumptions C96_defer_refuted.
Definition posted : route :=
  {| r_path := u "/"; r_params := false; r_fits := fun _ => false; r_methods := [u "POST"]; r_handler := 5; r_wrapped := true;
     r_mids := []; r_perms := []; r_before := []; r_after := []; r_handlers := [] |}.
Theorem C96_added_route_refuted : differs (with_routes [] [fixed 0 (u "/")]) [AddRoute posted; Request (post (u "/"))].
Proof. split; [repeat split; eexists; split; reflexivity|]. intros H. pose proof (same_nth _ _ H 1) as X. vm_compute in X. destruct X as (E & _). discriminate. Qed.
Print Assumptions C96_added_route_refuted.
Definition handled : route :=
  {| r_path := u "/"; r_params := false; r_fits := fun _ => false; r_methods := []; r_handler := 7; r_wrapped := true;
     r_mids := []; r_perms := []; r_before := []; r_after := []; r_handlers := [(KStatus 418, 3)] |}.
Theorem C96_path_handlers_refuted : differs (with_routes [] [handled]) [Request (get (u "/"))].
Proof. split; [repeat split; eexists; split; reflexivity|]. intros H. pose proof (same_nth _ _ H 0) as X. vm_compute in X. destruct X as (_ & E & _). discriminate. Qed.
Print Assumptions C96_path_handlers_refuted.

(** ** C97 *)
Definition C97_statement : Prop := forall w c os c' q r, all_configured c os c' ->
  answer_after w c os q r <-> answer_after w c' [] q r.

Definition is_route (o : op) : Prop := match o with AddRoute _ => True | _ => False end.
Definition is_permission (o : op) : Prop := match o with AddPermission _ => True | _ => False end.
(** The application up to its shortcut. *)
Definition no_short (a : appl) : appl :=
  {| debug := debug a; intercept := intercept a; own_settings := own_settings a; handlers := handlers a; mids := mids a;
     perms := perms a; listed := listed a; before := before a; after := after a; routes := routes a; slashes := slashes a;
     overrides := overrides a; fast_http := false; fast_route := None; built := built a |}.
Lemma configured_step w c o c1 a : configured c o c1 -> ~ is_permission o -> no_short a = no_short (construct c) ->
  no_short (fst (step w a o)) = no_short (construct c1).
Proof.
  intros D P E. assert (B : built a = None) by (apply (f_equal built) in E; exact E).
  destruct a as [a1 a2 a3 a4 a5 a6 a7 a8 a9 a10 a11 a12 a13 a14 a15]. unfold no_short, construct, make in E. cbn in E, B.
  injection E as -> -> -> -> -> -> -> -> -> -> -> -> ->. clear B.
  inversion D; subst; try (exfalso; exact (P I)); reflexivity.
Qed.
Lemma configured_all w c os c' : all_configured c os c' -> Forall (fun o => ~ is_permission o) os ->
  forall a, no_short a = no_short (construct c) -> no_short (fst (history w a os)) = no_short (construct c').
Proof.
  induction 1 as [|c o c1 os c2 D A IH]; intros P a E; cbn; [exact E|].
  inversion P; subst. destruct (step w a o) as [a' x] eqn:Ea.
  assert (E' : no_short a' = no_short (construct c1)) by (pose proof (configured_step w c o c1 a D H1 E) as X; now rewrite Ea in X).
  specialize (IH H2 a' E'). now destruct (history w a' os).
Qed.
Lemma served_general w a q : fast_route a = None -> snd (step w a (Request q)) = snd (step w (no_short a) (Request q)).
Proof. intros F. cbn. unfold dispatch. rewrite F. cbn. now destruct (fast_http a). Qed.
(** Without adding routes the application is the same in every respect. *)
Lemma configured_exactly w c os c' : all_configured c os c' -> Forall (fun o => ~ is_permission o /\ ~ is_route o) os ->
  fst (history w (construct c) os) = construct c'.
Proof.
  induction 1 as [|c o c1 os c2 D A IH]; intros P; cbn; [easy|].
  inversion P as [|? ? [P1 P2] P3]; subst. specialize (IH P3).
  assert (E : fst (step w (construct c) o) = construct c1).
  { inversion D; subst; cbn; try (exfalso; now apply P1); try (exfalso; now apply P2).
    - unfold construct, make, compute_fast_http. cbn. now rewrite !andb_false_r.
    - unfold construct, make, compute_fast_http. cbn. replace (match aset key_eqb k h (c_handlers c) with [] => true | _ => false end) with false
        by (destruct (c_handlers c) as [|[k' h'] l]; cbn; [easy | now destruct (key_eqb k k')]).
      now rewrite !andb_false_r. }
  destruct (step w (construct c) o) as [a' x]. cbn in E. subst a'. now destruct (history w (construct c1) os).
Qed.

Theorem C97_configured_partial : forall w c os c' q r, all_configured c os c' -> Forall (fun o => ~ is_permission o) os ->
  Forall (fun o => ~ is_route o) os \/ (~ one_fixed_path c /\ ~ one_fixed_path c') ->
  (answer_after w c os q r <-> answer_after w c' [] q r).
Proof.
  intros w c os c' q r A P D. unfold answer_after. cbn [history fst]. destruct D as [D|[N N']].
  - rewrite (configured_exactly w c os c' A); [easy|]. rewrite Forall_forall in *. auto.
  - assert (F : fast_route (fst (history w (construct c) os)) = None).
    { pose proof (kept_history w c os _ (kept_make c)) as K. destruct (fast_route (fst (history w (construct c) os))) as [r0|] eqn:F; [|easy].
      destruct (k_fast _ _ K _ F). contradiction. }
    assert (F' : fast_route (construct c') = None).
    { pose proof (kept_make c') as K. destruct (fast_route (construct c')) as [r0|] eqn:F'; [|easy]. destruct (k_fast _ _ K _ F'). contradiction. }
    rewrite (served_general w _ q F), (served_general w (construct c') q F').
    rewrite (configured_all w c os c' A P (construct c) eq_refl). easy.
Qed.
Print Assumptions C97_configured_partial.
(** A middleware that was accepted stands in front of the handlers from then on. *)
Theorem C97_middleware_accepted : forall w c os m os' q r,
  snd (step w (fst (history w (construct c) os)) (AddMiddleware m)) = Quiet ->
  answer_after w c (os ++ AddMiddleware m :: os') q r -> asked w q Mid [m] (events r).
Proof.
  intros w c os m os' q r Q H. pose proof (kept_history w c (os ++ AddMiddleware m :: os') _ (kept_make c)) as K.
  assert (Happ : forall os1 os2 a, fst (history w a (os1 ++ os2)) = fst (history w (fst (history w a os1)) os2)).
  { clear. induction os1 as [|o os1 IH]; intros os2 a; [easy|]. cbn. destruct (step w a o) as [a' x]. specialize (IH os2 a').
    destruct (history w a' (os1 ++ os2)), (history w a' os1). exact IH. }
  assert (Sub : forall os a n, In n (mids a) -> In n (mids (fst (history w a os)))).
  { clear. induction os as [|o os IH]; cbn; intros a n S; [auto|].
    destruct (step w a o) as [a' x] eqn:E. specialize (IH a' n). destruct (history w a' os) as [a'' xs]. cbn in *. apply IH.
    destruct o as [m|p|k h|r|nm d| |q]; cbn in E; try (injection E as <- _; exact S).
    - destruct (built a); injection E as <- _; cbn; auto.
    - unfold dispatch in E. destruct (fast_http a), (fast_route a); injection E as <- _; exact S. }
  assert (I : In m (mids (fst (history w (construct c) (os ++ AddMiddleware m :: os'))))).
  { rewrite Happ. set (a := fst (history w (construct c) os)) in *. change (AddMiddleware m :: os') with ([AddMiddleware m] ++ os').
    rewrite Happ. apply Sub. cbn in *. destruct (built a); [discriminate|]. now left. }
  destruct (answer_cases _ _ _ _ _ H) as [(r0 & F & _) | (t & ->)].
  - destruct (k_fast _ _ K _ F) as (_ & _ & M & _). rewrite M in I. destruct I.
  - intros t1 t2 h ov E n [<-|[]]. eapply general_mids; eauto.
Qed.
Print Assumptions C97_middleware_accepted.

Example C97_case : all_configured (with_routes [] [fixed 0 (u "/")]) [AddMiddleware 4; AddHandler (KStatus 418) 3]
    {| c_debug := false; c_intercept := false; c_settings := false; c_handlers := [(KStatus 418, 3)]; c_mids := [4]; c_perms := [];
       c_before := []; c_after := []; c_routes := [fixed 0 (u "/")]; c_slashes := true |}
  /\ answers ex_world (with_routes [] [fixed 7 (u "/")]) [AddMiddleware 4; AddHandler (KStatus 418) 3; Request (get (u "/"))]
     = [Quiet; Quiet; Served (R [Mid 4; Ran 7 []] [AStart 903 []; ABody [] false] Done)].
Proof. split; [|reflexivity]. econstructor; [constructor|]. econstructor; [constructor|]. constructor. Qed.

(** A permission added later is never asked. *)
Theorem C97_permission_refuted : ~ C97_statement.
Proof.
  intros H. specialize (H ex_world (with_routes [] [fixed 0 (u "/"); fixed 5 (u "/b")]) [AddPermission 1]
    (with_routes [1] [fixed 0 (u "/"); fixed 5 (u "/b")]) (get (u "/")) (R [Ran 0 []] ok Done)).
  assert (A : all_configured (with_routes [] [fixed 0 (u "/"); fixed 5 (u "/b")]) [AddPermission 1] (with_routes [1] [fixed 0 (u "/"); fixed 5 (u "/b")]))
    by (econstructor; [apply by_permission | constructor]).
  pose proof (proj1 (H A) eq_refl) as X. discriminate.
Qed.
Print Assumptions C97_permission_refuted.
(** A route added to an application with one fixed path, on the same path. *)
Theorem C97_route_refuted : ~ C97_statement.
Proof.
  intros H. specialize (H ex_world (with_routes [] [fixed 0 (u "/")]) [AddRoute posted]
    (with_routes [] [fixed 0 (u "/"); posted]) (post (u "/")) (R [Ran 5 []] ok Done)).
  assert (A : all_configured (with_routes [] [fixed 0 (u "/")]) [AddRoute posted] (with_routes [] [fixed 0 (u "/"); posted]))
    by (econstructor; [apply by_route | constructor]).
  pose proof (proj2 (H A) eq_refl) as X. discriminate.
Qed.
Print Assumptions C97_route_refuted.

(** A handler of exceptions registered after the first request. *)
Definition C97_late_statement : Prop := forall w c q1 k h q r,
  answer_after w c [Request q1; AddHandler k h] q r <-> answer_after w c [AddHandler k h] q r.
Theorem C97_late_partial : forall w c q1 k h q r, one_fixed_path c ->
  (answer_after w c [Request q1; AddHandler k h] q r <-> answer_after w c [AddHandler k h] q r).
Proof.
  intros w c q1 k h q r (Dbg & Int & St & Hh & M & r0 & Rs & Pr). unfold answer_after, construct. rewrite Dbg, Int, St, Hh, M, Rs.
  cbn. unfold dispatch. cbn. rewrite Pr. cbn. easy.
Qed.
Print Assumptions C97_late_partial.
Theorem C97_late_refuted : ~ C97_late_statement.
Proof.
  intros H. specialize (H ex_world (with_routes [] [fixed 7 (u "/"); fixed 0 (u "/b")]) (get (u "/")) (KStatus 418) 3 (get (u "/")) (R [Ran 7 []] [AStart 903 []; ABody [] false] Done)).
  pose proof (proj2 H eq_refl) as X. discriminate.
Qed.
Print Assumptions C97_late_refuted.
