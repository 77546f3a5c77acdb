(** C37, C71, C72: sessions. *)
From Verif Require Import PyStr PyStrFacts Utf8 Asgi HeaderModel HeaderSpec HeaderProofs HeaderProps CorsSpec CookieModel CookieSpec CookieProofs CookieProps Base64 SessionModel SessionSpec SessionProofs.

(** ** C37 *)
(** Whatever requests a browser makes, each finds the session the one before left, as if it was kept on
    the server until it expires. *)
Theorem C37_history_partial : forall V order (e : senv V) c vs jar now,
  set_order order -> good_senv e -> good_sconfig c ->
  NoDup (dkeys jar) -> Forall sent_pair jar -> dget (s_cookie c) jar = None ->
  in_order now vs -> Forall (fun v => serves e c (v_app v) (v_effect v)) vs ->
  browse order e c jar vs = Some (expected c None vs).
Proof.
  intros V order e c vs jar now O GE GC ND SP NS I F.
  assert (J : jar_ok jar).
  { split; [exact ND|]. eapply Forall_impl; [|exact SP]. intros p (B1 & B2 & B3 & B4 & B5).
    split; [apply strip_solid; exact B1|]. split; [exact B2|]. split; [exact B3|]. split; [apply strip_solid; exact B4 | exact B5]. }
  apply (browse_expected order e c O GE GC vs jar None now); [|exact I|exact F].
  split; [exact J|]. intros now' _. rewrite load_jar by assumption. rewrite NS. reflexivity.
Qed.
Print Assumptions C37_history_partial.

(** A cookie text that this server signed, with its payload and time. *)
Definition genuine {V} (e : senv V) (data payload : str) (t : N) : Prop :=
  exists ts sig, data = payload ++ u "." ++ ts ++ u "." ++ sig /\ ts_parse ts = Some t /\ base64_decode sig = Some (mac e (payload ++ u "." ++ ts)).
Definition in_time (max : option N) (now t : N) : Prop := forall m, max = Some m -> (t <= now /\ now <= t + m)%N.
(** Whatever cookies a request carries: the session is empty, unless the cookie is signed with the key
    over its content and time and is not too old. *)
Theorem C37_forged : forall V order (e : senv V) c now h,
  match dget (s_cookie c) (request_cookies order h) with
  | None => load_session order e c now h = Some ([], true)
  | Some data =>
      load_session order e c now h = Some ([], true)
      \/ exists payload t, genuine e (utf8_enc data) payload t /\ in_time (s_max_age c) now t
         /\ load_session order e c now h
            = match b64decode payload with None => None | Some j => match loads e j with None => None | Some s => Some (s, false) end end
  end.
Proof.
  intros V order e c now h. unfold load_session. destruct (dget (s_cookie c) (request_cookies order h)) as [data0|]; [|reflexivity].
  set (data := utf8_enc data0). clearbody data.
  destruct (unsign e now (s_max_age c) data) as [v|] eqn:U; [|left; reflexivity]. right.
  unfold unsign in U. destruct (rsplit1 46 data) as [(p, sig)|] eqn:R; [|discriminate U].
  destruct (base64_decode sig) as [x|] eqn:B; [|discriminate U]. destruct (seqb_spec x (mac e p)) as [->|]; [|discriminate U].
  destruct (rsplit1 46 p) as [(v', ts)|] eqn:R2; [|discriminate U]. destruct (ts_parse ts) as [t|] eqn:T; [|discriminate U].
  assert (RS : forall (s a b : str), rsplit1 46 s = Some (a, b) -> s = a ++ u "." ++ b).
  { intros s a b E. unfold rsplit1 in E. destruct (split1 46 (rev s)) as [(y, z)|] eqn:S1; [|discriminate E]. injection E as <- <-.
    apply split1_some in S1. destruct S1 as [S1 _]. rewrite <- (rev_involutive s), S1, rev_app_distr. cbn [rev]. rewrite <- app_assoc. reflexivity. }
  apply RS in R. apply RS in R2. subst data p.
  assert (v = v' /\ in_time (s_max_age c) now t) as [-> IT].
  { destruct (s_max_age c) as [m|].
    - destruct (N.ltb_spec (t + m) now), (N.ltb_spec now t); cbn [orb] in U; try discriminate U. injection U as <-. split; [reflexivity|].
      intros m' E. injection E as <-. lia.
    - injection U as <-. split; [reflexivity|]. intros m' E. discriminate E. }
  exists v', t. split; [|split; [exact IT|reflexivity]]. exists ts, sig. split; [rewrite <- !app_assoc; reflexivity|]. split; assumption.
Qed.
Print Assumptions C37_forged.

(** An untouched empty session sends no cookie; what the application itself sets is kept. *)
Theorem C37_untouched : forall V order (e : senv V) c now h app f s' out ok,
  set_order order -> good_sconfig c -> serves e c app f -> load_session order e c now h = Some ([], true) -> f [] = [] ->
  serve order e c now None h app = Some ([], (out, s', ok)) ->
  exists st h0 r, In (Emits (AStart st h0)) (app []) /\ out = AStart st (wire order h0) :: r /\ lines (u "set-cookie") r = [].
Proof.
  intros V order e c now h app f s' out ok O GC SV L E0. unfold serve. rewrite L. intros E.
  destruct (SV []) as (edits & st & h0 & bodies & AP & LA & ST & K & LN). rewrite AP, run_edits, LA, E0 in E. cbn [run_app] in E.
  unfold process_start in E.
  assert (F : forallb (fun l => negb (prefixb (s_cookie c ++ u "=") l)) (hgetall (u "set-cookie") h0) = true).
  { apply forallb_forall. intros l I. rewrite (own_line c GC l (LN l I)). reflexivity. }
  rewrite F, run_bodies in E. injection E as <- _ _. exists st, h0. eexists. split; [|split; [reflexivity|apply lines_bodies]].
  rewrite AP. apply in_or_app. right. left. reflexivity.
Qed.
Print Assumptions C37_untouched.
(** Clearing a session deletes the cookie in every browser. *)
Theorem C37_cleared : forall V order (e : senv V) c now h app f s jar s' out ok,
  set_order order -> good_sconfig c -> serves e c app f -> load_session order e c now h = Some (s, false) -> f s = [] ->
  serve order e c now None h app = Some (s, (out, s', ok)) -> dget (s_cookie c) (browser_after jar out) = None.
Proof.
  intros V order e c now h app f s jar s' out ok O GC SV L E0. unfold serve. rewrite L. intros E.
  destruct (SV s) as (edits & st & h0 & bodies & AP & LA & ST & K & LN). rewrite AP, run_edits, LA, E0 in E. cbn [run_app] in E.
  destruct (started order e c O GC now false [] h0 ltac:(intros X; contradiction X; reflexivity) K LN) as (h' & added & P & VA & AD).
  rewrite P, run_bodies in E. injection E as <- _ _. unfold browser_after, lines. cbn [flat_map].
  fold (lines (u "set-cookie") (map (fun b : str * bool => ABody (fst b) (snd b)) bodies)). rewrite lines_bodies, app_nil_r, VA, fold_left_app, AD.
  cbn [fold_left]. rewrite (store_deletion c GC). apply dget_ddel_same.
Qed.
Print Assumptions C37_cleared.

(** In full, the session at the end of a request is what the next one finds. *)
Definition C37_statement : Prop := forall V order (e : senv V) c now jar app s out s' app2,
  set_order order -> good_senv e -> good_sconfig c -> NoDup (dkeys jar) -> Forall sent_pair jar -> s_max_age c = None ->
  (s' <> [] -> storable e s') ->
  serve order e c now None (client_send jar) app = Some (s, (out, s', true)) -> response_complete out ->
  lines (u "set-cookie") (flat_map (fun a => match a with Emits m => [m] | Sets _ => [] end) (app s)) = [] ->
  exists r, serve order e c now None (client_send (browser_after jar out)) app2 = Some (s', r).

(** A concrete environment for the cases. *)
Definition ex_env : senv N := {|
  mac := fun p => int_to_bytes (fold_left (fun a c => a * 3 + c)%N p 7%N);
  dumps := fun d => match d with [(_, n)] => Some (int_to_bytes n) | _ => None end; loads := fun s => Some [(u "n", bytes_to_int s)] |}.
Lemma ex_good : good_senv ex_env.
Proof.
  constructor; cbn [mac dumps ex_env].
  - intros s. apply int_bytes.
  - intros [|[k n] [|]] j; intros [= <-]. apply int_bytes.
Qed.
Definition ex_config (max : option N) : sconfig :=
  {| s_cookie := u "session"; s_max_age := max; s_path := u "/"; s_same_site := u "lax"; s_https := true; s_domain := Some (u "x.org") |}.
Lemma ex_config_good max : good_sconfig (ex_config max).
Proof.
  constructor; cbn [s_cookie s_path s_same_site s_domain ex_config].
  - apply name_usable; [discriminate|reflexivity|reflexivity].
  - apply cmem_not_In. reflexivity.
  - left. reflexivity.
  - intros d E. injection E as <-. apply cmem_not_In. reflexivity.
Qed.
(** What an application does to the session after its response has started is lost. *)
Theorem C37_refuted : ~ C37_statement.
Proof.
  intros H.
  set (app := fun _ : dict N => [Emits (AStart 200 []); Sets [(u "n", 1%N)]; Emits (ABody [] false)] : list (act N)).
  destruct (H N dedup ex_env (ex_config None) 0%N [] app [] [AStart 200 []; ABody [] false] [(u "n", 1%N)] app) as (r & E).
  - exact dedup_order.
  - exact ex_good.
  - apply ex_config_good.
  - constructor.
  - constructor.
  - reflexivity.
  - intros _. exists [1%N]. split; reflexivity.
  - vm_compute. reflexivity.
  - constructor. constructor.
  - reflexivity.
  - vm_compute in E. discriminate E.
Qed.
Print Assumptions C37_refuted.

(** A visitor counts to two, is idle for too long, starts again, and logs out. *)
Definition ex_count (now : N) : visit N :=
  {| v_now := now; v_pop := None; v_effect := fun s => match dget (u "n") s with Some n => [(u "n", (n + 1)%N)] | None => [(u "n", 1%N)] end;
     v_app := fun s => [Sets (match dget (u "n") s with Some n => [(u "n", (n + 1)%N)] | None => [(u "n", 1%N)] end);
                        Emits (AStart 200 [(u "set-cookie", u "other=1; path=/")]); Emits (ABody (u "x") false)] |}.
Definition ex_logout (now : N) : visit N :=
  {| v_now := now; v_pop := None; v_effect := fun _ => []; v_app := fun s => [Sets []; Emits (AStart 200 []); Emits (ABody [] false)] |}.
Definition ex_visits : list (visit N) := [ex_count 0; ex_count 5; ex_count 9; ex_count 40; ex_count 41; ex_logout 42; ex_count 43].
Example C37_case : Forall (fun v => serves ex_env (ex_config (Some 10%N)) (v_app v) (v_effect v)) ex_visits
  /\ in_order 0 ex_visits
  /\ browse dedup ex_env (ex_config (Some 10%N)) [(u "a", u "b")] ex_visits
     = Some [[]; [(u "n", 1)]; [(u "n", 2)]; []; [(u "n", 1)]; [(u "n", 2)]; []]%N.
Proof.
  split; [|split].
  - assert (A : forall t, serves ex_env (ex_config (Some 10%N)) (v_app (ex_count t)) (v_effect (ex_count t))).
    { intros t s. set (x := match dget (u "n") s with Some n => [(u "n", (n + 1)%N)] | None => [(u "n", 1%N)] end).
      exists [x], 200%Z, [(u "set-cookie", u "other=1; path=/")], [(u "x", false)]. split; [reflexivity|]. split; [reflexivity|].
      split; [|split].
      - intros _. change (storable ex_env x). subst x. destruct (dget (u "n") s) as [n|]; (eexists; split; [reflexivity|]; cbn [loads ex_env]; now rewrite int_round_trip).
      - intros k [<-|[]] _. reflexivity.
      - intros l I. vm_compute in I. destruct I as [<-|[]]. vm_compute. discriminate. }
    assert (B : forall t, serves ex_env (ex_config (Some 10%N)) (v_app (ex_logout t)) (v_effect (ex_logout t))).
    { intros t s. exists [[]], 200%Z, [], [([], false)]. split; [reflexivity|]. split; [reflexivity|]. split; [|split].
      - intros X. contradiction X. reflexivity.
      - intros k [].
      - intros l []. }
    repeat (constructor; [first [apply A | apply B]|]). constructor.
  - cbn. repeat split; lia.
  - vm_compute. reflexivity.
Qed.

(** ** C71 *)
Definition ip_key : str := u "real-clientip".
(** The session is bound to the address: a session bound to another one is emptied, others are kept. *)
Theorem C71_fixed : forall V (eqv : V -> V -> bool) is_none notify ip (s : dict V),
  (forall a b, eqv a b = true <-> a = b) -> is_none ip = false ->
  let r := fix_session eqv is_none notify ip s in
  dget ip_key (fst r) = Some ip
  /\ (dget ip_key s = None \/ (exists n, dget ip_key s = Some n /\ is_none n = true) ->
      (forall k, k <> ip_key -> dget k (fst r) = dget k s) /\ snd r = if notify then [Notice (fst r) None (fst r) ip] else [])
  /\ (dget ip_key s = Some ip -> r = (s, []))
  /\ (forall old, dget ip_key s = Some old -> is_none old = false -> old <> ip ->
      fst r = [(ip_key, ip)] /\ snd r = if notify then [Notice s (Some old) [(ip_key, ip)] ip] else []).
Proof.
  intros V eqv is_none notify ip s EQ NN. unfold fix_session. fold ip_key.
  destruct (dget ip_key s) as [old|] eqn:D.
  - destruct (is_none old) eqn:NO.
    + cbv zeta. cbn [fst snd]. split; [apply dget_dset_same|]. split; [|split].
      * intros _. split; [|reflexivity]. intros k K. apply dget_dset_other. exact K.
      * intros E. injection E as ->. congruence.
      * intros o E O. injection E as ->. congruence.
    + destruct (eqv old ip) eqn:E.
      * apply EQ in E. subst old. cbv zeta. cbn [fst snd]. split; [exact D|]. split; [|split].
        -- intros [X|(n & X & Y)]; [discriminate X|]. injection X as ->. congruence.
        -- reflexivity.
        -- intros o X _ Y. injection X as ->. contradiction.
      * cbv zeta. cbn [fst snd]. split; [reflexivity|]. split; [|split].
        -- intros [X|(n & X & Y)]; [discriminate X|]. injection X as ->. congruence.
        -- intros X. injection X as ->. assert (Y := proj2 (EQ ip ip) eq_refl). congruence.
        -- intros o X _ _. injection X as ->. split; reflexivity.
  - cbv zeta. cbn [fst snd]. split; [apply dget_dset_same|]. split; [|split].
    + intros _. split; [|reflexivity]. intros k K. apply dget_dset_other. exact K.
    + discriminate.
    + discriminate.
Qed.
Print Assumptions C71_fixed.
(** Around an application in a session middleware: nothing of a session that was taken from another
    address reaches the application. *)
Theorem C71_taken : forall V order (e : senv V) c now h (eqv : V -> V -> bool) is_none notify ip app s w old,
  (forall a b, eqv a b = true <-> a = b) ->
  load_session order e c now h = Some (s, w) -> dget ip_key s = Some old -> is_none old = false -> old <> ip ->
  serve order e c now None h (fixing eqv is_none notify ip app)
  = Some (s, run_app order e c now w (app [(ip_key, ip)]) [(ip_key, ip)]).
Proof.
  intros V order e c now h eqv is_none notify ip app s w old EQ L D NO NE. unfold serve. rewrite L. unfold fixing, fix_session.
  fold ip_key. rewrite D, NO. destruct (eqv old ip) eqn:E; [apply EQ in E; contradiction|]. cbv zeta. cbn [fst run_app]. reflexivity.
Qed.
Print Assumptions C71_taken.
Example C71_case :
  fix_session N.eqb (N.eqb 0) true 7%N [(u "user", 1%N); (ip_key, 9%N)] = ([(ip_key, 7%N)], [Notice [(u "user", 1%N); (ip_key, 9%N)] (Some 9%N) [(ip_key, 7%N)] 7%N])
  /\ fix_session N.eqb (N.eqb 0) true 9%N [(u "user", 1%N); (ip_key, 9%N)] = ([(u "user", 1%N); (ip_key, 9%N)], []).
Proof. split; vm_compute; reflexivity. Qed.

(** ** C72 *)
Lemma rest_dset {A} sub v (g : dict (sval A)) : rest_same sub g (dset sub v g).
Proof. intros k K. apply dget_dset_other. exact K. Qed.
Lemma rest_ddel {A} sub (g : dict (sval A)) : rest_same sub g (ddel sub g).
Proof. intros k K. apply dget_ddel_other. exact K. Qed.
Lemma rest_trans {A} sub (a b c : dict (sval A)) : rest_same sub a b -> rest_same sub b c -> rest_same sub a c.
Proof. intros H1 H2 k K. rewrite (H2 k K). apply H1. exact K. Qed.
Lemma rest_refl {A} sub (a : dict (sval A)) : rest_same sub a a.
Proof. intros k _. reflexivity. Qed.
Lemma rest_clean {A} sub p (g : dict (sval A)) : rest_same sub g (clean_part sub p g).
Proof. destruct p; [apply rest_ddel|apply rest_dset]. Qed.
Lemma run_rest {A} sub (acts : list (sact A)) : forall started part g out g', run_part sub started acts part g = (out, g') ->
  rest_same sub g g' /\ Forall (fun x => rest_same sub g (snd x)) out.
Proof.
  induction acts as [|[d|m] acts IH]; intros started part g out g' E; cbn [run_part] in E.
  - injection E as <- <-. split; [|constructor]. destruct started; [apply rest_refl|apply rest_clean].
  - apply IH in E. destruct E as [E1 E2]. assert (R : rest_same sub g (if dmem sub g then dset sub (Part d) g else g)) by (destruct (dmem sub g); [apply rest_dset|apply rest_refl]).
    split; [eapply rest_trans; eassumption|]. eapply Forall_impl; [|exact E2]. intros x X. eapply rest_trans; eassumption.
  - set (g1 := if started then g else clean_part sub part g) in *. assert (R : rest_same sub g g1) by (subst g1; destruct started; [apply rest_refl|apply rest_clean]).
    destruct (run_part sub true acts part g1) as (o, g2) eqn:E1. injection E as <- <-. apply IH in E1. destruct E1 as [E1 E2].
    split; [eapply rest_trans; eassumption|]. constructor; [exact R|]. eapply Forall_impl; [|exact E2]. intros x X. eapply rest_trans; eassumption.
Qed.
Lemma clean_get {A} sub p (g : dict (sval A)) : dget sub (clean_part sub p g) = match p with [] => None | x :: r => Some (Part (x :: r)) end.
Proof. destruct p; [apply dget_ddel_same|apply dget_dset_same]. Qed.
Lemma run_first {A} sub (acts : list (sact A)) : forall part g out g', run_part sub false acts part g = (out, g') ->
  dget sub (match out with [] => g' | x :: _ => snd x end) = match part_left acts part with [] => None | p => Some (Part p) end.
Proof.
  induction acts as [|[d|m] acts IH]; intros part g out g' E; cbn [run_part part_left] in *.
  - injection E as <- <-. rewrite clean_get. reflexivity.
  - apply IH in E. exact E.
  - destruct (run_part sub true acts part (clean_part sub part g)) as (o, g2). injection E as <- <-. cbn [snd]. rewrite clean_get. reflexivity.
Qed.
(** The application finds and changes only its part of the session; when the response starts, the
    session holds what it left there, and nothing if that is empty. *)
Theorem C72_part : forall A sub (g : dict (sval A)) app out g',
  with_part sub g app = Some (out, g') ->
  exists d, (dget sub g = Some (Part d) \/ dget sub g = None /\ d = [])
    /\ rest_same sub g g' /\ Forall (fun x => rest_same sub g (snd x)) out
    /\ dget sub (match out with [] => g' | x :: _ => snd x end) = match part_left (app d) d with [] => None | p => Some (Part p) end.
Proof.
  intros A sub g app out g' E. unfold with_part in E. destruct (dget sub g) as [[d|a]|] eqn:D; [| discriminate E |].
  - injection E as E. exists d. split; [left; reflexivity|]. destruct (run_rest sub _ _ _ _ _ _ E) as [R1 R2]. split; [exact R1|]. split; [exact R2|].
    exact (run_first sub _ _ _ _ _ E).
  - injection E as E. exists []. split; [right; auto|]. destruct (run_rest sub _ _ _ _ _ _ E) as [R1 R2].
    assert (R : rest_same sub g (dset sub (Part []) g)) by apply rest_dset. split; [eapply rest_trans; eassumption|]. split.
    + eapply Forall_impl; [|exact R2]. intros x X. eapply rest_trans; eassumption.
    + exact (run_first sub _ _ _ _ _ E).
Qed.
Print Assumptions C72_part.
(** So a session of which nothing is left is empty when the response starts (its cookie is deleted). *)
Theorem C72_empty : forall A sub (g : dict (sval A)) app out g' d,
  with_part sub g app = Some (out, g') -> (dget sub g = Some (Part d) \/ dget sub g = None /\ d = []) ->
  (forall k, k <> sub -> dget k g = None) -> part_left (app d) d = [] ->
  match out with [] => g' | x :: _ => snd x end = [].
Proof.
  intros A sub g app out g' d E D N P. destruct (C72_part A sub g app out g' E) as (d' & D' & R & F & L).
  assert (d' = d) as -> by (destruct D as [D|[D ->]], D' as [D'|[D' ->]]; congruence). rewrite P in L.
  assert (X : forall k, dget k (match out with [] => g' | x :: _ => snd x end) = None).
  { intros k. destruct (seqb_spec k sub) as [->|K]; [exact L|]. destruct out as [|x out]; [rewrite (R k K); apply N; exact K|].
    inversion F as [|? ? F1 F2]; subst. rewrite (F1 k K). apply N. exact K. }
  destruct (match out with [] => g' | x :: _ => snd x end) as [|(k, v) r]; [reflexivity|]. specialize (X k). cbn [dget] in X.
  rewrite (proj2 (seqb_eq k k) eq_refl) in X. discriminate X.
Qed.
Print Assumptions C72_empty.
Example C72_case :
  with_part (u "sub") [(u "other", Plain 1%N)] (fun d => [Fill (dset (u "k") 2%N d); Sent (AStart 200 []); Sent (ABody [] false)])
  = Some ([(AStart 200 [], [(u "other", Plain 1%N); (u "sub", Part [(u "k", 2%N)])]); (ABody [] false, [(u "other", Plain 1%N); (u "sub", Part [(u "k", 2%N)])])],
          [(u "other", Plain 1%N); (u "sub", Part [(u "k", 2%N)])])
  /\ with_part (u "sub") [(u "sub", Part [(u "k", 2%N)])] (fun d => [Fill []; Sent (AStart 200 [])]) = Some ([(AStart 200 [], [])], []).
Proof. split; vm_compute; reflexivity. Qed.
