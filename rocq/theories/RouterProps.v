(** Theorems C14-C16: which route answers, deferring, methods. *)
From Verif Require Import PyStr PyStrFacts PathModel PathSpec PathProofs PathMatchProofs PathRevProofs PathIncProofs PathNestProofs PathProps RouterModel RouterSpec RouterProofs RouterDeferProofs.

Definition get_path (id : nat) (path : str) : route :=
  match make_path id path true None with Some p => RPath p | None => RInclude [] [] false [] end.
Definition mount (path : str) (children : list route) : route :=
  match make_include path true children with Some r => r | None => RInclude [] [] false [] end.
Definition path_of (r : route) : path_route :=
  match r with RPath p => p | _ => {| pr_id := 0; pr_path := []; pr_rx := []; pr_convs := []; pr_methods := None |} end.
Definition get (path : str) : scope := {| sc_root := []; sc_path := path; sc_method := u "GET"; sc_params := [] |}.
Definition replies (n : nat) : prog := PEnd true HReturn.

(** ** C14 *)
(** The leaves of a route tree that match path and method. *)
Fixpoint full_leaves (sc : scope) (r : route) : list nat :=
  match search r (bare sc) with
  | SFull child => match r with
                   | RPath p => [pr_id p]
                   | RInclude _ _ _ cs => flat_map (full_leaves {| sc_root := sc_root child; sc_path := sc_path sc; sc_method := sc_method sc; sc_params := [] |}) cs
                   end
  | _ => []
  end.

(** As stated, for trees: the first leaf that fully matches answers. *)
Definition C14_statement : Prop := forall handlers redirect rs sc inp id rest,
  (forall i s, always_answers (handlers i s)) ->
  flat_map (full_leaves sc) rs = id :: rest ->
  o_answers (router_app handlers redirect rs sc inp) = [AHandler id].

(** A mounted router that knows the other spelling of the path redirects, although a later route
    matches the path as it is. *)
Theorem C14_mounted_redirect_refuted : ~ C14_statement.
Proof.
  intros H.
  specialize (H (fun _ _ => replies 0) true
    [mount (u "/") [get_path 1 (u "/x")]; get_path 2 (u "/{rest:path}")] (get (u "/x/")) [] 2%nat []).
  assert (X : o_answers (router_app (fun _ _ => replies 0) true
    [mount (u "/") [get_path 1 (u "/x")]; get_path 2 (u "/{rest:path}")] (get (u "/x/")) []) = [ARedirect (u "/x")])
    by (vm_compute; reflexivity).
  rewrite X in H. assert (Y : [ARedirect (u "/x")] = [AHandler 2]).
  { apply H; [intros; constructor | vm_compute; reflexivity]. }
  discriminate.
Qed.
Print Assumptions C14_mounted_redirect_refuted.

(** Every tree of routes: the router does exactly what [chosen] says, and no handler runs except
    the chosen one, once. *)
Theorem C14_tree : forall handlers redirect rs sc inp,
  (forall i s, always_answers (handlers i s)) ->
  outcome_of (chosen redirect rs sc) (router_app handlers redirect rs sc inp).
Proof. intros handlers redirect rs sc inp H. apply app_spec. exact H. Qed.
Print Assumptions C14_tree.

(** A path that matches fully, all earlier routes matching less: its handler runs, alone. *)
Theorem C14_first_full : forall handlers redirect before p after sc inp child,
  (forall i s, always_answers (handlers i s)) ->
  (forall r, In r before -> search r sc = SNone \/ search r sc = SPartial) ->
  path_search p sc = SFull child ->
  let o := router_app handlers redirect (before ++ RPath p :: after) sc inp in
  o_answers o = [AHandler (pr_id p)] /\ o_error o = false /\
  exists c, o_calls o = [c] /\ c_id c = pr_id p /\ c_root c = sc_root sc.
Proof.
  intros handlers redirect before p after sc inp child Ha Hb Hp o.
  destruct (chosen_full redirect before p after sc child) as (own & C); [apply Forall_forall; exact Hb | exact Hp |].
  pose proof (app_spec handlers Ha redirect (before ++ RPath p :: after) sc inp) as A.
  rewrite C in A. cbn [outcome_of] in A. destruct A as (A1 & A2 & c & A3 & A4 & A5 & _).
  split; [exact A1|]. split; [exact A2|]. exists c. repeat split; assumption.
Qed.
Print Assumptions C14_first_full.

(** No full match: the first route that refuses only the method answers 405; nothing runs. *)
Theorem C14_first_partial : forall handlers redirect before r after sc inp,
  (forall i s, always_answers (handlers i s)) ->
  (forall x, In x before -> search x sc = SNone) -> search r sc = SPartial ->
  (forall x, In x after -> search x sc = SNone \/ search x sc = SPartial) ->
  router_app handlers redirect (before ++ r :: after) sc inp
    = {| o_answers := [A405 (allow_header r)]; o_error := false; o_calls := [] |}.
Proof.
  intros handlers redirect before r after sc inp Ha Hb Hr Hx.
  pose proof (app_spec handlers Ha redirect (before ++ r :: after) sc inp) as A.
  assert (Hb' : flat_map (targets sc) before = []).
  { clear -Hb. induction before as [|x b IH]; [reflexivity|]. cbn [flat_map].
    rewrite IH by (intros; apply Hb; right; assumption). rewrite app_nil_r.
    pose proof (search_bare x sc) as B. rewrite (Hb x (or_introl eq_refl)) in B. destruct x; cbn [targets]; rewrite B; reflexivity. }
  assert (Hr' : targets sc r = [TPartial (allow_header r)]).
  { pose proof (search_bare r sc) as B. rewrite Hr in B. destruct r; cbn [targets]; rewrite B; reflexivity. }
  unfold chosen in A. destruct (touched_in (before ++ r :: after) r sc) as (r' & T).
  { apply in_or_app. right. left. reflexivity. }
  { rewrite Hr. discriminate. }
  rewrite T in A. cbv zeta in A. rewrite flat_map_app, Hb' in A. cbn [flat_map app] in A. rewrite Hr' in A.
  rewrite find_none_all in A.
  - cbn [app hd_error outcome_of] in A. destruct (router_app _ _ _ _ _); cbn in A. destruct A as (-> & -> & ->). reflexivity.
  - apply Forall_app. split; [repeat constructor|]. apply Forall_flat. apply Forall_forall. intros x Hin. apply not_full_targets. apply Hx. exact Hin.
Qed.
Print Assumptions C14_first_partial.

(** No match at all: the other spelling if some route knows it, else the default. *)
Theorem C14_no_match : forall handlers redirect rs sc inp,
  (forall i s, always_answers (handlers i s)) ->
  (forall r, In r rs -> search r sc = SNone) ->
  (forall r p, In r rs -> other_spelling sc = Some p -> search r (set_path sc p) <> SError) ->
  let o := router_app handlers redirect rs sc inp in
  o_error o = false /\ o_calls o = [] /\
  (forall p r, redirect = true -> other_spelling sc = Some p -> In r rs -> search r (set_path sc p) <> SNone ->
     o_answers o = [ARedirect p]) /\
  ((redirect = false \/ (forall p r, other_spelling sc = Some p -> In r rs -> search r (set_path sc p) = SNone)) ->
     o_answers o = [ADefault]).
Proof.
  intros handlers redirect rs sc inp Ha Hn He o.
  pose proof (app_spec handlers Ha redirect rs sc inp) as A. fold o in A.
  unfold chosen in A.
  assert (T : first_touch rs sc = None).
  { unfold first_touch. destruct (List.find _ rs) as [r|] eqn:E; [|reflexivity].
    apply List.find_some in E. destruct E as (E1 & E2). pose proof (search_bare r sc) as B.
    rewrite (Hn r E1) in B. rewrite B in E2. discriminate. }
  rewrite T in A.
  assert (Q : forall p, other_spelling sc = Some p ->
     (toggled rs sc = [TRedirect p] /\ exists r, In r rs /\ search r (set_path sc p) <> SNone) \/
     (toggled rs sc = [] /\ forall r, In r rs -> search r (set_path sc p) = SNone)).
  { intros p Hp. unfold toggled. rewrite Hp. destruct (first_touch rs (set_path sc p)) as [r|] eqn:F.
    - unfold first_touch in F. apply List.find_some in F. destruct F as (F1 & F2).
      specialize (He r p F1 Hp). pose proof (search_bare r (set_path sc p)) as B.
      destruct (search r (set_path sc p)) eqn:S.
      + rewrite B in F2. discriminate.
      + contradiction.
      + rewrite B. left. split; [reflexivity|]. exists r. split; [exact F1 | congruence].
      + destruct B as (cb & B & _). rewrite B. left. split; [reflexivity|]. exists r. split; [exact F1 | congruence].
    - right. split; [reflexivity|]. intros r Hin.
      unfold first_touch in F. pose proof (List.find_none _ _ F r Hin) as G. cbn in G.
      pose proof (search_bare r (set_path sc p)) as B. destruct (search r (set_path sc p)); [reflexivity| | |].
      + rewrite B in G. discriminate.
      + rewrite B in G. discriminate.
      + destruct B as (cb & B & _). rewrite B in G. discriminate. }
  destruct (other_spelling sc) as [p|] eqn:Hp.
  - destruct (Q p eq_refl) as [(Q1 & r0 & Q2 & Q3)|(Q1 & Q2)]; rewrite Q1 in A.
    + destruct redirect; cbn in A; destruct A as (A1 & A2 & A3).
      * repeat split; try assumption.
        -- intros p' r _ [= <-] _ _. exact A1.
        -- intros [X|X]; [discriminate|]. exfalso. apply Q3. apply (X p r0 eq_refl Q2).
      * repeat split; try assumption.
        -- intros p' r X. discriminate.
        -- intros _. exact A1.
    + assert (A' : outcome_of None o) by (destruct redirect; exact A). clear A. cbn in A'. destruct A' as (A1 & A2 & A3).
      repeat split; try assumption.
      * intros p' r _ [= <-] Hin Hs. exfalso. apply Hs. apply Q2. exact Hin.
      * intros _. exact A1.
  - assert (A' : outcome_of None o).
    { unfold toggled in A. rewrite Hp in A. destruct redirect; exact A. }
    cbn in A'. destruct A' as (A1 & A2 & A3). repeat split; try assumption.
    + intros p r _ X. discriminate.
    + intros _. exact A1.
Qed.
Print Assumptions C14_no_match.

(** What it means for a path to match: it is an instance of the route's template, and the scope
    given to the route adds the converted values. *)
Theorem C14_path_search : forall t id is_function ms p sc,
  wf_template t -> clean_path (written t) = written t -> make_path id (written t) is_function ms = Some p ->
  let rp := get_route_path (sc_root sc) (sc_path sc) in
  (forall q, rp <> q ++ [10%N]) ->
  match path_search p sc with
  | SNone => forall vs, ~ instance t vs rp
  | SError => exists vs, instance t vs rp /\ transform_all (convs_of (fst t)) vs = None
  | SPartial => exists vs, instance t vs rp /\ method_refused (pr_methods p) (sc_method sc) = true
  | SFull child => exists vs matched, instance t vs rp /\ method_refused (pr_methods p) (sc_method sc) = false /\
      transform_all (convs_of (fst t)) vs = Some matched /\
      (sc_root child, sc_path child, sc_method child) = (sc_root sc, sc_path sc, sc_method sc) /\
      forall n, dget n (sc_params child) = match dget n matched with Some v => Some v | None => dget n (sc_params sc) end
  end.
Proof.
  intros t id isf ms p sc Hw Hc Hp rp Hnl.
  pose proof (compile_written t Hw) as Hcw.
  unfold make_path in Hp. rewrite Hc, Hcw in Hp. injection Hp as <-.
  destruct (C10_exact_partial t _ _ _ rp Hw Hnl Hcw) as (M1 & M2 & _).
  unfold path_search. cbn [pr_convs pr_path pr_rx pr_methods]. fold rp.
  destruct t as [ps tail]. cbn [fst snd] in *.
  destruct ps as [|((l & n0) & c) ps].
  - cbn [convs_of map]. unfold written. cbn [fst snd written_parts app].
    destruct (seqb_spec rp tail) as [E|E].
    + assert (I : instance ([], tail) [] rp) by (split; [constructor | exact E]).
      destruct (method_refused _ _).
      * exists []. split; [exact I | reflexivity].
      * exists [], []. repeat split; try apply I.
    + intros vs (S & F). inversion S; subst. apply E. exact F.
  - set (cs := convs_of ((l, n0, c) :: ps)) in *.
    assert (Hcs : cs <> []) by discriminate.
    destruct cs as [|c0 cs'] eqn:Ecs; [congruence|]. rewrite <- Ecs in *. clear Hcs.
    destruct (rmatch (rx_of ((l, n0, c) :: ps, tail)) rp) as [vs|] eqn:R.
    + specialize (M2 vs eq_refl). destruct (transform_all cs vs) as [m|] eqn:T.
      * destruct (method_refused _ _).
        -- exists vs. split; [exact M2 | reflexivity].
        -- exists vs, m. split; [exact M2|]. split; [reflexivity|]. split; [exact T|]. split; [reflexivity|].
           intros n. cbn [sc_params set_params]. apply dget_dupdate.
           assert (K : forall vs m, transform_all cs vs = Some m -> dkeys m = map fst vs).
           { clear. induction vs as [|(a & b) vs IH]; intros m H; cbn [transform_all] in H.
             - injection H as <-. reflexivity.
             - destruct (dget a cs); [|discriminate]. destruct (transform _ b); [|discriminate].
               destruct (transform_all cs vs); [|discriminate]. injection H as <-. cbn. f_equal. apply IH. reflexivity. }
           rewrite (K vs m T). destruct M2 as (S & _).
           assert (E : map fst vs = map (fun p => snd (fst p)) ((l, n0, c) :: ps)).
           { cbn [fst] in S. clear -S. revert S. generalize ((l, n0, c) :: ps). intros ps0 S. unfold suits in S. cbn [fst] in S. induction S as [|x y a b (H & _) _ IH]; [reflexivity|]. cbn. rewrite H. f_equal. exact IH. }
           rewrite E. destruct Hw as (_ & _ & Hnd & _). exact Hnd.
      * exists vs. split; [exact M2 | exact T].
    + intros vs Hi. destruct M1 as (_ & M1). apply M1; [exists vs; exact Hi | reflexivity].
Qed.
Print Assumptions C14_path_search.

(** What it means for a mount to match, and the scope its routes are given. *)
Theorem C14_mount_search : forall t path redirect cs r root route method params,
  mountable t path -> (forall q, route <> q ++ [10%N]) -> make_include path redirect cs = Some r ->
  match search r {| sc_root := root; sc_path := root ++ route; sc_method := method; sc_params := params |} with
  | SNone => forall vs rest, suits t vs -> ~ In 10%N rest -> route <> filled t vs ++ slash :: rest
  | SError => exists vs rest, suits t vs /\ route = filled t vs ++ slash :: rest /\ transform_all (convs_of (fst t)) vs = None
  | SPartial => False
  | SFull child => exists vs rest matched,
      suits t vs /\ route = filled t vs ++ slash :: rest /\ sc_root child = root ++ filled t vs /\
      sc_path child = root ++ route /\ sc_method child = method /\
      get_route_path (sc_root child) (sc_path child) = slash :: rest /\
      transform_all (convs_of (fst t)) vs = Some matched /\
      forall n, dget n (sc_params child) = match dget n matched with Some v => Some v | None => dget n params end
  end.
Proof.
  intros t path redirect cs r root route method params Hm Hnl Hr.
  destruct (C17_level_partial t path root route params Hm Hnl) as (rx & fmt & convs & Hc & S).
  unfold make_include in Hr. rewrite Hc in Hr. injection Hr as <-.
  cbn [search sc_root sc_path sc_method sc_params].
  destruct (include_search rx convs root (root ++ route) params) as [| |ps root']; [exact S|exact S|].
  destruct S as (vs & rest & m & S1 & S2 & S3 & S4 & S5 & S6).
  exists vs, rest, m. cbn [sc_root sc_path sc_method sc_params]. repeat split; assumption.
Qed.
Print Assumptions C14_mount_search.

Definition ex_routes : list route :=
  [mount (u "/api") [get_path 1 (u "/users/{id:int}"); get_path 2 (u "/users/me")];
   get_path 3 (u "/{rest:path}")].
Example C14_example_nested :
  chosen true ex_routes (get (u "/api/users/7")) = Some (TFull 1 (u "/api") [(u "id", VInt 7)]) /\
  chosen true ex_routes (get (u "/api/users/me")) = Some (TFull 2 (u "/api") []) /\
  chosen true ex_routes (get (u "/api/users")) = Some (TFull 3 [] [(u "rest", VText (u "api/users"))]) /\
  o_answers (router_app (fun _ _ => PRecv (fun _ => replies 0)) true ex_routes (get (u "/api/users/7")) [u "a"]) = [AHandler 1].
Proof. vm_compute. repeat split. Qed.
Example C14_example_flat :
  let rs := [get_path 1 (u "/a"); RPath (path_of (get_path 2 (u "/{x}"))); get_path 3 (u "/b")] in
  search (get_path 1 (u "/a")) (get (u "/b")) = SNone /\
  (exists child, path_search (path_of (get_path 2 (u "/{x}"))) (get (u "/b")) = SFull child) /\
  search (get_path 3 (u "/b")) {| sc_root := []; sc_path := u "/b"; sc_method := u "PUT"; sc_params := [] |} = SPartial /\
  other_spelling (get (u "/b/")) = Some (u "/b") /\
  search (get_path 3 (u "/b")) (get (u "/b/")) = SNone.
Proof. vm_compute. repeat split. eexists. reflexivity. Qed.

(** ** C15 *)
Definition reads (p : prog) (inp : list str) : list str := snd (fst (fst (run_prog p [] inp []))).

(** Routes that match and decline, then a route that answers: what the latter is given. *)
Definition deferring_then (handlers : nat -> scope -> prog) (n : nat) (qs : list path_route) (p : path_route) (sc : scope) : Prop :=
  (forall s, always_answers (handlers (pr_id p) s)) /\
  Forall (fun q => (exists child, path_search q sc = SFull child) /\ forall s, declines n (handlers (pr_id q) s)) qs.

Definition C15_params_statement : Prop := forall handlers qs p rest sc inp child,
  deferring_then handlers 1 qs p sc -> path_search p sc = SFull child ->
  exists before c, o_calls (router_app handlers true (map RPath qs ++ RPath p :: rest) sc inp) = before ++ [c] /\
    c_id c = pr_id p /\ forall n, dget n (c_params c) = dget n (sc_params child).

(** "/{a}" defers, "/{b}" answers "/v": the second handler is given [a] too. *)
Theorem C15_params_refuted : ~ C15_params_statement.
Proof.
  intros H.
  set (hs := fun (i : nat) (_ : scope) => if Nat.eqb i 1 then PEnd false HContinue else replies 0).
  specialize (H hs [path_of (get_path 1 (u "/{a}"))] (path_of (get_path 2 (u "/{b}"))) [] (get (u "/v")) []
    (set_params (get (u "/v")) [(u "b", VText (u "v"))])).
  destruct H as (b & c & H1 & H2 & H3).
  - split; [intros; constructor|]. repeat constructor. { eexists. vm_compute. reflexivity. } { discriminate. }
  - vm_compute. reflexivity.
  - assert (X : o_calls (router_app hs true (map RPath [path_of (get_path 1 (u "/{a}"))] ++ [RPath (path_of (get_path 2 (u "/{b}")))]) (get (u "/v")) [])
      = [{| c_id := 1; c_root := []; c_params := [(u "a", VText (u "v"))]; c_seen := [] |}] ++
        [{| c_id := 2; c_root := []; c_params := [(u "a", VText (u "v")); (u "b", VText (u "v"))]; c_seen := [] |}]) by (vm_compute; reflexivity).
    rewrite X in H1. apply app_inj_tail in H1. destruct H1 as (_ & <-).
    specialize (H3 (u "a")). vm_compute in H3. discriminate.
Qed.
Print Assumptions C15_params_refuted.

Definition C15_messages_statement : Prop := forall handlers k qs p rest sc inp child,
  deferring_then handlers k qs p sc -> path_search p sc = SFull child ->
  exists before c, o_calls (router_app handlers true (map RPath qs ++ RPath p :: rest) sc inp) = before ++ [c] /\
    c_id c = pr_id p /\ c_seen c = reads (handlers (pr_id p) child) inp.

(** A handler that reads two messages and defers: the next one is given the second message first. *)
Theorem C15_messages_refuted : ~ C15_messages_statement.
Proof.
  intros H.
  set (hs := fun (i : nat) (_ : scope) => if Nat.eqb i 1 then PRecv (fun _ => PRecv (fun _ => PEnd false HContinue)) else PRecv (fun _ => replies 0)).
  specialize (H hs 2%nat [path_of (get_path 1 (u "/v"))] (path_of (get_path 2 (u "/v"))) [] (get (u "/v")) [u "one"; u "two"] (get (u "/v"))).
  destruct H as (b & c & H1 & H2 & H3).
  - split; [intros; repeat constructor|]. constructor; [|constructor]. split.
    + eexists. vm_compute. reflexivity.
    + intros s. constructor. intros _. constructor. intros _. constructor. discriminate.
  - vm_compute. reflexivity.
  - assert (X : o_calls (router_app hs true (map RPath [path_of (get_path 1 (u "/v"))] ++ [RPath (path_of (get_path 2 (u "/v")))]) (get (u "/v")) [u "one"; u "two"])
      = [{| c_id := 1; c_root := []; c_params := []; c_seen := [u "one"; u "two"] |}] ++
        [{| c_id := 2; c_root := []; c_params := []; c_seen := [u "two"] |}]) by (vm_compute; reflexivity).
    rewrite X in H1. apply app_inj_tail in H1. destruct H1 as (_ & <-). vm_compute in H3. discriminate.
Qed.
Print Assumptions C15_messages_refuted.

(** A mount whose handlers all decline, then a route that answers. *)
Definition C15_mount_statement : Prop := forall handlers rx convs cs p sc inp child,
  (forall i s, i <> pr_id p -> declines 1 (handlers i s)) ->
  (forall s, always_answers (handlers (pr_id p) s)) ->
  full_leaves sc (RInclude rx convs false cs) <> [] -> ~ In (pr_id p) (full_leaves sc (RInclude rx convs false cs)) ->
  path_search p sc = SFull child ->
  exists before c, o_calls (router_app handlers true [RInclude rx convs false cs; RPath p] sc inp) = before ++ [c] /\
    c_id c = pr_id p /\ c_seen c = reads (handlers (pr_id p) child) inp.

(** The message read inside the mount is lost to the route after it. *)
Theorem C15_mount_refuted : ~ C15_mount_statement.
Proof.
  intros H.
  set (hs := fun (i : nat) (_ : scope) => if Nat.eqb i 2 then PRecv (fun _ => replies 0) else PRecv (fun _ => PEnd false HContinue)).
  specialize (H hs (match mount (u "/m") [] with RInclude rx _ _ _ => rx | _ => [] end)
    (match mount (u "/m") [] with RInclude _ convs _ _ => convs | _ => [] end) [get_path 1 (u "/v")]
    (path_of (get_path 2 (u "/m/v"))) (get (u "/m/v")) [u "one"; u "two"] (get (u "/m/v"))).
  destruct H as (b & c & H1 & H2 & H3).
  - intros i s Hi. unfold hs. assert (E : Nat.eqb i 2 = false) by (apply Nat.eqb_neq; exact Hi). rewrite E.
    constructor. intros _. constructor. discriminate.
  - intros s. constructor. intros _. constructor.
  - vm_compute. discriminate.
  - vm_compute. intros [X|[]]. discriminate.
  - vm_compute. reflexivity.
  - match type of H1 with ?a = _ => assert (X : a
      = [{| c_id := 1; c_root := u "/m"; c_params := []; c_seen := [u "one"] |}] ++
        [{| c_id := 2; c_root := []; c_params := []; c_seen := [u "two"] |}]) by (vm_compute; reflexivity) end.
    rewrite X in H1. apply app_inj_tail in H1. destruct H1 as (_ & <-). vm_compute in H3. discriminate.
Qed.
Print Assumptions C15_mount_refuted.

(** What holds: routes that do not match, or whose handler reads at most one message and declines,
    leave the answering route its own parameters, every parameter they did not capture
    themselves, and all messages.  They are the only other handlers called. *)
Theorem C15_unaffected_partial : forall handlers redirect qs p rest sc inp child0,
  NoDup (dkeys (sc_params sc)) ->
  (forall s, always_answers (handlers (pr_id p) s)) ->
  (forall q, In q qs -> passed_over handlers sc q) ->
  path_search p sc = SFull child0 ->
  let o := router_app handlers redirect (map RPath qs ++ RPath p :: rest) sc inp in
  o_answers o = [AHandler (pr_id p)] /\ o_error o = false /\
  exists before c child, o_calls o = before ++ [c] /\
    (forall x, In x before -> exists q, In q qs /\ c_id x = pr_id q) /\
    c_id c = pr_id p /\ c_root c = sc_root sc /\ c_params c = sc_params child /\
    (sc_root child, sc_path child, sc_method child) = (sc_root sc, sc_path sc, sc_method sc) /\
    (forall own, path_search p (bare sc) = SFull own -> agrees (sc_params own) (c_params c)) /\
    (forall n, ~ captured sc qs n -> dget n (c_params c) = dget n (sc_params child0)) /\
    c_seen c = reads (handlers (pr_id p) child) inp.
Proof.
  intros handlers redirect qs p rest sc inp child0 Hnd Hp Hq Hs o.
  assert (G : forall o, o = app_general handlers redirect (map RPath qs ++ RPath p :: rest) sc inp ->
    o_answers o = [AHandler (pr_id p)] /\ o_error o = false /\
    exists before c child, o_calls o = before ++ [c] /\
    (forall x, In x before -> exists q, In q qs /\ c_id x = pr_id q) /\
    c_id c = pr_id p /\ c_root c = sc_root sc /\ c_params c = sc_params child /\
    (sc_root child, sc_path child, sc_method child) = (sc_root sc, sc_path sc, sc_method sc) /\
    (forall own, path_search p (bare sc) = SFull own -> agrees (sc_params own) (c_params c)) /\
    (forall n, ~ captured sc qs n -> dget n (c_params c) = dget n (sc_params child0)) /\
    c_seen c = reads (handlers (pr_id p) child) inp).
  { intros o' ->. unfold app_general.
    destruct (defer_loop handlers qs p rest inp Hp sc fresh_sniffer inp [] false [] child0 Hnd) as (st & c & ch & L1 & L2 & (b & L3 & L4) & L5 & L6 & L7).
    - apply Forall_forall. exact Hq.
    - exact Hs.
    - left. split; [reflexivity|]. intros n. reflexivity.
    - rewrite L1. cbn [o_answers o_error o_calls]. split; [reflexivity|]. split; [reflexivity|].
      eexists b, _, ch. split; [rewrite L2, L3; reflexivity|].
      cbn [c_id c_root c_params c_seen].
      split; [apply Forall_forall; exact L4|].
      destruct L5 as (S1 & S2 & S3). repeat split; try assumption. rewrite S1, S2, S3. reflexivity. }
  unfold o, router_app. destruct qs as [|q [|q2 qs]]; [|apply G; reflexivity|apply G; reflexivity].
  destruct rest as [|r rest]; [|apply G; reflexivity].
  cbn [map app]. unfold app_fast. rewrite Hs.
  destruct (run_answers _ (Hp child0) [] inp []) as (seen & sn' & inp' & Hx & _). rewrite Hx.
  cbn [o_answers o_error o_calls]. split; [reflexivity|]. split; [reflexivity|].
  destruct (path_search_own p sc child0 Hs) as (cb & Hcb & E1 & E2 & E3 & E4 & _).
  exists [], {| c_id := pr_id p; c_root := sc_root child0; c_params := sc_params child0; c_seen := seen |}, child0.
  cbn [c_id c_root c_params c_seen]. repeat split; try assumption.
  - intros x [].
  - congruence.
  - intros own Ho. rewrite Hcb in Ho. injection Ho as <-. exact E4.
  - unfold reads. rewrite Hx. reflexivity.
Qed.
Print Assumptions C15_unaffected_partial.

Example C15_example :
  let hs := fun (i : nat) (_ : scope) => if Nat.eqb i 1 then PRecv (fun _ => PEnd false HContinue) else PRecv (fun _ => PRecv (fun _ => replies 0)) in
  let q := path_of (get_path 1 (u "/{x}")) in let p := path_of (get_path 2 (u "/{x}")) in
  passed_over hs (get (u "/v")) q /\
  o_calls (router_app hs true (map RPath [q] ++ [RPath p]) (get (u "/v")) [u "one"; u "two"]) =
    [{| c_id := 1; c_root := []; c_params := [(u "x", VText (u "v"))]; c_seen := [u "one"] |};
     {| c_id := 2; c_root := []; c_params := [(u "x", VText (u "v"))]; c_seen := [u "one"; u "two"] |}].
Proof.
  split.
  - right. split; [eexists; vm_compute; reflexivity|]. intros s. constructor. intros _. constructor. discriminate.
  - vm_compute. reflexivity.
Qed.

(** ** C16 *)
Definition set_method (sc : scope) (m : str) : scope :=
  {| sc_root := sc_root sc; sc_path := sc_path sc; sc_method := m; sc_params := sc_params sc |}.

Definition C16_statement : Prop := forall id path ms p sc child,
  make_path id path true (Some ms) = Some p -> path_search p sc = SFull child -> declared ms (sc_method sc).

(** A route declared with an empty list of methods serves every method. *)
Theorem C16_empty_refuted : ~ C16_statement.
Proof.
  intros H. specialize (H 1%nat (u "/a") [] (path_of match make_path 1 (u "/a") true (Some []) with Some p => RPath p | None => RInclude [] [] false [] end)
    (get (u "/a")) (get (u "/a"))).
  destruct H as [(d & [] & _)|(_ & d & [] & _)]; vm_compute; reflexivity.
Qed.
Print Assumptions C16_empty_refuted.

(** With a non-empty list: the handler runs exactly for the declared methods, any other gets 405
    with an Allow header listing exactly them; whether the path matches does not depend on it. *)
Theorem C16_methods_partial : forall id path is_function ms p handlers redirect sc inp,
  ms <> [] -> make_path id path is_function (Some ms) = Some p ->
  (forall s, always_answers (handlers id s)) ->
  path_search p sc <> SNone -> path_search p sc <> SError ->
  let o := router_app handlers redirect [RPath p] sc inp in
  (declared ms (sc_method sc) -> o_answers o = [AHandler id] /\ exists c, o_calls o = [c]) /\
  (~ declared ms (sc_method sc) -> o_calls o = [] /\
     exists allow, o_answers o = [A405 (join (u ", ") allow)] /\ forall m, In m allow <-> declared ms m) /\
  (forall m, path_search p (set_method sc m) <> SNone /\ path_search p (set_method sc m) <> SError).
Proof.
  intros id path isf ms p handlers redirect sc inp Hms Hp Ha Hn He o.
  unfold make_path in Hp. destruct (compile_path (clean_path path)) as [|rx fmt convs]; [discriminate|].
  injection Hp as <-.
  set (l := if smem (u "GET") (map upper ms) then map upper ms ++ [u "HEAD"] else map upper ms).
  assert (Hl : forall m, In m l <-> declared ms m).
  { intros m. unfold declared, l.
    assert (I : In m (map upper ms) <-> exists d, In d ms /\ m = upper d).
    { rewrite in_map_iff. split; intros (d & X & Y); exists d; auto. }
    assert (J : smem (u "GET") (map upper ms) = true <-> exists d, In d ms /\ upper d = u "GET").
    { rewrite smem_In, in_map_iff. split; intros (d & X & Y); exists d; auto. }
    destruct (smem (u "GET") (map upper ms)).
    - rewrite in_app_iff, I. destruct J as (J1 & _). specialize (J1 eq_refl). split.
      + intros [X|[<-|[]]]; [left; exact X | right; split; [reflexivity | exact J1]].
      + intros [X|(-> & _)]; [left; exact X | right; left; reflexivity].
    - rewrite I. split; [intros X; left; exact X|]. intros [X|(_ & X)]; [exact X|]. apply J in X. discriminate. }
  assert (Hne : l <> []).
  { unfold l. destruct ms; [congruence|]. destruct (smem _ _); discriminate. }
  assert (Hm : pr_methods {| pr_id := id; pr_path := clean_path path; pr_rx := rx; pr_convs := convs; pr_methods := effective_methods isf (Some ms) |} = Some l) by reflexivity.
  set (p := {| pr_id := id; pr_path := clean_path path; pr_rx := rx; pr_convs := convs; pr_methods := effective_methods isf (Some ms) |}) in *.
  assert (Hr : forall m, method_refused (pr_methods p) m = true <-> ~ declared ms m).
  { intros m. rewrite Hm. rewrite <- Hl. unfold method_refused. destruct l as [|a l']; [congruence|].
    rewrite Bool.negb_true_iff. rewrite <- smem_In. destruct (smem m (a :: l')); split; congruence. }
  assert (K : forall m, match path_search p (set_method sc m) with
                        | SNone | SError => False
                        | SPartial => method_refused (pr_methods p) m = true
                        | SFull _ => method_refused (pr_methods p) m = false end).
  { intros m. revert Hn He. unfold path_search. cbn [set_method sc_root sc_path sc_method].
    destruct (pr_convs p).
    - destruct (seqb _ _); [|congruence]. intros _ _. destruct (method_refused (pr_methods p) m); reflexivity.
    - destruct (rmatch _ _); [|congruence]. destruct (transform_all _ _); [|congruence].
      intros _ _. destruct (method_refused (pr_methods p) m); reflexivity. }
  split; [|split].
  - intros D. specialize (K (sc_method sc)).
    assert (E : set_method sc (sc_method sc) = sc) by (destruct sc; reflexivity). rewrite E in K.
    unfold o, router_app, app_fast. destruct (path_search p sc) as [| | |child]; try contradiction.
    + apply Hr in K. contradiction.
    + change (pr_id p) with id. destruct (run_answers _ (Ha child) [] inp []) as (seen & sn' & inp' & Hx & _). rewrite Hx.
      cbn. split; [reflexivity|]. eexists. reflexivity.
  - intros D. specialize (K (sc_method sc)).
    assert (E : set_method sc (sc_method sc) = sc) by (destruct sc; reflexivity). rewrite E in K.
    unfold o, router_app, app_fast. destruct (path_search p sc) as [| | |child]; try contradiction.
    + cbn [o_answers o_calls allow_header]. rewrite Hm. split; [reflexivity|]. exists l. split; [reflexivity | exact Hl].
    + apply Hr in D. rewrite K in D. discriminate.
  - intros m. specialize (K m). destruct (path_search p (set_method sc m)); try contradiction; split; discriminate.
Qed.
Print Assumptions C16_methods_partial.

(** A function without declared methods is one declared with GET. *)
Theorem C16_default : forall id path, make_path id path true None = make_path id path true (Some [u "GET"]).
Proof. reflexivity. Qed.
Print Assumptions C16_default.

Example C16_example : exists p, make_path 1 (u "/a") true (Some [u "get"; u "Put"]) = Some p /\
  path_search p (get (u "/a")) <> SNone /\ path_search p (get (u "/a")) <> SError /\
  declared [u "get"; u "Put"] (u "HEAD") /\ ~ declared [u "get"; u "Put"] (u "POST") /\
  allow_header (RPath p) = u "GET, PUT, HEAD".
Proof.
  eexists. split; [vm_compute; reflexivity|]. repeat split; try discriminate.
  - right. split; [reflexivity|]. exists (u "get"). split; [left; reflexivity | reflexivity].
  - intros [(d & [<-|[<-|[]]] & X)|(X & _)]; discriminate.
Qed.
