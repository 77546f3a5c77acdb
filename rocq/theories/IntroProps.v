(** Properties of the introspection graph. *)
From Coq Require Import List Bool Arith Lia.
From Verif Require Import PyStr PyStrFacts IntroModel IntroSpec IntroProofs.
Import ListNotations.

(** An application with an include of another, which includes the first again. *)
Definition demo : store :=
  [ {| a_debug := true; a_middleware := [Define (u "Sessions"); Raw (u "Cors")];
       a_routes := [ Route (Some (u "/home")) [u "GET"] [Define (u "Log"); Define (u "Zip")] [Raw (u "IsUser")];
                     Incl (u "/shop") None [] [] (ToApp 1); Route (Some (u "/end")) [] [] [Define (u "IsAdmin")] ] |};
    {| a_debug := false; a_middleware := [];
       a_routes := [ Incl (u "/again") None [] [] (ToApp 0); Incl (u "/api") None [Define (u "Key")] [Define (u "IsPaid")] ToOther; Route (Some (u "/cart")) [u "POST"] [] [] ] |} ].
Lemma demo_closed : closed demo.
Proof.
  intros ap p nm mws perms c I J. cbn [demo In] in I. destruct I as [<-|[<-|[]]]; cbn [a_routes In] in J;
    repeat (destruct J as [J|J]; [try discriminate J; injection J as <- <- <- <- <-; cbn; lia|]); destruct J.
Qed.

(** * C161: the graph exists and is a tree *)
(** However the applications include each other, even in circles. *)
Theorem C161_exists : forall st a, closed st -> a < length st ->
  exists g, forall fuel, length st < fuel -> build st fuel a = Some g.
Proof.
  intros st a CL L. destruct (nth_error st a) as [ap|] eqn:A; [|apply nth_error_None in A; lia].
  assert (SO : sound st (start a ap)) by (split; [constructor|intros c []]).
  destruct (traverse_ends st (S (length st)) CL a (S (length (a_middleware ap))) (start a ap) SO) as (b' & T & _); [cbn [start b_visited length]; lia|].
  eexists. intros fuel F. rewrite (build_start st fuel a ap A), (traverse_mono st (S (length st)) fuel _ _ _ b' F T). reflexivity.
Qed.
Print Assumptions C161_exists.
Example C161_case : closed demo /\ exists g, build demo 3 0 = Some g /\ length (g_nodes g) = 25.
Proof. split; [exact demo_closed|]. eexists. split; [vm_compute; reflexivity|reflexivity]. Qed.

Lemma app_head_ok a ap ys st : Forall (ok_block st) ys -> Forall head_ok ([app_block a ap; router_block a (length (a_middleware ap))] ++ ys).
Proof.
  intros OK. constructor; [reflexivity|constructor; [reflexivity|]]. refine (Forall_impl _ _ OK). intros x O. unfold ok_block in O. unfold head_ok. destruct (k_kind x); try reflexivity; destruct O.
Qed.
Lemma app_filter ys st i : Forall (ok_block st) ys -> filter (fun n => kind_eqb (n_kind n) APPLICATION) (nodes_of i ys) = [].
Proof.
  intros OK. revert i. induction OK as [|x ys O OK IH]; intros i; [reflexivity|]. cbn [nodes_of]. rewrite filter_app, IH, app_nil_r. unfold block_nodes. cbn [filter n_kind].
  rewrite filter_app, !filter_layers. cbn [kind_eqb app]. unfold ok_block in O. destruct (k_kind x); try reflexivity; destruct O.
Qed.
(** The nodes are numbered in order; every node but the first is the target of exactly one edge, from a node before it; the
    first is the application, and no other. *)
Theorem C161_tree : forall st fuel a g, build st fuel a = Some g ->
  map n_id (g_nodes g) = seq 0 (length (g_nodes g)) /\
  map e_target (g_edges g) = seq 1 (length (g_nodes g) - 1) /\
  (forall e, In e (g_edges g) -> e_source e < e_target e) /\
  exists ap, nth_error st a = Some ap /\ application_of g = Some {| n_id := 0; n_kind := APPLICATION; n_ref := RApp a; n_meta := MDebug (a_debug ap) |} /\
    exists rest, g_nodes g = {| n_id := 0; n_kind := APPLICATION; n_ref := RApp a; n_meta := MDebug (a_debug ap) |} :: rest.
Proof.
  intros st fuel a g B. destruct (build_blocks st fuel a g B) as (ap & ys & V & A & N & E & OK & H & _). rewrite N, E. clear B.
  set (r := router_block a (length (a_middleware ap))) in *. set (x := app_block a ap) in *. refine (conj _ (conj _ (conj _ _))).
  - rewrite nodes_ids, nodes_of_length. reflexivity.
  - assert (HR : hangs (S (length (a_middleware ap))) (r :: ys)).
    { cbn [hangs]. split; [exists (length (a_middleware ap)); split; [reflexivity|lia]|]. change (depth r) with 0. replace (S (length (a_middleware ap)) + 1) with (S (S (length (a_middleware ap)))) by lia. exact H. }
    destruct (edges_targets _ _ HR) as [T _]. rewrite nodes_of_length. change ([x; r] ++ ys) with ([x] ++ r :: ys). rewrite edges_of_app, map_app.
    replace (0 + size [x]) with (S (length (a_middleware ap))) by (cbn [size]; unfold depth, x, app_block; cbn; lia). rewrite T. cbn [edges_of]. rewrite app_nil_r.
    unfold block_edges. cbn [k_parent x app_block app]. rewrite map_map. cbn [wedge e_target]. change (fun x0 : nat => S x0) with S. rewrite seq_shift.
    cbn [app size]. assert (D : depth x = length (a_middleware ap)) by (unfold depth, x, app_block; cbn; lia). rewrite D.
    replace (S (length (a_middleware ap)) + (S (depth r) + size ys) - 1) with (length (a_middleware ap) + (S (depth r) + size ys)) by lia.
    rewrite (seq_app (length (a_middleware ap))). f_equal.
  - assert (HR : hangs (S (length (a_middleware ap))) (r :: ys)).
    { cbn [hangs]. split; [exists (length (a_middleware ap)); split; [reflexivity|lia]|]. change (depth r) with 0. replace (S (length (a_middleware ap)) + 1) with (S (S (length (a_middleware ap)))) by lia. exact H. }
    destruct (edges_targets _ _ HR) as [_ F]. intros e I. change ([x; r] ++ ys) with ([x] ++ r :: ys) in I. rewrite edges_of_app in I. apply in_app_iff in I as [I|I].
    + cbn [edges_of] in I. rewrite app_nil_r in I. unfold block_edges in I. cbn [k_parent x app_block app] in I. apply in_map_iff in I as (j & <- & _). cbn. lia.
    + rewrite Forall_forall in F. apply F. replace (S (length (a_middleware ap))) with (0 + size [x]); [exact I|]. cbn [size]. unfold depth, x, app_block. cbn. lia.
  - exists ap. split; [exact A|]. split.
    + unfold application_of, by_kind. rewrite N. cbn [app nodes_of]. rewrite !filter_app, (app_filter ys st _ OK). unfold block_nodes. cbn [filter n_kind k_kind x r app_block router_block kind_eqb].
      rewrite !filter_app, !filter_layers. cbn [kind_eqb app]. reflexivity.
    + eexists. cbn [app nodes_of]. unfold block_nodes at 1. cbn [app]. reflexivity.
Qed.
Print Assumptions C161_tree.

(** * C162: what the graph says of the layers *)
Lemma skip_fuel g i : length (skipn (S i) (g_nodes g)) < fuel_of g.
Proof. unfold fuel_of. rewrite skipn_length. lia. Qed.
(** The middleware of the application, in the declared order. *)
Theorem C162_application : forall st fuel a g ap, build st fuel a = Some g -> nth_error st a = Some ap ->
  option_map (map class_of) (middlewares g) = Some (named (a_middleware ap)).
Proof.
  intros st fuel a g ap B A. pose proof (C161_tree st fuel a g B) as (_ & _ & _ & ap' & A' & AP & _). rewrite A in A'. injection A' as <-.
  destruct (build_blocks st fuel a g B) as (ap' & ys & V & A' & N & E & OK & _). rewrite A in A'. injection A' as <-. pose proof (app_head_ok a ap ys st OK) as HD.
  unfold middlewares. rewrite AP. cbn [n_id]. rewrite (chain_at g _ N E HD MIDDLEWARE eq_refl _ 0 (skip_fuel g 0)), N. cbn [app nodes_of]. unfold block_nodes at 1. cbn [app skipn k_mws k_perms app_block layer_nodes].
  rewrite app_nil_r. pose proof (while_mws 1 (a_middleware ap) [] 0 (router_block a (length (a_middleware ap)) :: ys) (0 + S (depth (app_block a ap))) (Forall_inv_tail HD)) as W.
  cbn [layer_nodes app] in W. match type of W with ?l = _ => match goal with |- option_map _ (Some ?m) = _ => change m with l end end. rewrite W. cbn [option_map]. rewrite layer_classes, named_resolve. reflexivity.
Qed.
Print Assumptions C162_application.

(** Every route of the graph is a route of an application, with its path and methods; its middleware are as declared.  Its
    permissions are as declared if it has no middleware, and missing otherwise. *)
Definition C162_statement : Prop := forall st fuel a g n, build st fuel a = Some g -> In n (routes g) ->
  exists c k ap p ms mws perms, n_ref n = REntry c k /\ nth_error st c = Some ap /\ nth_error (a_routes ap) k = Some (Route p ms mws perms) /\
    n_meta n = MRoute p ms /\ option_map (map class_of) (route_middlewares g n) = Some (named mws) /\
    option_map (map class_of) (permissions_for g n) = Some (named perms).
Theorem C162_routes_partial : forall st fuel a g n, build st fuel a = Some g -> In n (routes g) ->
  exists c k ap p ms mws perms, n_ref n = REntry c k /\ nth_error st c = Some ap /\ nth_error (a_routes ap) k = Some (Route p ms mws perms) /\
    n_meta n = MRoute p ms /\ option_map (map class_of) (route_middlewares g n) = Some (named mws) /\
    option_map (map class_of) (permissions_for g n) = Some (if mws then named perms else []).
Proof.
  intros st fuel a g n B I. destruct (build_blocks st fuel a g B) as (ap & ys & V & A & N & E & OK & _). pose proof (app_head_ok a ap ys st OK) as HD.
  apply filter_In in I as [I K]. apply kind_eqb_eq in K. destruct (block_of g _ N n I) as (us & x & zs & X & -> & S); [rewrite K; reflexivity|]. cbn [n_kind] in K.
  assert (O : ok_block st x).
  { rewrite Forall_forall in OK. assert (J : In x ([app_block a ap; router_block a (length (a_middleware ap))] ++ ys)) by (rewrite X; apply in_elt).
    destruct J as [J|[J|J]]; [rewrite <- J in K; discriminate|rewrite <- J in K; discriminate|exact (OK x J)]. }
  assert (ZS : Forall head_ok zs) by (rewrite X in HD; apply Forall_app in HD as [_ HD]; exact (Forall_inv_tail HD)).
  unfold ok_block in O. rewrite K in O. destruct O as (c & k & cp & p & ms & R & C & NE & M). exists c, k, cp, p, ms, (k_mws x), (k_perms x).
  refine (conj R (conj C (conj NE (conj M (conj _ _))))).
  - unfold route_middlewares. cbn [n_kind n_id]. rewrite K. cbn [kind_eqb]. rewrite (chain_at g _ N E HD MIDDLEWARE eq_refl _ _ (skip_fuel g _)), S, (while_mws _ _ _ _ _ _ ZS).
    cbn [option_map]. rewrite layer_classes, named_resolve. reflexivity.
  - unfold permissions_for. cbn [n_kind n_id]. rewrite K. cbn [kind_eqb]. rewrite (chain_at g _ N E HD PERMISSION eq_refl _ _ (skip_fuel g _)), S, (while_perms _ _ _ _ _ _ ZS).
    cbn [option_map]. destruct (k_mws x); [rewrite layer_classes, named_resolve|]; reflexivity.
Qed.
Print Assumptions C162_routes_partial.
(** The middleware hides the permissions. *)
Theorem C162_permissions_refuted : ~ C162_statement.
Proof.
  intros H. destruct (build demo 3 0) as [g|] eqn:B; [|vm_compute in B; discriminate B].
  destruct (routes g) as [|n r] eqn:R; [vm_compute in B; injection B as <-; discriminate R|]. destruct (H demo 3 0 g n B) as (c & k & ap & p & ms & mws & perms & E1 & E2 & E3 & E4 & E5 & E6); [rewrite R; left; reflexivity|].
  vm_compute in B. injection B as <-. cbv in R. injection R as <- <-. cbn in E1. injection E1 as <- <-. cbn in E2. injection E2 as <-. cbn in E3. injection E3 as <- <- <- <-. vm_compute in E6. discriminate E6.
Qed.
Print Assumptions C162_permissions_refuted.
(** Every include of the graph is an include of an application, with its path, and its layers are as declared. *)
Theorem C162_includes : forall st fuel a g n, build st fuel a = Some g -> In n (includes g) ->
  exists c k ap p nm mws perms t ms ps, n_ref n = REntry c k /\ nth_error st c = Some ap /\ nth_error (a_routes ap) k = Some (Incl p nm mws perms t) /\
    n_meta n = MIncl p nm /\ include_layers g n = Some (ms, ps) /\ map class_of ms = named mws /\ map class_of ps = named perms.
Proof.
  intros st fuel a g n B I. destruct (build_blocks st fuel a g B) as (ap & ys & V & A & N & E & OK & _). pose proof (app_head_ok a ap ys st OK) as HD.
  apply filter_In in I as [I K]. apply kind_eqb_eq in K. destruct (block_of g _ N n I) as (us & x & zs & X & -> & S); [rewrite K; reflexivity|]. cbn [n_kind] in K.
  assert (O : ok_block st x).
  { rewrite Forall_forall in OK. assert (J : In x ([app_block a ap; router_block a (length (a_middleware ap))] ++ ys)) by (rewrite X; apply in_elt).
    destruct J as [J|[J|J]]; [rewrite <- J in K; discriminate|rewrite <- J in K; discriminate|exact (OK x J)]. }
  assert (ZS : Forall head_ok zs) by (rewrite X in HD; apply Forall_app in HD as [_ HD]; exact (Forall_inv_tail HD)).
  unfold ok_block in O. rewrite K in O. destruct O as (c & k & cp & p & nm & t & R & C & NE & M).
  exists c, k, cp, p, nm, (k_mws x), (k_perms x), t, (layer_nodes (Datatypes.S (size us)) MIDDLEWARE (k_mws x)), (layer_nodes (Datatypes.S (size us) + length (k_mws x)) PERMISSION (k_perms x)).
  refine (conj R (conj C (conj NE (conj M (conj _ (conj _ _)))))).
  - unfold include_layers. cbn [n_kind n_id]. rewrite K. cbn [kind_eqb]. rewrite (layers_at g _ N E HD _ _ (skip_fuel g _)), S, (while_all _ _ _ _ _ _ ZS), !filter_app, !filter_layers.
    cbn [kind_eqb]. rewrite app_nil_r. reflexivity.
  - rewrite layer_classes, named_resolve. reflexivity.
  - rewrite layer_classes, named_resolve. reflexivity.
Qed.
Print Assumptions C162_includes.
Example C162_case : exists g, build demo 3 0 = Some g /\ length (routes g) = 5 /\ length (includes g) = 4.
Proof. eexists. split; [vm_compute; reflexivity|split; reflexivity]. Qed.

(** [explain] finds the first route with the path and says what the application and the route declare (the permissions as
    above); it fails exactly if no route of the graph has the path. *)
Theorem C162_explain_partial : forall st fuel a g ap path, build st fuel a = Some g -> nth_error st a = Some ap ->
  (explain g path = None <-> forall n, In n (routes g) -> path_of n <> Some path) /\
  (forall x, explain g path = Some x ->
     exists c k cp ms mws perms, nth_error st c = Some cp /\ nth_error (a_routes cp) k = Some (Route (Some path) ms mws perms) /\
       x = {| x_debug := a_debug ap; x_middlewares := named (a_middleware ap); x_path := Some path; x_methods := ms; x_permissions := if mws then named perms else [] |}).
Proof.
  intros st fuel a g ap path B A. pose proof (C161_tree st fuel a g B) as (_ & _ & _ & ap' & A' & AP & _). rewrite A in A'. injection A' as <-.
  pose proof (C162_application st fuel a g ap B A) as MW. destruct (middlewares g) as [mwn|] eqn:MWE; [|discriminate MW]. cbn [option_map] in MW. injection MW as MW.
  unfold explain. rewrite AP, MWE. unfold route_by_path.
  destruct (List.find (fun n => match path_of n with Some q => seqb q path | None => false end) (routes g)) as [n|] eqn:F.
  - apply List.find_some in F as [I Q]. destruct (C162_routes_partial st fuel a g n B I) as (c & k & cp & p & ms & mws & perms & R & C & NE & M & _ & P).
    assert (PA : path_of n = Some path) by (destruct (path_of n) as [q|]; [destruct (seqb_spec q path) as [EQ|]; [f_equal; exact EQ|discriminate Q]|discriminate Q]).
    destruct (permissions_for g n) as [ps|] eqn:PE; [|discriminate P]. cbn [option_map] in P. injection P as P. split.
    + split; [discriminate|]. intros X. exfalso. exact (X n I PA).
    + intros x X. injection X as <-. assert (PP : p = Some path) by (unfold path_of in PA; rewrite M in PA; exact PA). subst p. exists c, k, cp, ms, mws, perms. refine (conj C (conj NE _)).
      rewrite PA, M, MW, P. reflexivity.
  - split; [|intros x X; discriminate X]. split; [|reflexivity]. intros _ n I PA. pose proof (List.find_none _ _ F n I) as Q. cbv beta in Q. rewrite PA, seqb_refl in Q. discriminate Q.
Qed.
Print Assumptions C162_explain_partial.
Example C162_explain_case : exists g, build demo 3 0 = Some g /\
  explain g (u "/end") = Some {| x_debug := true; x_middlewares := [u "Sessions"; u "Cors"]; x_path := Some (u "/end"); x_methods := []; x_permissions := [u "IsAdmin"] |}.
Proof. eexists. split; vm_compute; reflexivity. Qed.

(** * C163: which routes the graph has *)
Definition entry_nodes (g : graph) (c k : nat) : list node :=
  filter (fun n => match n_ref n with REntry c' k' => Nat.eqb c' c && Nat.eqb k' k | _ => false end) (g_nodes g).
Lemma entry_count c k xs : forall i, length (filter (fun n => match n_ref n with REntry c' k' => Nat.eqb c' c && Nat.eqb k' k | _ => false end) (nodes_of i xs)) = count c k xs.
Proof.
  set (q := fun n : node => match n_ref n with REntry c' k' => Nat.eqb c' c && Nat.eqb k' k | _ => false end).
  assert (L : forall kd ds i, filter q (layer_nodes i kd ds) = []) by (intros kd ds; induction ds as [|d ds IH]; intros i; [reflexivity|apply IH]).
  induction xs as [|x xs IH]; intros i; [reflexivity|]. cbn [nodes_of]. rewrite filter_app, app_length, IH. unfold block_nodes. cbn [filter]. rewrite filter_app, !L. unfold q at 1. cbn [n_ref app].
  unfold count. cbn [filter]. change (ref_eqb (k_ref x) c k) with (match k_ref x with REntry c' k' => Nat.eqb c' c && Nat.eqb k' k | _ => false end). destruct (match k_ref x with REntry c' k' => Nat.eqb c' c && Nat.eqb k' k | _ => false end); reflexivity.
Qed.
(** An entry (route or include) of an application is in the graph once for being an entry of the application itself, and once
    if the application is reached through includes without layers; however many paths lead to it. *)
Theorem C163_entries_partial : forall st fuel a g c k cp e, build st fuel a = Some g -> nth_error st c = Some cp -> nth_error (a_routes cp) k = Some e ->
  exists own reached, length (entry_nodes g c k) = own + reached /\
    (c = a /\ own = 1 \/ c <> a /\ own = 0) /\ (reaches st a c /\ reached = 1 \/ ~ reaches st a c /\ reached = 0).
Proof.
  intros st fuel a g c k cp e B C NE. destruct (build_blocks st fuel a g B) as (ap & ys & V & A & N & E & OK & _ & CT & RV).
  assert (L : (k <? length (routes_of st c)) = true). { unfold routes_of. rewrite C. apply Nat.ltb_lt. apply nth_error_Some. rewrite NE. discriminate. }
  exists (b2n (Nat.eqb c a)), (b2n (mem c V)). refine (conj _ (conj _ _)).
  - unfold entry_nodes. rewrite N, entry_count. rewrite count_app; change (count c k [app_block a ap; router_block a (length (a_middleware ap))]) with 0; cbn [Nat.add]. rewrite CT, L, !andb_true_r. reflexivity.
  - destruct (Nat.eqb_spec c a) as [->|D]; [left|right]; split; auto.
  - rewrite <- RV. destruct (mem c V) eqn:M; [left; split; [apply mem_In; exact M|reflexivity]|right; split; [|reflexivity]]. rewrite <- mem_In, M. discriminate.
Qed.
Print Assumptions C163_entries_partial.
Example C163_case : reaches demo 0 1 /\ reaches demo 0 0.
Proof.
  assert (R : reaches demo 0 1). { apply reaches_one. eexists _, _, _. split; [reflexivity|]. right. left. reflexivity. }
  split; [exact R|]. refine (reaches_more _ _ _ _ R _). eexists _, _, _. split; [reflexivity|]. left. reflexivity.
Qed.
(** Every path that is served should be among the routes. *)
Definition C163_statement : Prop := forall st fuel a ap g p, build st fuel a = Some g -> nth_error st a = Some ap -> serves st p (a_routes ap) ->
  exists n, In n (routes g) /\ path_of n = Some p.
(** With middleware on the include, what is behind it is missing. *)
Theorem C163_layers_refuted : ~ C163_statement.
Proof.
  intros H. set (st := [ {| a_debug := false; a_middleware := []; a_routes := [Incl (u "/shop") None [Define (u "Log")] [] (ToApp 1)] |};
                         {| a_debug := false; a_middleware := []; a_routes := [Route (Some (u "/cart")) [] [] []] |} ]).
  destruct (build st 5 0) as [g|] eqn:B; [|vm_compute in B; discriminate B].
  destruct (H st 5 0 _ g (u "/cart") B eq_refl) as (n & I & _).
  - eapply serves_app; [left; reflexivity|reflexivity|]. eapply serves_route. left. reflexivity.
  - vm_compute in B. injection B as <-. vm_compute in I. destruct I.
Qed.
Print Assumptions C163_layers_refuted.
(** So is what an include made of a list of routes serves. *)
Theorem C163_router_refuted : ~ C163_statement.
Proof.
  intros H. set (st := [ {| a_debug := false; a_middleware := []; a_routes := [Incl (u "/shop") None [] [] (ToRoutes [Route (Some (u "/cart")) [] [] []])] |} ]).
  destruct (build st 5 0) as [g|] eqn:B; [|vm_compute in B; discriminate B].
  destruct (H st 5 0 _ g (u "/cart") B eq_refl) as (n & I & _).
  - eapply serves_routes; [left; reflexivity|]. eapply serves_route. left. reflexivity.
  - vm_compute in B. injection B as <-. vm_compute in I. destruct I.
Qed.
Print Assumptions C163_router_refuted.

(** * C164: when the graph is built *)
(** [app.graph], read in turn while the applications change from one reading to the next. *)
Fixpoint readings (fuel a : nat) (sts : list store) (cache : option graph) : list (option graph) :=
  match sts with [] => [] | st :: sts' => let (c, g) := graph_property st fuel a cache in g :: readings fuel a sts' c end.
(** Each reading should describe the application as it is then. *)
Definition C164_statement : Prop := forall fuel a sts, (forall st, In st sts -> closed st /\ a < length st /\ length st < fuel) ->
  readings fuel a sts None = map (fun st => build st fuel a) sts.
(** All readings describe it as it was at the first. *)
Theorem C164_first_partial : forall fuel a st sts, closed st -> a < length st -> length st < fuel ->
  readings fuel a (st :: sts) None = map (fun _ => build st fuel a) (st :: sts).
Proof.
  intros fuel a st sts CL L F. destruct (C161_exists st a CL L) as (g & B). specialize (B fuel F). cbn [readings graph_property map]. rewrite B. f_equal.
  induction sts as [|s' sts IH]; [reflexivity|]. cbn [readings graph_property map]. rewrite IH. reflexivity.
Qed.
Print Assumptions C164_first_partial.
Theorem C164_stale_refuted : ~ C164_statement.
Proof.
  intros H. set (mk := fun rs => [ {| a_debug := false; a_middleware := []; a_routes := rs |} ]).
  specialize (H 2 0 [mk []; mk [Route (Some (u "/new")) [] [] []]]). assert (X : forall st, In st [mk []; mk [Route (Some (u "/new")) [] [] []]] -> closed st /\ 0 < length st /\ length st < 2).
  { intros st [<-|[<-|[]]]; (split; [|cbn; lia]); intros ap p nm mws perms c [<-|[]] I; cbn in I; [destruct I|destruct I as [I|[]]; discriminate I]. }
  specialize (H X). vm_compute in H. discriminate H.
Qed.
Print Assumptions C164_stale_refuted.
