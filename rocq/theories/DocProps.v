(** C152-C157: the OpenAPI document. *)
From Coq Require Import List NArith Bool Lia PeanoNat.
From Coq Require FinFun.
From Verif Require JsonProofs PathRevProofs HeaderProofs EnvProofs EnvProps CookieProofs.
From Verif Require Import PyStr PyStrFacts DocModel DocSpec DocProofs.
Import ListNotations.

(** * C152: the document has an operation exactly for what is served and shown *)
Definition C152_statement : Prop := forall definitions rs s path m, get_openapi definitions rs = Some s -> upper m = m -> m <> u "HEAD" ->
  ((exists o, documents s path m o) <->
   exists l h, located rs path true l /\ answers l m h /\ endpoint_shown l /\ handler_shown h).

Theorem C152_operations_partial : forall definitions rs s path m, Forall ordinary rs ->
  get_openapi definitions rs = Some s -> upper m = m -> m <> u "HEAD" ->
  ((exists o, documents s path m o) <->
   exists l h, located rs path true l /\ answers l m h /\ endpoint_shown l /\ handler_shown h).
Proof.
  intros defs rs s path m O G U X. apply get_put in G as [-> F]. split.
  - intros (o & D). apply documents_doc in D. destruct (items_some _ _ _ _ _ _ F D eq_refl) as ([[p m'] h] & I & [K1 K2] & _). cbn in K1, K2. subst p.
    apply (all_items_iff rs _ _ _ O) in I as (_ & U' & l & L & A & S). assert (m' = m) by (apply lower_inj; assumption). subst m'.
    exists l, h. refine (conj L (conj A (conj S _))). destruct (located_gather _ _ _ _ L O) as (_ & (_ & _ & _ & _ & _ & H) & _). exact (H m h A).
  - intros (l & h & L & A & S & _). assert (I : In (path, m, h) (all_items rs)) by (apply (all_items_iff rs _ _ _ O); eauto 6).
    destruct (items_in defs _ path (lower m) start _ F I (conj eq_refl eq_refl)) as (o & D). exists o. apply documents_doc. exact D.
Qed.
Print Assumptions C152_operations_partial.

(** The document can be made when all handlers have names. *)
Theorem C152_made_partial : forall definitions rs, Forall ordinary rs ->
  (forall path b l m h, located rs path b l -> answers l m h -> h_name h <> None) -> exists s, get_openapi definitions rs = Some s.
Proof.
  intros defs rs O HN. unfold get_openapi.
  assert (G : forall p l, In (p, l) (flat_map (gather []) rs) -> ordinary_leaf l /\ forall m h, answers l m h -> h_name h <> None).
  { intros p l I. apply in_flat_map in I as (r & R & I). rewrite Forall_forall in O. destruct (gather_located r (O r R) _ _ _ I) as (OL & q & _ & L).
    split; [exact OL|]. intros m h A. eapply HN; [|exact A]. eapply located_mono; [exact L|]. intros x [<-|[]]. exact R. }
  generalize {| paths := []; schemes := []; schemas := [] |}. induction (flat_map (gather []) rs) as [|[p l] ls IH]; intros s; [eexists; reflexivity|].
  cbn [add_leaves]. destruct (G p l (or_introl eq_refl)) as [OL HNL].
  assert (E : exists s', add_leaf defs s p l = Some s').
  { pose proof OL as (W & C & FN & ON & UP & _). unfold add_leaf. destruct (l_in l) eqn:IN; cbn [negb]; [|eexists; reflexivity].
    assert (M : forall ms, (forall m, In m ms -> exists h, handler_of l m = Some h /\ h_name h <> None) -> forall s, exists s', add_methods defs s p l ms = Some s').
    { induction ms as [|m ms IHm]; intros H s0; [eexists; reflexivity|]. cbn [add_methods].
      destruct (H m (or_introl eq_refl)) as (h & E & Nm). unfold add_operation. rewrite E. destruct (h_name h) as [n|] eqn:EN; [|congruence].
      destruct (seqb (upper m) (u "HEAD")); apply IHm; intros m' I; apply H; right; exact I. }
    destruct (l_end l) as [h|x attrs|h] eqn:EE.
    - destruct (l_methods l) as [ms|] eqn:EM; [|destruct (FN h eq_refl eq_refl)]. unfold methods_of. rewrite EE, W, EM. apply M. intros m I. exists h.
      unfold handler_of. rewrite EE. split; [reflexivity|]. apply (HNL m). exact (by_function l h ms m W EE EM I).
    - destruct x; [eexists; reflexivity|]. pose proof (C false attrs eq_refl) as EM. unfold methods_of. rewrite EE. apply M. intros m I. apply filter_In in I as [I D].
      unfold dmem in D. unfold handler_of. rewrite EE. destruct (dget (lower m) attrs) as [h|] eqn:DG; [|discriminate]. exists h. split; [reflexivity|].
      apply (HNL m). refine (by_controller l false attrs m h W EE _ I DG). intros ms Y. congruence.
    - destruct (l_methods l) as [ms|] eqn:EM; [|destruct (ON h eq_refl eq_refl)]. unfold methods_of. rewrite EE, W, EM. apply M. intros m I. exists h.
      unfold handler_of. rewrite EE. split; [reflexivity|]. apply (HNL m). refine (by_object l h m W EE _). intros ms' Y. congruence. }
  destruct E as (s' & ->). apply IH. intros p' l' I. apply (G p' l'). right. exact I.
Qed.
Print Assumptions C152_made_partial.

Definition ordinary_meta (h : bool) : meta :=
  {| m_id := None; m_summary := Some 1; m_shown := h; m_security := []; m_query := [(u "q", 2)]; m_body := Some 3; m_default := None;
     m_responses := [(404%N, {| r_text := u "Gone"; r_media := u "text/plain"; r_listed := false; r_name := u "Error"; r_model := 7 |})] |}.
Definition plain_handler : handler := {| h_name := Some (u "home"); h_meta := None |}.
Definition get_at (p : str) (h : handler) : leaf :=
  {| l_path := p; l_in := true; l_ws := false; l_methods := Some [u "GET"; u "HEAD"]; l_end := Func h |}.
Definition no_definitions (_ : nat) : list (str * nat) := [].
Lemma get_ordinary p h : handler_shown h -> ordinary_leaf (get_at p h).
Proof.
  intros S. unfold ordinary_leaf, get_at. cbn. refine (conj eq_refl (conj _ (conj _ (conj _ (conj _ _))))); try (intros; discriminate).
  - intros ms m E I. injection E as <-. destruct I as [<-|[<-|[]]]; reflexivity.
  - intros m h' A. inversion A; cbn in *; try congruence. match goal with X : Func _ = Func _ |- _ => injection X as <- end. exact S.
Qed.
Lemma get_answers p h : answers (get_at p h) (u "GET") h.
Proof. apply (by_function (get_at p h) h [u "GET"; u "HEAD"]); try reflexivity. left. reflexivity. Qed.
Lemma plain_shown : handler_shown plain_handler.
Proof. intros mt E. discriminate. Qed.

(** Met by a page under an include. *)
Example C152_case : Forall ordinary [Node (u "/shop") true [Leaf (get_at (u "/item/{id}") plain_handler)]] /\
  located [Node (u "/shop") true [Leaf (get_at (u "/item/{id}") plain_handler)]] (u "/shop/item/{id}") true (get_at (u "/item/{id}") plain_handler) /\
  exists s o, get_openapi no_definitions [Node (u "/shop") true [Leaf (get_at (u "/item/{id}") plain_handler)]] = Some s /\
    documents s (u "/shop/item/{id}") (u "GET") o.
Proof.
  split; [|split].
  - apply Forall_cons; [|apply Forall_nil]. apply o_node; [intros I; repeat (destruct I as [I|I]; [discriminate|]); destruct I|].
    apply Forall_cons; [|apply Forall_nil]. apply o_leaf, get_ordinary, plain_shown.
  - refine (inside (u "/shop") true [Leaf (get_at (u "/item/{id}") plain_handler)] _ (u "/item/{id}") true _ _ _); [left; reflexivity|]. refine (here (get_at (u "/item/{id}") plain_handler) _ _). left. reflexivity.
  - eexists. eexists. split; [vm_compute; reflexivity|]. eexists. split; vm_compute; reflexivity.
Qed.

(** A route under an include with a parameter is served there and documented elsewhere. *)
Theorem C152_parameter_refuted : ~ C152_statement.
Proof.
  intros H.
  assert (E : exists s, get_openapi no_definitions [Node (u "/users/{id}") true [Leaf (get_at (u "/pets") plain_handler)]] = Some s /\
    dget (u "/users/{id}/pets") (paths s) = None) by (eexists; split; [vm_compute; reflexivity|vm_compute; reflexivity]).
  destruct E as (s & G & D). specialize (H no_definitions _ s (u "/users/{id}/pets") (u "GET") G eq_refl).
  destruct H as [_ H]; [discriminate|]. destruct H as (o & os & X & _); [|congruence].
  exists (get_at (u "/pets") plain_handler), plain_handler. refine (conj _ (conj _ (conj _ plain_shown))).
  - refine (inside (u "/users/{id}") true [Leaf (get_at (u "/pets") plain_handler)] _ (u "/pets") true _ _ _); [left; reflexivity|]. refine (here (get_at (u "/pets") plain_handler) _ _). left. reflexivity.
  - apply get_answers.
  - intros a E. discriminate.
Qed.
Print Assumptions C152_parameter_refuted.

(** What is under a host is not documented. *)
Theorem C152_host_refuted : ~ C152_statement.
Proof.
  intros H.
  assert (E : exists s, get_openapi no_definitions [HostNode [Leaf (get_at (u "/pets") plain_handler)]] = Some s /\
    dget (u "/pets") (paths s) = None) by (eexists; split; [vm_compute; reflexivity|vm_compute; reflexivity]).
  destruct E as (s & G & D). specialize (H no_definitions _ s (u "/pets") (u "GET") G eq_refl).
  destruct H as [_ H]; [discriminate|]. destruct H as (o & os & X & _); [|congruence].
  exists (get_at (u "/pets") plain_handler), plain_handler. refine (conj _ (conj _ (conj _ plain_shown))).
  - eapply hosted; [left; reflexivity|]. refine (here (get_at (u "/pets") plain_handler) _ _). left. reflexivity.
  - apply get_answers.
  - intros a E. discriminate.
Qed.
Print Assumptions C152_host_refuted.

(** What a hidden include, a decorator that hides its handler, a websocket, or a controller whose route is restricted to
    other methods has, is documented. *)
Definition restricted : leaf :=
  {| l_path := u "/pets"; l_in := true; l_ws := false; l_methods := Some [u "GET"]; l_end := Ctrl false [(u "get", plain_handler); (u "post", plain_handler)] |}.
Definition socket : leaf := {| l_path := u "/pets"; l_in := true; l_ws := true; l_methods := None; l_end := Func plain_handler |}.
Lemma located_single l0 p b l : located [Leaf l0] p b l -> l = l0.
Proof. intros L. inversion L as [l1 rs I|p1 sh rs1 rs q b1 l1 I L1|rs1 rs q b1 l1 I L1]; subst; destruct I as [I|[]]; congruence. Qed.
Lemma located_hidden p rs q b l : located [Node p false rs] q b l -> b = false.
Proof. intros L. inversion L as [l1 rs0 I|p1 sh rs1 rs0 q1 b1 l1 I L1|rs1 rs0 q1 b1 l1 I L1]; subst; destruct I as [I|[]]; try discriminate. injection I as <- <- <-. reflexivity. Qed.
Ltac no_more H := repeat (destruct H as [H|H]; [discriminate H|]); destruct H.
Ltac documented H r m :=
  let E := fresh "E" in
  assert (E : exists s o, get_openapi no_definitions [r] = Some s /\ documents s (u "/pets") m o)
    by (eexists; eexists; split; [vm_compute; reflexivity|eexists; split; vm_compute; reflexivity]);
  destruct E as (s & o & G & D); specialize (H no_definitions _ s (u "/pets") m G eq_refl);
  destruct H as [H _]; [discriminate|]; destruct H as (l & h & L & A & S & V); [exists o; exact D|].
Theorem C152_hidden_include_refuted : ~ C152_statement.
Proof.
  intros H. documented H (Node (u "/") false [Leaf (get_at (u "/pets") plain_handler)]) (u "GET").
  apply located_hidden in L. discriminate L.
Qed.
Print Assumptions C152_hidden_include_refuted.
Theorem C152_hidden_handler_refuted : ~ C152_statement.
Proof.
  intros H. documented H (Leaf (get_at (u "/pets") {| h_name := Some (u "pets"); h_meta := Some (ordinary_meta false) |})) (u "GET").
  apply located_single in L. subst l.
  inversion A; subst; cbn in *; try congruence.
  match goal with X : Func _ = Func _ |- _ => assert (EH := f_equal (fun r => match r with Func x => x | _ => h end) X); cbv beta iota in EH end. subst h.
  specialize (V _ eq_refl). discriminate V.
Qed.
Print Assumptions C152_hidden_handler_refuted.
Theorem C152_websocket_refuted : ~ C152_statement.
Proof.
  intros H. documented H (Leaf socket) (u "GET").
  apply located_single in L. subst l.
  inversion A; subst; cbn in *; congruence.
Qed.
Print Assumptions C152_websocket_refuted.
Theorem C152_method_refuted : ~ C152_statement.
Proof.
  intros H. documented H (Leaf restricted) (u "POST").
  apply located_single in L. subst l.
  inversion A as [| |l' x at' m' h' W E M I DG]; subst; cbn in *; try congruence.
  destruct (M [u "GET"] eq_refl) as [X|[]]. discriminate X.
Qed.
Print Assumptions C152_method_refuted.
(** A route to an object without methods leaves the application without a document. *)
Theorem C152_object_refuted : ~ (forall definitions rs, exists s, get_openapi definitions rs = Some s).
Proof.
  intros H. destruct (H no_definitions [Leaf {| l_path := u "/pets"; l_in := true; l_ws := false; l_methods := None; l_end := Other plain_handler |}]) as (s & E).
  vm_compute in E. discriminate.
Qed.
Print Assumptions C152_object_refuted.

(** * C153: an operation describes the handler that answers *)
Lemma dec_inj a b : dec a = dec b -> a = b.
Proof. intros E. assert (X : int_parse (dec a) = int_parse (dec b)) by congruence. rewrite !int_parse_dec0 in X. injection X. lia. Qed.
Lemma lower_body m : upper m = m -> smem (lower m) body_methods = true <-> In m [u "QUERY"; u "POST"; u "PUT"; u "PATCH"].
Proof.
  intros U. rewrite smem_In. unfold body_methods. split.
  - intros I. cbn [In] in I |- *. assert (E : m = upper (lower m)) by (rewrite upper_lower; congruence).
    destruct I as [I|[I|[I|[I|[]]]]]; rewrite <- I in E; rewrite E; vm_compute; auto.
  - intros I. cbn [In] in I |- *. destruct I as [<-|[<-|[<-|[<-|[]]]]]; vm_compute; auto.
Qed.
Lemma responses_get rs code r : NoDup (map fst rs) -> In (code, r) rs -> dget (dec code) (dupdate [] (map response_of rs)) = Some (snd (response_of (code, r))).
Proof.
  intros ND I. assert (K : NoDup (map fst (map response_of rs))).
  { replace (map fst (map response_of rs)) with (map dec (map fst rs)) by (rewrite !map_map; reflexivity).
    apply FinFun.Injective_map_NoDup; [intros a b; apply dec_inj|exact ND]. }
  rewrite JsonProofs.dupdate_distinct by exact K. cbn [app]. apply PathRevProofs.In_dget; [exact K|].
  apply in_map_iff. exists (code, r). split; [reflexivity|exact I].
Qed.
Lemma operation_says ps m h name : Forall piece_ok ps -> upper m = m -> h_name h = Some name -> says (operation_of (written ps) m h name) ps m h.
Proof.
  intros P U HN. constructor; unfold operation_of; cbn [o_id o_summary o_security o_params o_body o_responses].
  - intros mt ->. reflexivity.
  - intros mt i -> ->. reflexivity.
  - intros ->. congruence.
  - rewrite names_written by exact P. reflexivity.
  - intros mt -> I. apply (lower_body m U) in I. rewrite I. reflexivity.
  - intros I. destruct (smem (lower m) body_methods) eqn:E; [|reflexivity]. apply (lower_body m U) in E. contradiction.
  - intros mt code r -> ND I. unfold responses_of. destruct (m_responses mt) as [|x xs] eqn:E; [destruct I|]. rewrite <- E in *.
    rewrite (responses_get _ _ _ ND I). cbn. eexists. split; [reflexivity|]. destruct (r_text r); [congruence|reflexivity].
  - intros mt code x -> NE D. unfold responses_of in D. destruct (m_responses mt) as [|y ys] eqn:E; [congruence|]. rewrite <- E in *.
    apply HeaderProofs.dget_In in D. apply (in_map fst) in D. cbn [fst] in D. apply (EnvProps.dupdate_keys (map response_of (m_responses mt)) []) in D as [[]|D].
    rewrite map_map in D. apply in_map_iff in D as ((n & r) & <- & I). exists n, r. split; [exact I|reflexivity].
  - intros D. unfold responses_of. destruct (h_meta h) as [mt|]; [|reflexivity]. rewrite (D mt eq_refl). reflexivity.
Qed.

Definition C153_statement : Prop := forall definitions l1 l2 s m h1 o, get_openapi definitions [Leaf l1; Leaf l2] = Some s ->
  l_in l1 = true -> upper m = m -> m <> u "HEAD" -> answers l1 m h1 -> documents s (l_path l1) m o ->
  forall ps, l_path l1 = written ps -> Forall piece_ok ps -> says o ps m h1.

Theorem C153_describes_partial : forall definitions rs s path m o, Forall ordinary rs -> get_openapi definitions rs = Some s ->
  upper m = m -> m <> u "HEAD" -> documents s path m o ->
  forall l h, located rs path true l -> answers l m h -> endpoint_shown l ->
  (forall l' h', located rs path true l' -> answers l' m h' -> endpoint_shown l' -> h' = h) ->
  forall ps, path = written ps -> Forall piece_ok ps -> says o ps m h.
Proof.
  intros defs rs s path m o O G U X D l h L A S Uniq ps -> P. apply get_put in G as [-> F]. apply documents_doc in D.
  destruct (items_some _ _ _ _ _ _ F D eq_refl) as ([[p m'] h'] & I & [K1 K2] & OP). cbn in K1, K2, OP. subst p.
  apply (all_items_iff rs _ _ _ O) in I as (_ & U' & l' & L' & A' & S'). assert (m' = m) by (apply lower_inj; assumption). subst m'.
  rewrite (Uniq l' h' L' A' S') in OP. destruct (h_name h) as [name|] eqn:HN; [|discriminate]. cbn in OP.
  assert (operation_of (written ps) m h name = o) as <- by congruence. apply operation_says; assumption.
Qed.
Print Assumptions C153_describes_partial.

(** Met by a decorated handler; here are its parameters, its body and its responses. *)
Definition decorated : handler := {| h_name := Some (u "item"); h_meta := Some (ordinary_meta true) |}.
Definition post_at (p : str) (h : handler) : leaf := {| l_path := p; l_in := true; l_ws := false; l_methods := Some [u "POST"]; l_end := Func h |}.
Example C153_case : exists s o, get_openapi no_definitions [Leaf (post_at (u "/item/{id}") decorated)] = Some s /\
  documents s (u "/item/{id}") (u "POST") o /\ u "/item/{id}" = written [Text (u "/item/"); Par (u "id")] /\
  Forall piece_ok [Text (u "/item/"); Par (u "id")] /\ o_params o = [InPath (u "id"); InQuery (u "q") 2] /\ o_body o = Some 3 /\
  map fst (o_responses o) = [u "404"].
Proof.
  eexists. eexists. split; [vm_compute; reflexivity|]. split; [eexists; split; vm_compute; reflexivity|].
  split; [reflexivity|]. split; [|split; [reflexivity|split; reflexivity]].
  repeat apply Forall_cons; [intros I; no_more I| |apply Forall_nil]. split; [discriminate|]. intros I. no_more I.
Qed.

(** Of two routes with the same path and method the first answers and the second is described. *)
Theorem C153_first_refuted : ~ C153_statement.
Proof.
  intros H.
  assert (E : exists s o, get_openapi no_definitions [Leaf (get_at (u "/pets") plain_handler); Leaf (get_at (u "/pets") {| h_name := Some (u "other"); h_meta := None |})] = Some s /\
    documents s (u "/pets") (u "GET") o /\ o_id o = Some (u "other")) by (eexists; eexists; split; [vm_compute; reflexivity|split; [eexists; split; vm_compute; reflexivity|reflexivity]]).
  destruct E as (s & o & G & D & N). specialize (H no_definitions _ _ s (u "GET") plain_handler o G eq_refl eq_refl).
  assert (X : says o [Text (u "/pets")] (u "GET") plain_handler).
  { apply H; [discriminate| |exact D|reflexivity|].
    - apply get_answers.
    - apply Forall_cons; [|apply Forall_nil]. intros I. no_more I. }
  pose proof (says_name _ _ _ _ X eq_refl) as Y. rewrite N in Y. vm_compute in Y. discriminate Y.
Qed.
Print Assumptions C153_first_refuted.

(** The decorator promises the name of the function when no identifier is given; there is none. *)
Theorem C153_identifier_refuted : ~ (forall definitions l h mt name s o m, get_openapi definitions [Leaf l] = Some s -> l_end l = Func h ->
  h_meta h = Some mt -> m_id mt = None -> h_name h = Some name -> documents s (l_path l) m o -> o_id o = Some name).
Proof.
  intros H.
  assert (E : exists s o, get_openapi no_definitions [Leaf (post_at (u "/item") decorated)] = Some s /\ documents s (u "/item") (u "POST") o /\ o_id o = None)
    by (eexists; eexists; split; [vm_compute; reflexivity|split; [eexists; split; vm_compute; reflexivity|reflexivity]]).
  destruct E as (s & o & G & D & N). specialize (H _ _ _ _ _ s o (u "POST") G eq_refl eq_refl eq_refl eq_refl D). congruence.
Qed.
Print Assumptions C153_identifier_refuted.

(** * C154: the security schemes *)
Lemma fold_keeps (l : list (str * secval)) : forall (d : list (str * secval)) n v, dget n d = Some v ->
  dget n (fold_left (fun d x => if dmem (fst x) d then d else dset (fst x) (snd x) d) l d) = Some v.
Proof.
  induction l as [|[k x] l IH]; intros d n v E; [exact E|]. cbn [fold_left fst snd]. apply IH.
  unfold dmem. destruct (dget k d) eqn:K; [exact E|]. rewrite dget_dset_other; [exact E|]. intros ->. congruence.
Qed.
Lemma add_schemes_keeps sec : forall d n v, dget n d = Some v -> dget n (add_schemes d sec) = Some v.
Proof. intros d n v. apply fold_keeps. Qed.
Lemma add_schemes_has sec : forall d n v, In (n, v) (concat sec) -> exists w, dget n (add_schemes d sec) = Some w.
Proof.
  unfold add_schemes. induction (concat sec) as [|[k x] l IH]; intros d n v I; [destruct I|]. cbn [fold_left fst snd]. destruct I as [I|I].
  - injection I as -> ->. assert (E : exists w, dget n (if dmem n d then d else dset n v d) = Some w).
    { unfold dmem. destruct (dget n d) as [w|] eqn:K; [exists w; exact K|]. exists v. apply dget_dset_same. }
    destruct E as (w & E). exists w. apply fold_keeps. exact E.
  - eapply IH. exact I.
Qed.
Lemma add_schemes_from sec : forall d n v, dget n (add_schemes d sec) = Some v -> dget n d = Some v \/ In (n, v) (concat sec).
Proof.
  unfold add_schemes. induction (concat sec) as [|[k x] l IH]; intros d n v E; [left; exact E|]. cbn [fold_left fst snd] in E. apply IH in E as [E|E]; [|right; right; exact E].
  unfold dmem in E. destruct (dget k d) eqn:K; [left; exact E|]. destruct (seqb_spec n k) as [->|D].
  - rewrite dget_dset_same in E. right. left. congruence.
  - rewrite dget_dset_other in E by congruence. left. exact E.
Qed.
Definition secured (h : handler) (n : str) (v : secval) : Prop := exists mt r, h_meta h = Some mt /\ In r (m_security mt) /\ In (n, v) r.
Lemma secured_concat h mt n v : h_meta h = Some mt -> secured h n v <-> In (n, v) (concat (m_security mt)).
Proof.
  intros E. rewrite in_concat. split.
  - intros (mt' & r & E' & R & I). assert (mt' = mt) by congruence. subst. eauto.
  - intros (r & R & I). exists mt, r. auto.
Qed.
Lemma put_schemes defs s i n v : named i -> dget n (schemes s) = Some v -> dget n (schemes (put defs s i)) = Some v.
Proof.
  destruct i as [[p m] h]. unfold named, put. cbn. destruct (h_name h); [|congruence]. intros _ E. cbn. destruct (h_meta h); [|exact E]. apply add_schemes_keeps. exact E.
Qed.
Lemma fold_schemes_keep defs is : forall s n v, Forall named is -> dget n (schemes s) = Some v -> dget n (schemes (fold_left (put defs) is s)) = Some v.
Proof. induction is as [|i is IH]; intros s n v F E; [exact E|]. apply Forall_cons_iff in F as [X F]. cbn [fold_left]. apply IH; [exact F|]. apply put_schemes; assumption. Qed.
Lemma fold_schemes_has defs is : forall s p m h n v, Forall named is -> In (p, m, h) is -> secured h n v -> exists w, dget n (schemes (fold_left (put defs) is s)) = Some w.
Proof.
  induction is as [|i is IH]; intros s p m h n v F I SE; [destruct I|]. apply Forall_cons_iff in F as [X F]. cbn [fold_left]. destruct I as [->|I]; [|eapply IH; eassumption].
  assert (E : exists w, dget n (schemes (put defs s (p, m, h))) = Some w).
  { unfold named in X. cbn in X. unfold put. destruct (h_name h); [|congruence]. cbn. pose proof SE as (mt & r & E & _). rewrite E. apply (secured_concat h mt n v E) in SE.
    eapply add_schemes_has. exact SE. }
  destruct E as (w & E). exists w. apply fold_schemes_keep; assumption.
Qed.
Lemma fold_schemes_from defs is : forall s n v, Forall named is -> dget n (schemes (fold_left (put defs) is s)) = Some v ->
  dget n (schemes s) = Some v \/ exists p m h, In (p, m, h) is /\ secured h n v.
Proof.
  induction is as [|i is IH]; intros s n v F E; [left; exact E|]. apply Forall_cons_iff in F as [X F]. cbn [fold_left] in E. apply IH in E as [E|(p & m & h & I & SE)]; [| |exact F].
  - destruct i as [[p m] h]. unfold named in X. cbn in X. unfold put in E. destruct (h_name h); [|congruence]. cbn in E. destruct (h_meta h) as [mt|] eqn:HM; [|left; exact E].
    apply add_schemes_from in E as [E|E]; [left; exact E|]. right. exists p, m, h. split; [left; reflexivity|]. apply (secured_concat h mt n v HM). exact E.
  - right. exists p, m, h. split; [right; exact I|exact SE].
Qed.

(** Every scheme that an operation names is defined in the document, and only those are. *)
Theorem C154_defined : forall definitions rs s path m o sec r n v, get_openapi definitions rs = Some s -> documents s path m o ->
  o_security o = Some sec -> In r sec -> In (n, v) r -> exists w, dget n (schemes s) = Some w.
Proof.
  intros defs rs s path m o sec r n v G D SE R I. apply get_put in G as [-> F]. apply documents_doc in D.
  destruct (items_some _ _ _ _ _ _ F D eq_refl) as ([[p m'] h] & IN & _ & OP). cbn in OP. destruct (h_name h) as [name|]; [|discriminate]. cbn in OP.
  eapply (fold_schemes_has defs); [exact F|exact IN|]. assert (E : o_security (operation_of p m' h name) = Some sec) by congruence.
  cbn in E. destruct (h_meta h) as [mt|] eqn:HM; [|discriminate]. exists mt, r. refine (conj HM (conj _ I)). destruct (m_security mt); [discriminate|]. congruence.
Qed.
Print Assumptions C154_defined.
Theorem C154_only_partial : forall definitions rs s n v, Forall ordinary rs -> get_openapi definitions rs = Some s -> dget n (schemes s) = Some v ->
  exists path l m h, located rs path true l /\ answers l m h /\ secured h n v.
Proof.
  intros defs rs s n v O G D. apply get_put in G as [-> F]. apply fold_schemes_from in D as [D|(p & m & h & I & SE)]; [discriminate| |exact F].
  apply (all_items_iff rs _ _ _ O) in I as (_ & _ & l & L & A & _). exists p, l, m, h. auto.
Qed.
Print Assumptions C154_only_partial.
(** If the handlers agree on what a name stands for, that is its definition. *)
Definition C154_statement : Prop := forall definitions rs s path l m h n v, Forall ordinary rs -> get_openapi definitions rs = Some s ->
  located rs path true l -> answers l m h -> endpoint_shown l -> upper m = m -> m <> u "HEAD" -> secured h n v -> dget n (schemes s) = Some v.
Theorem C154_agreed_partial : forall definitions rs s path l m h n v, Forall ordinary rs -> get_openapi definitions rs = Some s ->
  located rs path true l -> answers l m h -> endpoint_shown l -> upper m = m -> m <> u "HEAD" -> secured h n v ->
  (forall path' l' m' h' v', located rs path' true l' -> answers l' m' h' -> secured h' n v' -> v' = v) -> dget n (schemes s) = Some v.
Proof.
  intros defs rs s path l m h n v O G L A S U X SE AG. apply get_put in G as [-> F].
  assert (I : In (path, m, h) (all_items rs)) by (apply (all_items_iff rs _ _ _ O); eauto 6).
  destruct (fold_schemes_has defs _ start _ _ _ _ _ F I SE) as (w & E). rewrite E. apply fold_schemes_from in E as [E|(p & m' & h' & I' & SE')]; [discriminate| |exact F].
  apply (all_items_iff rs _ _ _ O) in I' as (_ & _ & l' & L' & A' & _). rewrite (AG _ _ _ _ _ L' A' SE'). reflexivity.
Qed.
Print Assumptions C154_agreed_partial.
Definition secured_meta (v : secval) : meta :=
  {| m_id := None; m_summary := None; m_shown := true; m_security := [[(u "key", v)]]; m_query := []; m_body := None; m_default := None; m_responses := [] |}.
Definition secured_handler (v : secval) : handler := {| h_name := Some (u "a"); h_meta := Some (secured_meta v) |}.
Lemma secured_shown v : handler_shown (secured_handler v).
Proof. intros mt E. injection E as <-. reflexivity. Qed.
Lemma secured_key v : secured (secured_handler v) (u "key") v.
Proof. exists (secured_meta v), [(u "key", v)]. refine (conj eq_refl (conj _ _)); left; reflexivity. Qed.
Example C154_case : secured (secured_handler (Scheme 1)) (u "key") (Scheme 1) /\ exists s, get_openapi no_definitions [Leaf (get_at (u "/a") (secured_handler (Scheme 1)))] = Some s /\
  dget (u "key") (schemes s) = Some (Scheme 1).
Proof. split; [apply secured_key|]. eexists. split; [vm_compute; reflexivity|reflexivity]. Qed.
(** Otherwise the first one is the definition for all. *)
Theorem C154_definition_refuted : ~ C154_statement.
Proof.
  intros H. set (rs := [Leaf (get_at (u "/a") (secured_handler (Scheme 1))); Leaf (get_at (u "/b") (secured_handler (Scheme 2)))]).
  assert (E : exists s, get_openapi no_definitions rs = Some s /\ dget (u "key") (schemes s) = Some (Scheme 1)) by (eexists; split; [vm_compute; reflexivity|reflexivity]).
  destruct E as (s & G & D). assert (X : dget (u "key") (schemes s) = Some (Scheme 2)).
  { refine (H no_definitions rs s (u "/b") (get_at (u "/b") (secured_handler (Scheme 2))) (u "GET") (secured_handler (Scheme 2)) (u "key") (Scheme 2) _ G _ _ _ eq_refl _ _).
    - repeat apply Forall_cons; [| |apply Forall_nil]; apply o_leaf, get_ordinary, secured_shown.
    - refine (here (get_at (u "/b") (secured_handler (Scheme 2))) rs _). right. left. reflexivity.
    - apply get_answers.
    - intros a E. discriminate.
    - discriminate.
    - apply secured_key. }
  congruence.
Qed.
Print Assumptions C154_definition_refuted.

(** What the decorator makes of the requirements: one mapping of all the names, the last definition of each; nothing if
    there are no names. *)
Definition required (l : list requirement) : list (str * secval) :=
  flat_map (fun r => match r with Mapping d => d | Object n x => [(n, Scheme x)] end) l.
Theorem C154_requirements : forall l,
  (required l = [] -> requirements l = []) /\
  (required l <> [] -> exists d, requirements l = [d] /\ forall n, dget n d = dget n (rev (required l))).
Proof.
  intros l. unfold requirements.
  assert (E : forall d, fold_left (fun d r => match r with Mapping e => dupdate d e | Object n x => dset n (Scheme x) d end) l d = dupdate d (required l)).
  { unfold required. induction l as [|[e|n x] l IH]; intros d; [reflexivity| |]; cbn [fold_left flat_map]; rewrite IH; unfold dupdate; rewrite fold_left_app; reflexivity. }
  rewrite E. split.
  - intros ->. reflexivity.
  - intros NE. pose proof (CookieProofs.dget_dupdate_rev (required l)) as G. destruct (dupdate [] (required l)) as [|x d] eqn:D.
    + destruct (required l) as [|[k v] r] eqn:R; [congruence|]. exfalso. specialize (G k). symmetry in G. cbn [dget] in G.
      assert (In k (dkeys (rev ((k, v) :: r)))) by (unfold dkeys; rewrite map_rev, <- in_rev; left; reflexivity).
      apply dget_None_keys in G. contradiction.
    + exists (x :: d). split; [reflexivity|exact G].
Qed.
Print Assumptions C154_requirements.
(** So the operations of a handler that uses a scheme do not give its scopes. *)
Theorem C154_scopes_refuted : ~ (forall l r n v, In r (requirements l) -> In (n, v) r -> exists scopes, v = Scopes scopes).
Proof. intros H. destruct (H [Object (u "key") 1] [(u "key", Scheme 1)] (u "key") (Scheme 1)) as (x & E); [left; reflexivity|left; reflexivity|discriminate]. Qed.
Print Assumptions C154_scopes_refuted.

(** * C155: the schemas of responses *)
Definition has_model (definitions : nat -> list (str * nat)) (h : handler) (n : str) (d : nat) : Prop :=
  exists mt code r, h_meta h = Some mt /\ In (code, r) (m_responses mt) /\ In (n, d) (definitions (r_model r)).
Lemma add_schemas_get defs d rs n : dget n (add_schemas defs d rs) =
  match dget n (rev (flat_map (fun r => defs (r_model (snd r))) rs)) with Some v => Some v | None => dget n d end.
Proof. apply EnvProofs.dget_dupdate. Qed.
Lemma fold_schemas_from defs is : forall s n v, Forall named is -> dget n (schemas (fold_left (put defs) is s)) = Some v ->
  dget n (schemas s) = Some v \/ exists p m h, In (p, m, h) is /\ has_model defs h n v.
Proof.
  induction is as [|i is IH]; intros s n v F E; [left; exact E|]. apply Forall_cons_iff in F as [X F]. cbn [fold_left] in E. apply IH in E as [E|(p & m & h & I & SE)]; [| |exact F].
  - destruct i as [[p m] h]. unfold named in X. cbn in X. unfold put in E. destruct (h_name h); [|congruence]. cbn in E. destruct (h_meta h) as [mt|] eqn:HM; [|left; exact E].
    rewrite add_schemas_get in E. destruct (dget n (rev (flat_map _ _))) as [w|] eqn:R; [|left; exact E]. assert (w = v) by congruence. subst w.
    right. exists p, m, h. split; [left; reflexivity|]. apply HeaderProofs.dget_In in R. apply in_rev in R. apply in_flat_map in R as ([code r] & R & I).
    exists mt, code, r. auto.
  - right. exists p, m, h. split; [right; exact I|exact SE].
Qed.
Lemma put_schemas_keep defs s i n : named i -> dget n (schemas s) <> None -> dget n (schemas (put defs s i)) <> None.
Proof.
  destruct i as [[p m] h]. unfold named, put. cbn. destruct (h_name h); [|congruence]. intros _ E. cbn. destruct (h_meta h); [|exact E]. rewrite add_schemas_get. destruct (dget n (rev _)); [discriminate|exact E].
Qed.
Lemma fold_schemas_has defs is : forall s p m h n v, Forall named is -> In (p, m, h) is -> has_model defs h n v -> dget n (schemas (fold_left (put defs) is s)) <> None.
Proof.
  assert (K : forall is s n, Forall named is -> dget n (schemas s) <> None -> dget n (schemas (fold_left (put defs) is s)) <> None).
  { induction is0 as [|i is0 IH]; intros s n F E; [exact E|]. apply Forall_cons_iff in F as [X F]. cbn [fold_left]. apply IH; [exact F|]. apply put_schemas_keep; assumption. }
  induction is as [|i is IH]; intros s p m h n v F I SE; [destruct I|]. apply Forall_cons_iff in F as [X F]. cbn [fold_left]. destruct I as [->|I]; [|eapply IH; eassumption].
  apply K; [exact F|]. unfold named in X. cbn in X. unfold put. destruct (h_name h); [|congruence]. cbn. destruct SE as (mt & code & r & E & R & I). rewrite E.
  rewrite add_schemas_get. destruct (dget n (rev _)) eqn:G; [discriminate|]. apply dget_None_keys in G. destruct G.
  unfold dkeys. rewrite map_rev, <- in_rev. apply in_map_iff. exists (n, v). split; [reflexivity|]. apply in_flat_map. exists (code, r). auto.
Qed.
(** The reference of a documented response leads to a schema, and to that of its model. *)
Definition C155_statement : Prop := forall definitions rs s path l m h mt code r, Forall ordinary rs -> get_openapi definitions rs = Some s ->
  located rs path true l -> answers l m h -> endpoint_shown l -> upper m = m -> m <> u "HEAD" -> h_meta h = Some mt -> In (code, r) (m_responses mt) ->
  exists d, dget (r_name r) (schemas s) = Some d.
Theorem C155_schema_partial : forall definitions rs s path l m h mt code r d, Forall ordinary rs -> get_openapi definitions rs = Some s ->
  located rs path true l -> answers l m h -> endpoint_shown l -> upper m = m -> m <> u "HEAD" -> h_meta h = Some mt -> In (code, r) (m_responses mt) ->
  In (r_name r, d) (definitions (r_model r)) ->
  (exists d', dget (r_name r) (schemas s) = Some d') /\
  ((forall path' l' m' h' d', located rs path' true l' -> answers l' m' h' -> has_model definitions h' (r_name r) d' -> d' = d) ->
   dget (r_name r) (schemas s) = Some d).
Proof.
  intros defs rs s path l m h mt code r d O G L A S U X HM R I. apply get_put in G as [-> F].
  assert (IN : In (path, m, h) (all_items rs)) by (apply (all_items_iff rs _ _ _ O); eauto 6).
  assert (MO : has_model defs h (r_name r) d) by (exists mt, code, r; auto).
  pose proof (fold_schemas_has defs _ start _ _ _ _ _ F IN MO) as D. destruct (dget (r_name r) (schemas _)) as [d'|] eqn:E; [|congruence].
  split; [exists d'; reflexivity|]. intros AG. apply fold_schemas_from in E as [E|(p & m' & h' & I' & SE')]; [discriminate| |exact F].
  apply (all_items_iff rs _ _ _ O) in I' as (_ & _ & l' & L' & A' & _). rewrite (AG _ _ _ _ _ L' A' SE'). reflexivity.
Qed.
Print Assumptions C155_schema_partial.
Definition answered (n : str) (model : nat) : handler :=
  {| h_name := Some (u "a"); h_meta := Some {| m_id := None; m_summary := None; m_shown := true; m_security := []; m_query := []; m_body := None; m_default := None;
       m_responses := [(200%N, {| r_text := []; r_media := u "text/plain"; r_listed := true; r_name := n; r_model := model |})] |} |}.
Lemma answered_shown n k : handler_shown (answered n k).
Proof. intros mt E. injection E as <-. reflexivity. Qed.
Definition some_definitions (k : nat) : list (str * nat) := match k with O => [] | _ => [(u "Pet", k)] end.
Example C155_case : In (u "Pet", 5) (some_definitions 5) /\ exists s, get_openapi some_definitions [Leaf (get_at (u "/a") (answered (u "Pet") 5))] = Some s /\ dget (u "Pet") (schemas s) = Some 5.
Proof. split; [left; reflexivity|]. eexists. split; [vm_compute; reflexivity|reflexivity]. Qed.
(** A plain type has no definition: the reference leads nowhere. *)
Theorem C155_plain_type_refuted : ~ C155_statement.
Proof.
  intros H. assert (E : exists s, get_openapi some_definitions [Leaf (get_at (u "/a") (answered (u "str") 0))] = Some s /\ dget (u "str") (schemas s) = None) by (eexists; split; [vm_compute; reflexivity|reflexivity]).
  destruct E as (s & G & D). assert (X : exists d, dget (u "str") (schemas s) = Some d).
  { refine (H some_definitions _ s (u "/a") (get_at (u "/a") (answered (u "str") 0)) (u "GET") (answered (u "str") 0) _ 200%N _ _ G _ _ _ eq_refl _ eq_refl (or_introl eq_refl)).
    - apply Forall_cons; [|apply Forall_nil]. apply o_leaf, get_ordinary, answered_shown.
    - refine (here (get_at (u "/a") (answered (u "str") 0)) _ _). left. reflexivity.
    - apply get_answers.
    - intros a E. discriminate.
    - discriminate. }
  destruct X. congruence.
Qed.
Print Assumptions C155_plain_type_refuted.
(** Two models of the same name share the definition of the last. *)
Theorem C155_same_name_refuted : exists s, get_openapi some_definitions [Leaf (get_at (u "/a") (answered (u "Pet") 5)); Leaf (get_at (u "/b") (answered (u "Pet") 6))] = Some s /\
  dget (u "Pet") (schemas s) = Some 6 /\ some_definitions 5 = [(u "Pet", 5)].
Proof. eexists. split; [vm_compute; reflexivity|split; reflexivity]. Qed.
Print Assumptions C155_same_name_refuted.
(** The media type of a response is documented: it is not. *)
Theorem C155_media_refuted : ~ (forall definitions l s h mt m o code r, get_openapi definitions [Leaf l] = Some s -> l_end l = Func h -> h_meta h = Some mt ->
  documents s (l_path l) m o -> m_responses mt = [(code, r)] -> exists text, dget (dec code) (o_responses o) = Some (text, Some (r_media r, r_listed r, r_name r))).
Proof.
  intros H. assert (E : exists s o, get_openapi some_definitions [Leaf (get_at (u "/a") (answered (u "Pet") 5))] = Some s /\ documents s (u "/a") (u "GET") o /\
    dget (dec 200) (o_responses o) = Some (u "Successful response", Some (u "application/json", true, u "Pet")))
    by (eexists; eexists; split; [vm_compute; reflexivity|split; [eexists; split; vm_compute; reflexivity|vm_compute; reflexivity]]).
  destruct E as (s & o & G & D & R). destruct (H some_definitions _ s (answered (u "Pet") 5) _ (u "GET") o 200%N _ G eq_refl eq_refl D eq_refl) as (t & X).
  rewrite R in X. vm_compute in X. discriminate X.
Qed.
Print Assumptions C155_media_refuted.

(** * C156: the servers *)
Definition trimmed (root : str) : str := rstrip_by (N.eqb 47) root.
Lemma serves_inv flag roots : forall s, NoDup (urls s) -> known s = urls s ->
  let s' := serves flag s roots in
  NoDup (urls s') /\ known s' = urls s' /\ (exists new, urls s' = new ++ urls s /\ forall r, In r new -> r <> [] /\ In r (map trimmed roots) /\ flag = true) /\
  (flag = true -> forall r, In r roots -> trimmed r <> [] -> In (trimmed r) (urls s')).
Proof.
  induction roots as [|r roots IH]; intros s ND K; cbn [serves]; cbv zeta.
  - refine (conj ND (conj K (conj _ _))); [exists []; split; [reflexivity|intros r []]|intros _ r []].
  - assert (S : NoDup (urls (fst (serve flag s r))) /\ known (fst (serve flag s r)) = urls (fst (serve flag s r)) /\
      (urls (fst (serve flag s r)) = urls s \/ (urls (fst (serve flag s r)) = trimmed r :: urls s /\ trimmed r <> [] /\ flag = true)) /\
      (flag = true -> trimmed r <> [] -> In (trimmed r) (urls (fst (serve flag s r))))).
    { unfold serve. cbn [fst]. fold (trimmed r). destruct (smem (trimmed r) (known s)) eqn:M.
      - rewrite K in M. apply smem_In in M. auto.
      - rewrite K in M. destruct (trimmed r) as [|c t] eqn:T; [refine (conj ND (conj K (conj (or_introl eq_refl) _))); congruence|].
        destruct flag; [|refine (conj ND (conj K (conj (or_introl eq_refl) _))); congruence]. cbn [urls known].
        refine (conj _ (conj _ (conj _ _))).
        + constructor; [|exact ND]. intros I. apply smem_In in I. congruence.
        + congruence.
        + right. split; [reflexivity|split; [discriminate|reflexivity]].
        + intros _ _. left. reflexivity. }
    destruct S as (ND' & K' & CH & OWN). destruct (IH _ ND' K') as (A & B & (new & E & F) & H).
    refine (conj A (conj B (conj _ _))).
    + destruct CH as [CH|(CH & NE & FL)]; rewrite CH in E.
      * exists new. split; [exact E|]. intros x I. destruct (F x I) as (X & Y & Z). refine (conj X (conj _ Z)). right. exact Y.
      * exists (new ++ [trimmed r]). rewrite <- app_assoc. split; [exact E|]. intros x I. apply in_app_iff in I as [I|[<-|[]]].
        -- destruct (F x I) as (X & Y & Z). refine (conj X (conj _ Z)). right. exact Y.
        -- refine (conj NE (conj _ FL)). left. reflexivity.
    + intros FL x [<-|I] NE; [|apply H; assumption]. rewrite E. apply in_app_iff. right. apply OWN; assumption.
Qed.
(** After any requests: the configured servers are there, in order and after the root paths of clients; there are no
    duplicates; the root path of the request is there; nothing else is. *)
Theorem C156_servers : forall flag conf roots root, NoDup conf ->
  let s := serves flag (enabled conf) roots in
  let reply := snd (serve flag s root) in
  NoDup reply /\
  (flag = true -> trimmed root <> [] -> In (trimmed root) reply) /\
  (conf <> [] \/ (flag = true /\ trimmed root <> []) ->
   exists new, reply = new ++ conf /\ forall r, In r new -> flag = true /\ r <> [] /\ (In r (map trimmed roots) \/ r = trimmed root)) /\
  (flag = false -> conf = [] -> reply = [u "/"]).
Proof.
  intros flag conf roots root ND s reply.
  assert (E : reply = match urls (serves flag (enabled conf) (roots ++ [root])) with [] => [u "/"] | us => us end).
  { unfold reply, s. assert (X : forall l s0, serves flag s0 (l ++ [root]) = fst (serve flag (serves flag s0 l) root)).
    { induction l as [|x l IH]; intros s0; [reflexivity|]. cbn [app serves]. apply IH. }
    rewrite X. reflexivity. }
  destruct (serves_inv flag (roots ++ [root]) (enabled conf) ND eq_refl) as (A & _ & (new & B & C) & D). rewrite E. clear E. cbn [urls enabled] in B.
  refine (conj _ (conj _ (conj _ _))).
  - destruct (urls _) as [|x us]; [repeat constructor; intros []|exact A].
  - intros FL NE. specialize (D FL root (in_elt _ _ _) NE). destruct (urls _) as [|x us]; [destruct D|exact D].
  - intros H. exists new. split.
    + destruct (urls _) as [|x us] eqn:UE; [|exact B]. exfalso. destruct H as [H|[FL NE]].
      * destruct new; cbn in B; [congruence|discriminate].
      * destruct (D FL root (in_elt _ _ _) NE).
    + intros r I. destruct (C r I) as (X & Y & Z). refine (conj Z (conj X _)). rewrite map_app in Y. apply in_app_iff in Y as [Y|[Y|[]]]; [left; exact Y|right; congruence].
  - intros -> ->. destruct new as [|r new]; [rewrite B; reflexivity|]. destruct (C r (or_introl eq_refl)) as (_ & _ & Z). discriminate.
Qed.
Print Assumptions C156_servers.
Example C156_case : snd (serve true (serves true (enabled [u "https://x"]) [u "/a/"; u ""; u "/a"]) (u "/b")) = [u "/b"; u "/a"; u "https://x"].
Proof. reflexivity. Qed.
(** What a client is told depends on the requests of the others. *)
Theorem C156_other_clients_refuted : ~ (forall flag conf roots roots' root,
  snd (serve flag (serves flag (enabled conf) roots) root) = snd (serve flag (serves flag (enabled conf) roots') root)).
Proof. intros H. specialize (H true [u "https://x"] [u "/evil"] [] []). vm_compute in H. discriminate H. Qed.
Print Assumptions C156_other_clients_refuted.

(** * C157: the declaration of responses *)
Definition fresh_responses (d : list (nat * declared)) : Prop := forall c x, In (c, x) d -> exists t m, x = Given t m.
Definition C157_statement : Prop := forall n d, fresh_responses d -> decorate n d = n.
Theorem C157_once_partial : forall d, fresh_responses d ->
  (exists d', convert_responses d = Some d' /\ Forall2 (fun a b => fst a = fst b /\ exists t m, snd a = Given t m /\ snd b = Converted t m) d d') /\
  decorate 1 d = 1 /\ (forall n, d = [] -> decorate n d = n).
Proof.
  intros d F.
  assert (E : exists d', convert_responses d = Some d' /\ Forall2 (fun a b => fst a = fst b /\ exists t m, snd a = Given t m /\ snd b = Converted t m) d d').
  { induction d as [|[c x] d IH]; [eexists; split; [reflexivity|constructor]|]. destruct (F c x (or_introl eq_refl)) as (t & m & ->).
    destruct IH as (d' & E & A); [intros c' y I; exact (F c' y (or_intror I))|]. cbn. rewrite E. eexists. split; [reflexivity|].
    constructor; [|exact A]. split; [reflexivity|]. exists t, m. auto. }
  refine (conj E (conj _ _)).
  - destruct E as (d' & E & _). cbn [decorate]. rewrite E. reflexivity.
  - intros n ->. induction n as [|n IH]; [reflexivity|]. cbn. rewrite IH. reflexivity.
Qed.
Print Assumptions C157_once_partial.
(** The second handler that is given the same dictionary cannot be decorated. *)
Theorem C157_shared : forall d n, fresh_responses d -> d <> [] -> decorate (S n) d = 1.
Proof.
  intros d n F NE. cbn [decorate]. destruct d as [|[c x] d]; [congruence|]. destruct (F c x (or_introl eq_refl)) as (t & m & ->).
  cbn [convert_responses]. destruct (convert_responses d) as [d'|] eqn:E; [destruct n; reflexivity|]. exfalso.
  assert (F' : fresh_responses d) by (intros c' y I; exact (F c' y (or_intror I))). clear F NE. revert E F'. induction d as [|[c' x] d IH]; intros E F; [discriminate|].
  destruct (F c' x (or_introl eq_refl)) as (t' & m' & ->). cbn in E. destruct (convert_responses d); [discriminate|]. apply IH; [reflexivity|]. intros c2 y I. exact (F c2 y (or_intror I)).
Qed.
Print Assumptions C157_shared.
Example C157_case : fresh_responses [(404, Given (u "Gone") 7)].
Proof. intros c x [E|[]]. injection E as <- <-. eauto. Qed.
Theorem C157_shared_refuted : ~ C157_statement.
Proof. intros H. specialize (H 2 _ C157_case). vm_compute in H. discriminate H. Qed.
Print Assumptions C157_shared_refuted.
