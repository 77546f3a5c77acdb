(** C50: the fast path and the general path hand over the same arguments.  C90: bound parameters.  C91: which
    level's provider is used. *)
From Verif Require Import PyStr PyStrFacts EnvSpec EnvProofs ArgsModel ArgsSpec ArgsProofs.

Section Props.
Context {V C P : Type} (none : V) (of_text : str -> V) (of_texts : list str -> V) (do_cast : C -> V -> casted V).
Implicit Types (r : request V) (f : field V C) (e : surroundings V P) (s : signature V C P).
Notation fast := (fast (P:=P) none of_text of_texts do_cast).
Notation general := (general none of_text of_texts do_cast).
Notation handle := (handle none of_text of_texts do_cast).
Notation reads := (reads none of_text of_texts do_cast).
Notation unprocessable := (unprocessable of_text of_texts do_cast).

(** C50: for a signature taken by the fast path (no markers of dependencies, and only [request] and [context]
    without a default), both paths agree. *)
Definition C50_statement := forall e r s, NoDup (names s) -> is_fast_path_eligible s = true -> same (fast r s) (general e r s).

Lemma args_inj (x y : dict (arg V)) : Args x = Args y -> y = x.
Proof. congruence. Qed.
Lemma eligible_iff s : is_fast_path_eligible s = true <->
  forall n d, In (n, d) s -> match d with Empty => n = u "request" \/ n = u "context" | Plain _ | Bound _ => True | _ => False end.
Proof.
  unfold is_fast_path_eligible. rewrite andb_true_iff, !negb_true_iff. unfold has_provider_markers, has_body_candidates. split.
  - intros [A B] n d I. destruct d as [|v|f| |q]; [|exact Logic.I|exact Logic.I| |].
    + destruct (smem n [u "request"; u "context"]) eqn:M; [apply smem_In in M; destruct M as [M|[M|[]]]; [left|right]; congruence|].
      exfalso. assert (X : existsb (fun p : str * default V C P => is_empty (snd p) && negb (smem (fst p) [u "request"; u "context"])) s = true); [|congruence].
      apply existsb_exists. exists (n, Empty). split; [exact I|]. cbn [snd fst is_empty andb]. rewrite M. reflexivity.
    + assert (X : existsb (fun p : str * default V C P => is_marker (snd p)) s = true); [|congruence]. apply existsb_exists. eexists; split; [exact I|reflexivity].
    + assert (X : existsb (fun p : str * default V C P => is_marker (snd p)) s = true); [|congruence]. apply existsb_exists. eexists; split; [exact I|reflexivity].
  - intros H. split; apply not_true_iff_false; intros X; apply existsb_exists in X; destruct X as ((n, d) & I & X); specialize (H n d I); cbn [fst snd] in X.
    + destruct d; cbn in X; try discriminate; exact H.
    + destruct d; cbn [is_empty andb] in X; try discriminate. apply negb_true_iff in X. apply smem_not_In in X. apply X. destruct H as [-> | ->]; [left|right; left]; reflexivity.
Qed.

Theorem C50_partial : forall e r s, NoDup (names s) -> is_fast_path_eligible s = true ->
  (infer_body e = false \/ forall n v, ~ In (n, Plain v) s) ->
  (forall f, ~ In (u "context", Bound f) s) ->
  Forall (fun l => dget (u "request") l = None /\ dget (u "context") l = None) (levels e) ->
  same (fast r s) (general e r s).
Proof.
  intros e r s D E B K L. pose proof (proj1 (eligible_iff s) E) as H.
  assert (M : forall n, n = u "request" \/ n = u "context" -> dget n (merged e) = None).
  { rewrite Forall_forall in L. intros n W. rewrite merged_fold. apply fold_levels_none; [|reflexivity]. apply Forall_forall. intros l I. destruct (L l I), W as [-> | -> ]; assumption. }
  assert (R : requested (merged e) s = []).
  { unfold requested. clear - H M. induction s as [|(n, d) s IH]; [reflexivity|]. cbn [flat_map]. rewrite IH by (intros m d' I; apply H; right; exact I). rewrite app_nil_r.
    specialize (H n d (or_introl eq_refl)). destruct d; cbn [snd fst]; try reflexivity; try contradiction. unfold dmem. rewrite (M n H). reflexivity. }
  assert (X : extract_params e r s = Args (path_args r s)).
  { unfold extract_params. cbv zeta. rewrite R. cbn [provide_all]. destruct (infer_body e) eqn:I; [|reflexivity]. destruct B as [B|B]; [discriminate|].
    assert (N0 : body_names r s (@nil (str * option P)) = []); [|rewrite N0; reflexivity].
    unfold body_names. clear - H B. match goal with |- map fst ?l = [] => assert (Q : l = []); [|rewrite Q; reflexivity] end. induction s as [|(n, d) s IH]; [reflexivity|]. cbn [filter].
    rewrite IH; [|intros m v I; apply (B m v); right; exact I|intros m d' I; apply H; right; exact I]. specialize (H n d (or_introl eq_refl)). destruct d as [|v|f| |q]; cbn [fst snd is_marker negb andb]; try contradiction.
    - destruct H as [-> | -> ]; rewrite !andb_false_r; reflexivity.
    - destruct (B n v). left. reflexivity.
    - rewrite andb_false_r. reflexivity. }
  unfold fast, general, ArgsModel.fast, ArgsModel.general. rewrite X. pose proof (bind_over (P:=P) none of_text of_texts do_cast r s (path_args r s) (path_args r s) [] (fun n => eq_refl)) as O.
  pose proof (bind_nodup (P:=P) none of_text of_texts do_cast r s [] ) as ND. pose proof (fun Q => bind_other (P:=P) none of_text of_texts do_cast r s (u "context") Q []) as OC.
  destruct (ArgsModel.bind none of_text of_texts do_cast r s (path_args r s)) as [a|x], (ArgsModel.bind none of_text of_texts do_cast r s []) as [b|y]; try contradiction; [|exact O].
  specialize (ND b (NoDup_nil _) eq_refl). specialize (OC K b eq_refl). cbn [dget] in OC. cbv zeta.
  assert (G : forall n, dget n (if smem (u "context") (names s) then dset (u "context") TheContext a else a) = dget n (dupdate (if smem (u "context") (names s) then dset (u "context") TheContext (path_args r s) else path_args r s) b)).
  { intros n. rewrite dget_dupdate_last, last_nodup by exact ND. destruct (smem (u "context") (names s)); [|apply O].
    destruct (list_eq_dec N.eq_dec n (u "context")) as [-> | Q]; [rewrite OC, !dget_dset_same; reflexivity|]. rewrite !dget_dset_other by exact Q. apply O. }
  intros n. destruct (smem (u "request") (names s)); [|apply G]. destruct (list_eq_dec N.eq_dec n (u "request")) as [-> | Q]; [rewrite !dget_dset_same; reflexivity|]. rewrite !dget_dset_other by exact Q. apply G.
Qed.

(** C90: when the handler is called, a parameter marked [f] has the value the request sent for it.  ([request] is
    always the request, and on the fast path [context] the context.) *)
Theorem C90_value : forall e r s a n f, NoDup (names s) -> handle e r s = Args a -> In (n, Bound f) s -> n <> u "request" -> n <> u "context" ->
  exists v, dget n a = Some (Val v) /\ reads f (sent r n f) v.
Proof.
  intros e r s a n f D H I N1 N2. unfold handle, ArgsModel.handle in H. destruct (is_fast_path_eligible s).
  - unfold ArgsModel.fast in H. destruct (ArgsModel.bind none of_text of_texts do_cast r s (path_args r s)) as [b|x] eqn:B; [|discriminate].
    destruct (bind_own _ _ _ _ r s n f D I _ _ B) as (v & X & Y). destruct (value_reads _ _ _ _ _ _ _ _ X) as (w & -> & R). exists w. split; [|exact R].
    apply args_inj in H. subst a. destruct (smem (u "context") (names s)), (smem (u "request") (names s)); rewrite ?dget_dset_other by assumption; exact Y.
  - unfold ArgsModel.general in H. destruct (extract_params e r s) as [p|]; [|discriminate]. destruct (ArgsModel.bind none of_text of_texts do_cast r s []) as [b|x] eqn:B; [|discriminate].
    destruct (bind_own _ _ _ _ r s n f D I _ _ B) as (v & X & Y). destruct (value_reads _ _ _ _ _ _ _ _ X) as (w & -> & R). exists w. split; [|exact R].
    pose proof (bind_nodup _ _ _ _ r s [] b (NoDup_nil _) B) as ND. cbv zeta in H. apply args_inj in H. subst a. destruct (smem (u "request") (names s)); rewrite ?dget_dset_other by assumption;
    rewrite dget_dupdate_last, last_nodup, Y by exact ND; reflexivity.
Qed.
(** A value that is missing or does not convert: the handler is not called. *)
Theorem C90_refused : forall e r s n f, In (n, Bound f) s -> unprocessable f (sent r n f) -> exists x, handle e r s = Fails x.
Proof.
  intros e r s n f I U. assert (X : exists x, ArgsModel.bound_value none of_text of_texts do_cast r n f = inr x) by (eexists; apply value_bad; exact U).
  unfold ArgsModel.handle, ArgsModel.fast, ArgsModel.general. destruct (is_fast_path_eligible s).
  - destruct (bind_fails _ _ _ _ r s n f I X (path_args r s)) as (x & ->). eexists; reflexivity.
  - destruct (extract_params e r s) as [p|]; [|eexists; reflexivity]. destruct (bind_fails _ _ _ _ r s n f I X []) as (x & ->). eexists; reflexivity.
Qed.
(** And when nothing before it fails, the answer is the 422 that names it. *)
Theorem C90_422 : forall e r s1 n f s2,
  let s := s1 ++ (n, Bound f) :: s2 in
  unprocessable f (sent r n f) -> (forall m g, In (m, Bound g) s1 -> exists v, reads g (sent r m g) v) ->
  is_fast_path_eligible s = true \/ (exists p, extract_params e r s = Args p) ->
  handle e r s = Fails (Unprocessable (asked n f)).
Proof.
  intros e r s1 n f s2 s U G W. assert (X := value_bad none of_text of_texts do_cast r n f U).
  assert (G' : forall m g, In (m, Bound g) s1 -> exists v, ArgsModel.bound_value none of_text of_texts do_cast r m g = inl v).
  { intros m g I. destruct (G m g I) as (v & R). eexists. apply reads_value. exact R. }
  pose proof (bind_first _ _ _ _ r n f _ s2 X s1 G') as B. fold s in B. unfold ArgsModel.handle, ArgsModel.fast, ArgsModel.general. destruct (is_fast_path_eligible s) eqn:E.
  - rewrite B. reflexivity.
  - destruct W as [W|(p & ->)]; [discriminate|]. rewrite B. reflexivity.
Qed.

(** C91: a parameter with a [Provides()] marker, or without a default, gets what the innermost level's provider of
    its name gives. *)
Lemma provide_other e l n : ~ In n (dkeys l) -> forall a a', provide_all e l a = Args a' -> dget n a' = dget n a.
Proof.
  induction l as [|(m, o) l IH]; intros Q a a' E; [injection E as <-; reflexivity|]. cbn [provide_all] in E. destruct o as [p|]; [|discriminate]. destruct (provide e p); [|discriminate].
  rewrite (IH (fun I => Q (or_intror I)) _ _ E). apply dget_dset_other. intros ->. apply Q. left. reflexivity.
Qed.
Lemma provide_own e l n p : NoDup (dkeys l) -> In (n, Some p) l -> forall a a', provide_all e l a = Args a' -> exists v, provide e p = inl v /\ dget n a' = Some (Val v).
Proof.
  induction l as [|(m, o) l IH]; intros D I a a' E; [destruct I|]. unfold dkeys in D. cbn [map fst] in D. apply NoDup_cons_iff in D. destruct D as [D1 D2]. cbn [provide_all] in E. destruct I as [[= -> ->]|I].
  - destruct (provide e p) as [v|]; [|discriminate]. exists v. split; [reflexivity|]. rewrite (provide_other e l n D1 _ _ E). apply dget_dset_same.
  - destruct o as [q|]; [|discriminate]. destruct (provide e q); [|discriminate]. eapply IH; eassumption.
Qed.
Lemma requested_keys m s : incl (dkeys (requested m s)) (names s).
Proof.
  intros n I. unfold dkeys, requested in I. apply in_map_iff in I. destruct I as ((k, o) & <- & I). apply in_flat_map in I. destruct I as ((n, d) & J & I). cbn [fst snd] in *.
  assert (k = n) as -> by (destruct d; [destruct (dmem n m)| | | |]; try (destruct I; fail); destruct I as [I|[]]; congruence). exact (in_map fst _ _ J).
Qed.
Lemma requested_nodup m s : NoDup (names s) -> NoDup (dkeys (requested m s)).
Proof.
  unfold names. induction s as [|(n, d) s IH]; intros D; [constructor|]. cbn [map fst] in D. apply NoDup_cons_iff in D. destruct D as [D1 D2]. specialize (IH D2).
  assert (Q : ~ In n (dkeys (requested m s))) by (intros I; apply D1; exact (requested_keys m s n I)).
  unfold requested in *. cbn [flat_map snd fst]. destruct d; [destruct (dmem n m)| | | |]; cbn [app]; try exact IH; (constructor; [exact Q|exact IH]).
Qed.
Lemma provided_own e r s n d p a : NoDup (names s) -> In (n, d) s -> (d = ProvidesMarker \/ d = Empty) -> dget n (merged e) = Some p -> n <> u "request" -> n <> u "context" ->
  handle e r s = Args a -> exists v, provide e p = inl v /\ dget n a = Some (Val v).
Proof.
  intros D I DD M N1 N2 H. unfold ArgsModel.handle in H. destruct (is_fast_path_eligible s) eqn:E.
  - pose proof (proj1 (eligible_iff s) E n d I) as Q. destruct DD as [-> | ->]; [contradiction|]. destruct Q; congruence.
  - unfold ArgsModel.general in H. unfold extract_params in H. cbv zeta in H. destruct (if infer_body e then _ else _) as [body|]; [|discriminate].
    set (base := dupdate (path_args r s) _) in H. destruct (provide_all e (requested (merged e) s) base) as [p'|] eqn:PA; [|discriminate].
    assert (J : In (n, Some p) (requested (merged e) s)).
    { unfold requested. apply in_flat_map. exists (n, d). split; [exact I|]. cbn [fst snd]. destruct DD as [-> | ->]; [rewrite M; left; reflexivity|]. unfold dmem. rewrite M. left. reflexivity. }
    destruct (provide_own e _ n p (requested_nodup (merged e) s D) J _ _ PA) as (v & A & B). exists v. split; [exact A|].
    destruct (ArgsModel.bind none of_text of_texts do_cast r s []) as [b|x] eqn:BB; [|discriminate]. pose proof (bind_nodup _ _ _ _ r s [] b (NoDup_nil _) BB) as ND.
    assert (NB : dget n b = None). { rewrite (bind_other none of_text of_texts do_cast r s n) with (a := []) (a' := b); [reflexivity| |exact BB]. intros f J'. apply (in_map (fun x => x)) in J'. rewrite map_id in J'.
      clear - D I J' DD. unfold names in D. induction s as [|(k, w) s IH]; [destruct I|]. cbn [map fst] in D. apply NoDup_cons_iff in D. destruct D as [D1 D2]. destruct I as [[= -> ->]|I], J' as [J'|J'].
      - injection J' as ->. destruct DD; discriminate.
      - apply D1. exact (in_map fst _ _ J').
      - injection J' as -> ->. apply D1. exact (in_map fst _ _ I).
      - exact (IH D2 I J'). }
    apply args_inj in H. subst a. destruct (smem (u "request") (names s)); rewrite ?(dget_dset_other n) by assumption; rewrite dget_dupdate_last, last_nodup, NB by exact ND;
    destruct (smem (u "context") (names s)); rewrite ?dget_dset_other by assumption; exact B.
Qed.
Theorem C91_provider : forall e r s n d p a,
  NoDup (names s) -> Forall (fun l => NoDup (dkeys l)) (levels e) ->
  In (n, d) s -> (d = ProvidesMarker \/ d = Empty) -> n <> u "request" -> n <> u "context" ->
  innermost (levels e) n p ->
  handle e r s = Args a -> exists v, provide e p = inl v /\ dget n a = Some (Val v).
Proof. intros e r s n d p a D F I DD N1 N2 M H. eapply provided_own; try eassumption. rewrite merged_fold. apply fold_levels; assumption. Qed.
(** A marked parameter that no level provides: the handler is not called. *)
Theorem C91_missing : forall e r s n, In (n, ProvidesMarker) s -> Forall (fun l => dget n l = None) (levels e) -> exists x, handle e r s = Fails x.
Proof.
  intros e r s n I L. unfold ArgsModel.handle. destruct (is_fast_path_eligible s) eqn:E; [destruct (proj1 (eligible_iff s) E _ _ I)|].
  unfold ArgsModel.general, extract_params. cbv zeta. destruct (if infer_body e then _ else _) as [body|]; [|eexists; reflexivity].
  assert (M : dget n (merged e) = None) by (rewrite merged_fold; apply fold_levels_none; [exact L|reflexivity]).
  assert (J : In (n, None) (requested (merged e) s)).
  { unfold requested. apply in_flat_map. exists (n, ProvidesMarker). split; [exact I|]. cbn [fst snd]. rewrite M. left. reflexivity. }
  assert (X : forall (l : dict (option P)) a, In (n, None) l -> exists x, provide_all e l a = Fails x).
  { induction l as [|(m, o) l IH]; intros a J'; [destruct J'|]. cbn [provide_all]. destruct o as [p|]; [|eexists; reflexivity]. destruct (provide e p); [|eexists; reflexivity]. apply IH. destruct J' as [J'|J']; [discriminate|exact J']. }
  destruct (X _ (dupdate (path_args r s) (map (fun p => (fst p, Val (snd p))) body)) J) as (x & ->). eexists; reflexivity.
Qed.
(** Websocket handlers: the same, with the route's own level. *)
Lemma ws_other pr (m : dict P) s n : ~ In n (names s) -> forall a a', ws_kwargs (C:=C) pr m s a = Args a' -> dget n a' = dget (V:=arg V) n a.
Proof.
  unfold names. induction s as [|(k, d) s IH]; intros Q a a' E; [injection E as <-; reflexivity|]. assert (Q1 : k <> n) by (intros ->; apply Q; left; reflexivity). assert (Q2 : ~ In n (map fst s)) by (intros I; apply Q; right; exact I).
  cbn [ws_kwargs] in E. cbv zeta in E. assert (G : forall p, match pr p with inl v => ws_kwargs pr m s (dset k (Val v) a) | inr x => Fails x end = Args a' -> dget n a' = dget n a).
  { intros p X. destruct (pr p); [|discriminate]. rewrite (IH Q2 _ _ X). apply dget_dset_other. congruence. }
  destruct d as [|v|f| |q]; try (apply (IH Q2 _ _ E)); try (exact (G _ E)); destruct (dget k m); try discriminate; try (exact (G _ E)); apply (IH Q2 _ _ E).
Qed.
Theorem C91_websocket : forall own e s n d p a,
  NoDup (names s) -> Forall (fun l => NoDup (dkeys l)) (ws_levels own e) ->
  In (n, d) s -> (d = ProvidesMarker \/ d = Empty) -> innermost (ws_levels own e) n p ->
  websocket_args (C:=C) own e s = Args a -> exists v, provide e p = inl v /\ dget (V:=arg V) n a = Some (Val v).
Proof.
  intros own e s n d p a D F I DD M H. assert (X : dget n (ws_merged own e) = Some p) by (rewrite ws_merged_fold; apply fold_levels; assumption).
  unfold websocket_args in H. revert H. generalize (@nil (str * arg V)) as b. revert D I. unfold names. induction s as [|(k, w) s IH]; intros D I b H; [destruct I|]. cbn [map fst] in D. apply NoDup_cons_iff in D. destruct D as [D1 D2].
  cbn [ws_kwargs] in H. cbv zeta in H. destruct I as [[= -> ->]|I].
  - rewrite X in H. assert (H' : match provide e p with inl v => ws_kwargs (provide e) (ws_merged own e) s (dset n (Val v) b) | inr x => Fails x end = Args a) by (destruct DD as [-> | -> ]; exact H).
    destruct (provide e p) as [v|]; [|discriminate]. exists v. split; [reflexivity|]. rewrite (ws_other _ _ s n D1 _ _ H'). apply dget_dset_same.
  - assert (G : forall q, match provide e q with inl v => ws_kwargs (provide e) (ws_merged own e) s (dset k (Val v) b) | inr x => Fails x end = Args a -> exists v, provide e p = inl v /\ dget n a = Some (Val v)).
    { intros q Y. destruct (provide e q); [|discriminate]. exact (IH D2 I _ Y). }
    destruct w as [|v|f| |q]; try (exact (IH D2 I _ H)); try (exact (G _ H)); destruct (dget k (ws_merged own e)); try discriminate; try (exact (G _ H)); exact (IH D2 I _ H).
Qed.
(** A marked parameter of a websocket handler that no level provides: it is not called either. *)
Theorem C91_websocket_missing : forall own e s n, In (n, ProvidesMarker) s -> Forall (fun l => dget n l = None) (ws_levels own e) ->
  exists x, websocket_args (C:=C) (V:=V) own e s = Fails x.
Proof.
  intros own e s n I L. assert (M : dget n (ws_merged own e) = None) by (rewrite ws_merged_fold; apply fold_levels_none; [exact L|reflexivity]).
  unfold websocket_args. generalize (@nil (str * arg V)) as b. induction s as [|(k, w) s IH]; intros b; [destruct I|].
  cbn [ws_kwargs]. cbv zeta. destruct I as [[= -> ->]|I].
  - rewrite M. eexists; reflexivity.
  - assert (G : forall q, exists x, match provide e q with inl v => ws_kwargs (provide e) (ws_merged own e) s (dset k (Val v) b) | inr x => Fails x end = Fails x).
    { intros q. destruct (provide e q); [apply (IH I) | eexists; reflexivity]. }
    destruct w as [|v|f| |q]; try (apply (IH I)); try apply G; destruct (dget k (ws_merged own e)); try apply G; try apply (IH I); eexists; reflexivity.
Qed.
End Props.
Print Assumptions C50_partial.
Print Assumptions C90_value.
Print Assumptions C90_refused.
Print Assumptions C90_422.
Print Assumptions C91_provider.
Print Assumptions C91_missing.
Print Assumptions C91_websocket.
Print Assumptions C91_websocket_missing.

(** Values are texts here, the only type to cast to is a number, and providers are texts they give. *)
Definition ex_cast (c : unit) (v : str) : casted str := if negb (seqb v []) && forallb is_digit v then Cast v else BadValue.
Definition ex_request : request str :=
  {| path_params := [(u "id", u "7")]; query_values := fun k => if seqb k (u "limit") then [u "10"] else if seqb k (u "tag") then [u "a"; u "b"] else [];
     header_values := fun k => if seqb k (u "x-token") then [u "secret"] else []; cookie_value := fun _ => None;
     query_names := [u "limit"; u "tag"]; header_names := [u "x-token"]; cookie_names := [] |}.
Definition ex_query a d q c : field str unit := {| fkind := QueryParam; alias := a; wire_name := []; fdefault := d; required := q; cast := c |}.
Definition ex_env infer : surroundings str str :=
  {| app_deps := [(u "db", u "app"); (u "log", u "app")]; include_deps := [[(u "db", u "include")]]; route_deps := []; overrides := [(u "log", u "test")];
     infer_body := infer; parse_body := fun _ => inl [(u "q", u "body")]; provide := fun p => inl p |}.
Definition ex_sig : signature str unit str :=
  [(u "id", Plain (u "0")); (u "n", Bound (ex_query (Some (u "limit")) None true (Some tt))); (u "tag", Bound (ex_query None None false None));
   (u "page", Bound (ex_query None (Some (u "1")) false (Some tt))); (u "request", Empty)].
Notation ex_fast := (fast (P:=str) [] (fun t => t) (join (u ",")) ex_cast ex_request).
Notation ex_general e := (general [] (fun t => t) (join (u ",")) ex_cast e ex_request).
(** The hypotheses of [C50_partial] hold of a typical handler, and both paths call it. *)
Example C50_case : is_fast_path_eligible ex_sig = true /\ NoDup (names ex_sig) /\
  ex_fast ex_sig = Args [(u "id", Val (u "7")); (u "n", Val (u "10")); (u "tag", Val (u "a,b")); (u "page", Val (u "1")); (u "request", TheRequest)] /\
  ex_general (ex_env false) ex_sig = ex_fast ex_sig.
Proof. refine (conj eq_refl (conj _ (conj _ _))); [|vm_compute; reflexivity..]. repeat constructor; cbn [In names ex_sig map fst]; intros H; repeat (destruct H as [H|H]; [vm_compute in H; discriminate|]); exact H. Qed.
(** A handler [def search(q="")] with [infer_body] on: the body is read on the general path only. *)
Theorem C50_refuted : ~ forall (e : surroundings str str) (r : request str) (s : signature str unit str), NoDup (names s) -> is_fast_path_eligible s = true ->
  same (fast [] (fun t => t) (join (u ",")) ex_cast r s) (general [] (fun t => t) (join (u ",")) ex_cast e r s).
Proof.
  intros H. specialize (H (ex_env true) ex_request [(u "q", Plain [])] ltac:(repeat constructor; exact (fun x => x)) eq_refl). vm_compute in H. specialize (H (u "q")). vm_compute in H. discriminate.
Qed.
Print Assumptions C50_refuted.
(** A query parameter named [context]: the fast path hands over the context, the general path the query's. *)
Theorem C50_context_refuted : ~ forall (e : surroundings str str) (r : request str) (s : signature str unit str), infer_body e = false -> NoDup (names s) -> is_fast_path_eligible s = true ->
  same (fast [] (fun t => t) (join (u ",")) ex_cast r s) (general [] (fun t => t) (join (u ",")) ex_cast e r s).
Proof.
  intros H. specialize (H (ex_env false) ex_request [(u "context", Bound (ex_query (Some (u "limit")) None true None))] eq_refl ltac:(repeat constructor; exact (fun x => x)) eq_refl).
  vm_compute in H. specialize (H (u "context")). vm_compute in H. discriminate.
Qed.
Print Assumptions C50_context_refuted.
Theorem C50_full_refuted : ~ C50_statement (C:=unit) (P:=str) ([] : str) (fun t => t) (join (u ",")) ex_cast.
Proof. exact C50_refuted. Qed.
Print Assumptions C50_full_refuted.
(** C90: a missing required value, and one that is no number. *)
Example C90_case : let f := ex_query None None true (Some tt) in
  handle [] (fun t => t) (join (u ",")) ex_cast (ex_env false) ex_request [(u "missing", Bound f)] = Fails (Unprocessable (u "missing")) /\
  handle [] (fun t => t) (join (u ",")) ex_cast (ex_env false) ex_request [(u "tag", Bound f)] = Fails (Unprocessable (u "tag")) /\
  reads [] (fun t => t) (join (u ",")) ex_cast f (sent ex_request (u "limit") f) (u "10").
Proof. refine (conj eq_refl (conj eq_refl _)). change (sent ex_request (u "limit") (ex_query None None true (Some tt))) with [u "10"]. apply reads_one. reflexivity. Qed.
(** C91: the include's [db] and the overridden [log]. *)
Example C91_case : handle [] (fun t => t) (join (u ",")) ex_cast (ex_env false) ex_request ([(u "db", ProvidesMarker); (u "log", Empty)] : signature str unit str)
  = Args [(u "db", Val (u "include")); (u "log", Val (u "test"))]
  /\ innermost (levels (ex_env false)) (u "db") (u "include").
Proof.
  split; [reflexivity|]. exists 1%nat, [(u "db", u "include")]. refine (conj eq_refl (conj eq_refl _)). intros j l J E. destruct j as [|[|[|[|j]]]]; [lia|lia| | |destruct j; discriminate]; injection E as <-; reflexivity.
Qed.
