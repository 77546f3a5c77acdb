(** Properties of the settings system: C141 to C145. *)
From Coq Require Import List NArith ZArith Bool Lia.
From Verif Require EnvProps.
From Verif Require Import PyStr PyStrFacts ConfModel ConfSpec ConfProofs.
Import ListNotations.

(** A settings class for the examples. *)
Definition sample : cls :=
  {| hints := [(u "debug", TBool); (u "secret_key", TStr); (u "workers", TInt); (u "infer_body", TBool)];
     defaults := [(u "debug", VBool false); (u "secret_key", VStr (u "s")); (u "workers", VInt 1); (u "infer_body", VBool false)];
     props := [(u "middleware", VList [VObj 7])] |}.
Definition no_class : nat -> str -> option value := fun _ _ => None.
Definition at_start (c : cls) : inst := {| kind := c; own := [] |}.
Definition one_world (is : list inst) : world :=
  {| heap := is; base := 0; cur := None; managers := []; slot := fun _ => None; reads := [] |}.

(** ** C141: which of argument and settings an application uses *)

Lemma setting_of_setting l g k v : setting l g k v <-> setting_of l g k = v.
Proof.
  unfold setting_of. destruct l as [l|].
  - destruct (is_none (getattr l k)) eqn:E.
    + assert (G : getattr l k = VNone) by (destruct (getattr l k); try discriminate E; reflexivity).
      split; [intros H; inversion H; subst; [contradiction|reflexivity]|]. intros <-. apply set_unset. exact G.
    + assert (G : getattr l k <> VNone) by (intros G; rewrite G in E; discriminate E).
      split; [intros H; inversion H; subst; [reflexivity|contradiction]|]. intros <-. apply set_own. exact G.
  - split; [intros H; inversion H; reflexivity|intros <-; apply set_global].
Qed.

Lemma configured_get l g args k : In k documented ->
  dget k (configured l g args) = Some (load_value l g k (given args k) (smem k flags)).
Proof.
  assert (A : map fst options = documented) by (vm_compute; reflexivity).
  assert (B : forallb (fun o => Bool.eqb (snd o) (smem (fst o) flags)) options = true) by (vm_compute; reflexivity).
  rewrite <- A. unfold configured. clear A. induction options as [|(k', b) os IH]; [intros []|].
  cbn [forallb fst snd] in B. apply andb_true_iff in B as (B & B'). apply Bool.eqb_prop in B. subst b.
  cbn [map dget fst snd In]. destruct (seqb_spec k k') as [->|N]; [reflexivity|]. intros [E|I]; [congruence|]. exact (IH B' I).
Qed.

Definition C141_statement : Prop := forall local global args k v,
  In k documented -> dget k args = Some v -> v <> VNone -> dget k (configured local global args) = Some v.

(** An explicit empty list of middlewares does not remove those of the settings, and an explicit False does not
    switch off [enable_intercept_global_exceptions]. *)
Theorem C141_refuted : ~ C141_statement.
Proof.
  intros H. specialize (H None (at_start sample) [(u "middleware", VList [])] (u "middleware") (VList [])).
  assert (D : In (u "middleware") documented) by (right; right; left; reflexivity).
  specialize (H D eq_refl ltac:(discriminate)). vm_compute in H. discriminate H.
Qed.
Print Assumptions C141_refuted.

Theorem C141_switch_refuted : exists global : inst,
  dget (u "enable_intercept_global_exceptions")
    (configured None global [(u "enable_intercept_global_exceptions", VBool false)]) = Some (VBool true).
Proof.
  exists {| kind := sample; own := [(u "enable_intercept_global_exceptions", VBool true)] |}. vm_compute. reflexivity.
Qed.
Print Assumptions C141_switch_refuted.

(** An argument that is true, or any argument for a flag, is used; otherwise the setting is. *)
Theorem C141_given_partial : forall local global args k v,
  In k documented -> dget k args = Some v -> v <> VNone -> (truthy v = true \/ In k flags) ->
  dget k (configured local global args) = Some v.
Proof.
  intros local global args k v D G N H. rewrite configured_get by exact D. unfold given. rewrite G. unfold load_value.
  assert (Z : is_none v = false) by (destruct v; try reflexivity; destruct (N eq_refl)).
  destruct (smem k flags) eqn:F; [rewrite Z; reflexivity|].
  destruct H as [T|I]; [rewrite T; reflexivity|]. apply smem_not_In in F. contradiction.
Qed.
Print Assumptions C141_given_partial.

Theorem C141_setting : forall local global args k,
  In k documented ->
  (dget k args = None \/ dget k args = Some VNone \/
   exists v, dget k args = Some v /\ truthy v = false /\ ~ In k flags) ->
  exists v, setting local global k v /\ dget k (configured local global args) = Some v.
Proof.
  intros local global args k D H. exists (setting_of local global k). split; [apply setting_of_setting; reflexivity|].
  rewrite configured_get by exact D. f_equal. unfold given, load_value.
  destruct H as [->|[->|(v & -> & T & NF)]]; [destruct (smem k flags); reflexivity|destruct (smem k flags); reflexivity|].
  apply smem_not_In in NF. rewrite NF, T. reflexivity.
Qed.
Print Assumptions C141_setting.

Example C141_case :
  dget (u "debug") (configured (Some {| kind := sample; own := [(u "debug", VBool true)] |}) (at_start sample)
                      [(u "debug", VBool false)]) = Some (VBool false) /\
  dget (u "debug") (configured (Some {| kind := sample; own := [(u "debug", VBool true)] |}) (at_start sample) []) =
    Some (VBool true).
Proof. vm_compute. split; reflexivity. Qed.

(** The router of an application ignores the setting [include_in_schema] that the application itself uses. *)
Theorem C141_router_refuted : exists global : inst,
  dget (u "include_in_schema") (configured None global []) = Some (VBool false) /\ router_in_schema [] = VBool true.
Proof. exists {| kind := sample; own := [(u "include_in_schema", VBool false)] |}. vm_compute. split; reflexivity. Qed.
Print Assumptions C141_router_refuted.

Theorem C141_router_partial : forall args v,
  dget (u "include_in_schema") args = Some v -> v <> VNone -> router_in_schema args = v.
Proof.
  intros args v G N. unfold router_in_schema, given. rewrite G. destruct v; try reflexivity. destruct (N eq_refl).
Qed.
Print Assumptions C141_router_partial.

(** ** C142: where the fields of a settings object come from *)

Theorem C142_fields : forall construct env c kw i,
  NoDup (map fst (hints c)) -> NoDup (map fst kw) -> make construct env c kw = Good i ->
  (forall k t, In (k, t) (hints c) -> initial construct env c kw k t (getattr i k)) /\
  (forall k v, ~ In k (map fst (hints c)) -> dget k kw = Some v -> getattr i k = v).
Proof. intros construct env c kw i NH NK H. exact (proj2 (make_initial construct env c kw i NH NK H)). Qed.
Print Assumptions C142_fields.

(** The rules give one value. *)
Theorem C142_unique : forall construct env c kw k t v v',
  initial construct env c kw k t v -> initial construct env c kw k t v' -> v = v'.
Proof.
  intros construct env c kw k t v v' A B.
  destruct A; inversion B; subst; try congruence.
  match goal with E : dget _ env = Some ?a, E' : dget _ env = Some ?b |- _ => assert (a = b) by congruence; subst end.
  eapply means_unique; eassumption.
Qed.
Print Assumptions C142_unique.

(** Construction fails exactly when an argument or a field is a property, or the environment has a text that means
    nothing for its field. *)
Theorem C142_fails : forall construct env c kw,
  (exists i, make construct env c kw = Good i) <->
  (forall k, In k (map fst kw) \/ In k (map fst (hints c)) -> dget k (props c) = None) /\
  (forall k t s, In (k, t) (hints c) -> dget (upper k) env = Some s -> exists v, means construct t s v).
Proof. exact make_ok. Qed.
Print Assumptions C142_fails.

Example C142_case :
  exists i, make no_class [(u "DEBUG", u "Yes"); (u "WORKERS", u "4")] sample [(u "debug", VBool false); (u "secret_key", VStr (u "k"))] = Good i /\
    getattr i (u "debug") = VBool true /\ getattr i (u "secret_key") = VStr (u "k") /\ getattr i (u "workers") = VInt 4 /\
    getattr i (u "infer_body") = VBool false.
Proof. eexists. split; [vm_compute; reflexivity|]. vm_compute. repeat split. Qed.

(** A list read from the environment is the list of the characters of the variable. *)
Theorem C142_lists : forall construct s v, means construct TList s v -> v = VList (map (fun c => VStr [c]) s).
Proof. intros construct s v H. inversion H. reflexivity. Qed.
Print Assumptions C142_lists.

(** ** C143: [override_settings] *)

Definition C143_statement : Prop := forall construct env o opts w w' k t v,
  NoDup (map fst (hints (kind (obj w (current w))))) -> NoDup (map fst opts) ->
  In (k, t) (hints (kind (obj w (current w)))) -> dget k opts = Some v ->
  run construct env (POver o opts (PRead k)) w = (w', None) ->
  reads w' = reads w ++ [v].

(** The environment overrides the override. *)
Theorem C143_refuted : ~ C143_statement.
Proof.
  intros H.
  specialize (H no_class [(u "DEBUG", u "false")] 0 [(u "debug", VBool true)] (one_world [at_start sample])).
  specialize (H (fst (run no_class [(u "DEBUG", u "false")] (POver 0 [(u "debug", VBool true)] (PRead (u "debug"))) (one_world [at_start sample]))) (u "debug") TBool (VBool true)).
  assert (ND : NoDup (map fst (hints sample))).
  { repeat constructor; cbn; intros X; repeat (destruct X as [X|X]; [discriminate X|]); exact X. }
  specialize (H ND). assert (ND1 : NoDup (map fst [(u "debug", VBool true)])) by (repeat constructor; intros []).
  specialize (H ND1 (or_introl eq_refl) eq_refl eq_refl). vm_compute in H. discriminate H.
Qed.
Print Assumptions C143_refuted.

(** Without such a variable, any nest of overrides shows for an annotated field the innermost override that names
    it, and else what it was. *)
Theorem C143_inside_partial : forall construct env ovs w w' k t,
  NoDup (map fst (hints (kind (obj w (current w))))) ->
  (forall o opts, In (o, opts) ovs -> NoDup (map fst opts)) ->
  In (k, t) (hints (kind (obj w (current w)))) -> dget (upper k) env = None ->
  run construct env (overrides ovs (PRead k)) w = (w', None) ->
  reads w' = reads w ++ [innermost k ovs (getattr (obj w (current w)) k)].
Proof.
  intros construct env ovs. induction ovs as [|(o, opts) ovs IH]; intros w w' k t NH ND I E R; cbn [overrides innermost run] in *.
  - injection R as <-. reflexivity.
  - destruct (enter construct env o opts w) as [w1|f] eqn:EN; [|discriminate R].
    destruct (run construct env (overrides ovs (PRead k)) w1) as [w2 g] eqn:R1. cbn [fst snd] in R. injection R as <- ->.
    destruct (entered construct env o opts w w1 k t NH (ND _ _ (or_introl eq_refl)) I E EN) as (K & G).
    rewrite (proj2 (leave_objects o w2)).
    assert (X := IH w1 w2 k t). rewrite K, G in X.
    rewrite (X NH (fun a b J => ND a b (or_intror J)) I E R1).
    destruct (enter_inv construct env o opts w w1 EN) as (i' & _ & _ & _ & _ & _ & _ & _ & ->). reflexivity.
Qed.
Print Assumptions C143_inside_partial.

(** The block is entered when no option or field is a property and no field has a variable. *)
Theorem C143_entered : forall construct env o opts w,
  (forall k, In k (map fst opts) \/ In k (map fst (hints (kind (obj w (current w))))) ->
             dget k (props (kind (obj w (current w)))) = None) ->
  (forall k t, In (k, t) (hints (kind (obj w (current w)))) -> dget (upper k) env = None) ->
  exists w', run construct env (POver o opts PSkip) w = (w', None).
Proof.
  intros construct env o opts w P E. cbn [run].
  set (i := obj w (current w)) in *.
  destruct (proj2 (make_ok construct env (kind i) (dupdate (dump i false false [] false) opts))) as (i' & M).
  - split.
    + intros k [J|J]; [|apply P; right; exact J]. apply EnvProps.dupdate_keys in J as [J|J]; [|apply P; left; exact J].
      apply P. right. destruct (dget k (dump i false false [] false)) as [v|] eqn:G.
      * rewrite dump_plain in G. destruct (smem k _) eqn:S; [|discriminate G]. apply smem_In. exact S.
      * apply dget_None_keys in G. contradiction.
    + intros k t s J D. rewrite (E k t J) in D. discriminate D.
  - unfold enter. cbv zeta. fold i. rewrite M. eexists. reflexivity.
Qed.
Print Assumptions C143_entered.

(** However the code inside ends, the settings afterwards are those from before, unless an [override_settings]
    object is used inside itself. *)
Theorem C143_restored_partial : forall construct env p w w' f,
  separate p -> run construct env p w = (w', f) -> current w' = current w.
Proof.
  intros construct env p w w' f SP R. destruct (run_frame construct env p SP w w' f R) as (A & B & _).
  unfold current. rewrite A, B. reflexivity.
Qed.
Print Assumptions C143_restored_partial.

(** A function decorated with [override_settings] that calls itself leaves the override in place. *)
Theorem C143_reentrant_refuted : exists w',
  run no_class [] (POver 0 [(u "debug", VBool true)] (POver 0 [(u "debug", VBool true)] PSkip))
    (one_world [at_start sample]) = (w', None) /\
  getattr (obj w' (current w')) (u "debug") = VBool true /\
  getattr (obj (one_world [at_start sample]) 0) (u "debug") = VBool false.
Proof. eexists. split; [vm_compute; reflexivity|]. vm_compute. split; reflexivity. Qed.
Print Assumptions C143_reentrant_refuted.

(** What is assigned to settings inside the block is gone afterwards: every settings object there was before is what
    it was. *)
Theorem C143_assignments_partial : forall construct env o opts p w w' f,
  separate (POver o opts p) -> appless p -> run construct env (POver o opts p) w = (w', f) ->
  forall m, m < length (heap w) -> obj w' m = obj w m.
Proof.
  intros construct env o opts p w w' f SP AP R m L. cbn [run] in R.
  destruct (enter construct env o opts w) as [w1|g] eqn:E; [|injection R as <- <-; reflexivity].
  destruct (enter_inv construct env o opts w w1 E) as (i' & _ & HP & _ & CU & _).
  cbn [separate] in SP. destruct SP as (NU & SP).
  destruct (run construct env p w1) as [w2 g] eqn:R1. injection R as <- <-. cbn [fst].
  assert (CR : current w1 = length (heap w)) by (unfold current; rewrite CU; reflexivity).
  destruct (run_writes construct env p AP SP w1 w2 g R1) as (_ & O); [rewrite CR, HP, app_length; cbn; lia|].
  unfold obj at 1. rewrite (proj1 (leave_objects o w2)). change (obj w2 m = obj w m).
  rewrite O by (rewrite ?CR, ?HP, ?app_length; cbn; lia). unfold obj. rewrite HP, app_nth1 by lia. reflexivity.
Qed.
Print Assumptions C143_assignments_partial.

Example C143_case : exists w' f,
  run no_class [] (POver 0 [(u "debug", VBool true)] (PSeq (PRead (u "debug")) (PSeq (POver 1 [(u "workers", VInt 2)]
    (PSeq (PRead (u "debug")) (PSeq (PRead (u "workers")) (PSet (u "debug") (VBool false))))) (PSeq (PRead (u "workers")) PRaise))))
    (one_world [at_start sample]) = (w', f) /\
  f = Some FUser /\ cur w' = None /\
  reads w' = [VBool true; VBool true; VInt 2; VInt 1].
Proof. do 2 eexists. split; [vm_compute; reflexivity|]. vm_compute. repeat split. Qed.

(** ** C144: the settings of several applications *)

(** A handler sees the settings of the innermost application around it that has some, and else the current ones;
    afterwards they are the current ones again. *)
Theorem C144_nearest : forall construct env sms k w,
  run construct env (apps sms (PRead k)) w =
    (note w (getattr (obj w (nearest sms (current w))) k), None).
Proof.
  intros construct env sms k. induction sms as [|sm sms IH]; intros w; cbn [apps nearest run]; [reflexivity|].
  rewrite IH. cbn [fst snd with_cur note heap base cur managers slot reads]. destruct w; reflexivity.
Qed.
Print Assumptions C144_nearest.

Definition C144_statement : Prop := forall construct env sm infer sms k w,
  (forall n, sm = Some n -> nearest sms (current w) <> n) ->
  reads (fst (run construct env (PSeq (PNew sm infer) (apps sms (PRead k))) w)) =
  reads (fst (run construct env (apps sms (PRead k)) w)).

(** Constructing one application with [infer_body=True] switches it on for every application without settings of
    its own. *)
Theorem C144_refuted : ~ C144_statement.
Proof.
  intros H. specialize (H no_class [] None (VBool true) [None] (u "infer_body") (one_world [at_start sample])).
  assert (A : forall n, None = Some n -> nearest [None] (current (one_world [at_start sample])) <> n) by (intros n E; discriminate E).
  specialize (H A). vm_compute in H. discriminate H.
Qed.
Print Assumptions C144_refuted.

Theorem C144_isolated_partial : forall construct env sm infer sms k w,
  (forall n, sm = Some n -> nearest sms (current w) <> n) ->
  (sm <> None /\ (forall n, sm = Some n -> dget (u "infer_body") (props (kind (obj w n))) = None)) \/
    infer = VNone \/ infer = VBool false ->
  reads (fst (run construct env (PSeq (PNew sm infer) (apps sms (PRead k))) w)) =
  reads (fst (run construct env (apps sms (PRead k)) w)).
Proof.
  intros construct env sm infer sms k w A H.
  assert (Z : sets_infer infer = false \/ exists n, sm = Some n /\ exists w1, assign w n (u "infer_body") infer = Good w1).
  { destruct H as [(N & P)|[->| ->]]; [|left; reflexivity|left; reflexivity].
    destruct sm as [n|]; [|destruct (N eq_refl)]. right. exists n. split; [reflexivity|].
    unfold assign. destruct (set_ok (obj w n) (u "infer_body") infer (P n eq_refl)) as (i & ->). eexists. reflexivity. }
  rewrite (C144_nearest construct env sms k w). cbn [run]. destruct (sets_infer infer) eqn:S.
  - destruct Z as [Z|(n & -> & w1 & E)]; [discriminate Z|]. rewrite E, C144_nearest.
    destruct (assign_inv w n _ _ w1 E) as (CU & BA & _ & _ & RD & _ & O). cbn [fst note reads]. rewrite RD.
    unfold current in *. rewrite CU, BA. rewrite O by (apply A; reflexivity). reflexivity.
  - rewrite C144_nearest. reflexivity.
Qed.
Print Assumptions C144_isolated_partial.

Example C144_case :
  reads (fst (run no_class [] (apps [Some 1; None; Some 2; None] (PRead (u "workers")))
    (one_world [at_start sample; at_start sample; {| kind := sample; own := [(u "workers", VInt 9)] |}]))) = [VInt 9].
Proof. vm_compute. reflexivity. Qed.

(** ** C145: dumping settings *)

(** The dump holds the annotated fields that are not excluded, in either case, without those that are None if so
    asked, and nothing else. *)
Theorem C145_fields : forall i exclude_none up exclude k v,
  (up = true -> forall a b, In a (map fst (hints (kind i))) -> In b (map fst (hints (kind i))) -> upper a = upper b -> a = b) ->
  dget k (dump i exclude_none up exclude false) = Some v <->
  exists n t, In (n, t) (hints (kind i)) /\ ~ In n exclude /\ k = (if up then upper n else n) /\ v = getattr i n /\
    (exclude_none = true -> v <> VNone).
Proof.
  intros i xn up ex k v U. unfold dump. cbv zeta.
  rewrite dump_fold.
  - split.
    + intros [H|(n & I & R)]; [discriminate H|]. apply filter_In in I as (I & X). apply in_map_iff in I as ((n' & t) & E & I). cbn in E. subst n'.
      exists n, t. split; [exact I|]. split; [|exact R]. apply smem_not_In. apply negb_true_iff. exact X.
    + intros (n & t & I & X & R). right. exists n. split; [|exact R]. apply filter_In. split; [apply in_map with (f := fst) in I; exact I|].
      apply negb_true_iff, smem_not_In. exact X.
  - intros E a b A B. apply filter_In in A as (A & _). apply filter_In in B as (B & _). apply (U E); assumption.
  - reflexivity.
Qed.
Print Assumptions C145_fields.

(** With properties, they are there too. *)
Theorem C145_properties : forall i exclude_none exclude k v,
  dget k (dump i exclude_none false exclude true) = Some v <->
  (In k (map fst (hints (kind i))) \/ In k (map fst (props (kind i)))) /\ ~ In k exclude /\ v = getattr i k /\
    (exclude_none = true -> v <> VNone).
Proof.
  intros i xn ex k v. unfold dump. cbv zeta. set (ks := map fst (hints (kind i))).
  assert (D0 : forall k v, dget k (fold_left (dump_one i xn false) (filter (fun k => negb (smem k ex)) ks) []) = Some v <->
                (In k ks /\ ~ In k ex) /\ v = getattr i k /\ (xn = true -> v <> VNone)).
  { intros k0 v0. rewrite dump_fold by (try discriminate; reflexivity). split.
    - intros [H|(n & I & -> & R)]; [discriminate H|]. apply filter_In in I as (I & X). apply negb_true_iff, smem_not_In in X. auto.
    - intros ((I & X) & R). right. exists k0. refine (conj _ (conj eq_refl R)). apply filter_In. split; [exact I|]. apply negb_true_iff, smem_not_In. exact X. }
  rewrite dump_fold; [|discriminate|].
  - rewrite D0. split.
    + intros [((I & X) & R)|(n & I & -> & R)]; [tauto|]. apply filter_In in I as (I & X). apply negb_true_iff, orb_false_iff in X as (X & _).
      apply smem_not_In in X. tauto.
    + intros ([I|I] & X & R); [tauto|]. destruct (smem k ks) eqn:S; [apply smem_In in S; tauto|]. right. exists k.
      refine (conj _ (conj eq_refl R)). apply filter_In. split; [exact I|]. apply smem_not_In in X. rewrite X, S. reflexivity.
  - intros k' I. apply filter_In in I as (_ & X). apply negb_true_iff, orb_false_iff in X as (_ & X). apply smem_not_In in X.
    destruct (dget k' _) as [v'|] eqn:G; [|reflexivity]. apply D0 in G. tauto.
Qed.
Print Assumptions C145_properties.

(** A dump makes an equal object again, where the environment is silent. *)
Theorem C145_again : forall construct env i i' k t,
  NoDup (map fst (hints (kind i))) -> make construct env (kind i) (dump i false false [] false) = Good i' ->
  In (k, t) (hints (kind i)) -> dget (upper k) env = None -> getattr i' k = getattr i k.
Proof.
  intros construct env i i' k t NH M I E.
  destruct (make_initial construct env _ _ _ NH (dump_nodup i) M) as (_ & A & _). specialize (A k t I).
  assert (G := dump_plain i k). replace (smem k (map fst (hints (kind i)))) with true in G.
  - inversion A; congruence.
  - symmetry. apply smem_In. apply in_map with (f := fst) in I. exact I.
Qed.
Print Assumptions C145_again.

Example C145_case : map fst (dump (at_start sample) false true [u "secret_key"] false) = [u "DEBUG"; u "WORKERS"; u "INFER_BODY"] /\
  dget (u "middleware") (dump (at_start sample) false false [] true) = Some (VList [VObj 7]) /\
  exists i', make no_class [] sample (dump (at_start sample) false false [] false) = Good i'.
Proof. split; [vm_compute; reflexivity|]. split; [vm_compute; reflexivity|]. eexists. vm_compute. reflexivity. Qed.
