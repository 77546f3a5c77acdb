(** Theorems about declared bodies and query parameters. *)
From Coq Require Import List NArith Bool Lia.
From Verif Require Import PyStr PyStrFacts DeclModel DeclSpec.
Import ListNotations.

Section Ind.
  Variable P : val -> Prop.
  Hypothesis HN : P VNone.
  Hypothesis HS : forall s, P (VStr s).
  Hypothesis HD : forall d, Forall (fun kv => P (snd kv)) d -> P (VDict d).
  Hypothesis HL : forall l, Forall P l -> P (VList l).
  Hypothesis HT : forall l, P (VTuple l).
  Hypothesis HO : forall n, P (VOther n).
  Fixpoint val_ind' (v : val) : P v :=
    match v with
    | VNone => HN | VStr s => HS s | VTuple l => HT l | VOther n => HO n
    | VDict d => HD d ((fix go d : Forall (fun kv => P (snd kv)) d :=
        match d with [] => Forall_nil _ | (k, x) :: r => Forall_cons (k, x) (val_ind' x) (go r) end) d)
    | VList l => HL l ((fix go l : Forall P l :=
        match l with [] => Forall_nil _ | x :: r => Forall_cons x (val_ind' x) (go r) end) l)
    end.
End Ind.

Lemma go_dict : forall d, (fix go (d : list (str * val)) := match d with [] => false | (_, x) :: r => has_binary x || go r end) d
  = existsb (fun kv => has_binary (snd kv)) d.
Proof. induction d as [|[k x] r IH]; [reflexivity|]. cbn [existsb snd]. now rewrite <- IH. Qed.
Lemma go_list : forall l, (fix go (l : list val) := match l with [] => false | x :: r => has_binary x || go r end) l
  = existsb has_binary l.
Proof. induction l as [|x r IH]; [reflexivity|]. cbn [existsb]. now rewrite <- IH. Qed.

Lemma has_binary_iff : forall s, has_binary s = true <-> takes_files s.
Proof.
  intro s; induction s as [|t|d IH|l IH|l|n] using val_ind'.
  - split; [discriminate|]. intros [d [W _]]. inversion W.
  - split; [discriminate|]. intros [d [W _]]. inversion W.
  - cbn [has_binary]. rewrite go_dict, orb_true_iff. split.
    + intros [H | H].
      * destruct (dget (u "format") d) as [[|s| | | |]|] eqn:E; try discriminate.
        apply seqb_eq in H. subst s. exists d. split; [constructor | exact E].
      * apply existsb_exists in H. destruct H as [[k x] [I H]]. cbn [snd] in H.
        rewrite Forall_forall in IH. apply (IH _ I) in H. destruct H as [d' [W E]].
        exists d'. split; [exact (w_dict _ k x d I W) | exact E].
    + intros [d' [W E]]. inversion W as [|k y d0 I W'|]; subst.
      * left. rewrite E. apply seqb_refl.
      * right. apply existsb_exists. exists (k, y). split; [exact I|]. rewrite Forall_forall in IH. apply (IH _ I). cbn [snd]. now exists d'.
  - cbn [has_binary]. rewrite go_list. split.
    + intro H. apply existsb_exists in H. destruct H as [x [I H]]. rewrite Forall_forall in IH. apply (IH _ I) in H.
      destruct H as [d' [W E]]. exists d'. split; [exact (w_list _ x l I W) | exact E].
    + intros [d' [W E]]. inversion W as [| |y l0 I W']; subst. apply existsb_exists. exists y. split; [exact I|].
      rewrite Forall_forall in IH. apply (IH _ I). now exists d'.
  - split; [discriminate|]. intros [d [W _]]. inversion W.
  - split; [discriminate|]. intros [d [W _]]. inversion W.
Qed.

Lemma is_request_body_iff : forall b, is_request_body b = true <-> complete b.
Proof.
  intro b. split.
  - destruct b as [| |d| | |]; try discriminate. cbn [is_request_body].
    destruct (dget (u "content") d) as [[| |c| | |]|] eqn:E; try discriminate. intros _. exists d, c. auto.
  - intros [d [c [-> E]]]. cbn [is_request_body]. now rewrite E.
Qed.

Lemma is_schema_iff : forall b, is_schema b = true <-> schema_like b.
Proof.
  intro b. split.
  - destruct b as [| |d| | |]; try discriminate. cbn [is_schema]. intro H. apply existsb_exists in H.
    destruct H as [k [I H]]. apply dmem_iff in H. destruct H as [v E]. exists d, k, v. auto.
  - intros [d [k [v [-> [E I]]]]]. cbn [is_schema]. apply existsb_exists. exists k. split; [exact I|].
    apply dmem_iff. now exists v.
Qed.

Lemma wrap_media : forall s media, exists t, wrap s media = body_of t s /\ media_for media s t.
Proof.
  intros s media. eexists. split; [reflexivity|]. unfold or_text, media_for.
  pose proof (has_binary_iff s) as B.
  destruct media as [[|c r]|]; [| reflexivity |]; destruct (has_binary s);
    ((left; split; [now apply B | reflexivity]) || (right; split; [intro H; apply B in H; discriminate | reflexivity])).
Qed.

Lemma bodied_iff : forall m, smem (lower m) with_body = true <-> bodied m.
Proof.
  intro m. rewrite smem_In. unfold with_body, bodied. cbn [In].
  split; [intros [H|[H|[H|[H|[]]]]]; auto | intros [H|[H|[H|H]]]; auto 6].
Qed.

(** C341 *)
Theorem C341_media : forall schema_of m b media,
  bodied m -> schema_like b -> ~ complete b ->
  exists t, shown_body schema_of m b media = Done (Some (body_of t b)) /\ media_for media b t.
Proof.
  intros schema_of m b media M S C. destruct (wrap_media b media) as [t [E H]]. exists t. split; [|exact H].
  unfold shown_body, body_metadata. apply is_schema_iff in S. apply bodied_iff in M.
  assert (R : is_request_body b = false). { destruct (is_request_body b) eqn:R; [|reflexivity]. apply is_request_body_iff in R. contradiction. }
  rewrite S, R, M, E. destruct b; try discriminate. reflexivity.
Qed.
Print Assumptions C341_media.

Example C341_case :
  let b := VDict [(u "type", VStr (u "array")); (u "items", VDict [(u "oneOf", VList [VDict [(u "format", VStr (u "binary"))]])])] in
  bodied (u "POST") /\ schema_like b /\ ~ complete b /\ takes_files b /\
  shown_body (fun _ => None) (u "POST") b None = Done (Some (body_of (u "multipart/form-data") b)).
Proof.
  cbv zeta. refine (conj _ (conj _ (conj _ (conj _ _)))).
  - left. reflexivity.
  - eexists _, (u "type"), _. refine (conj eq_refl (conj eq_refl _)). cbn [In]. auto 12.
  - intros [d [c [E H]]]. injection E as <-. discriminate H.
  - apply has_binary_iff. reflexivity.
  - reflexivity.
Qed.

(** C342 *)
Theorem C342_forms : forall schema_of m b media,
  (~ bodied m -> forall r, shown_body schema_of m b media = Done r -> r = None) /\
  (bodied m ->
     (b = VNone -> shown_body schema_of m b media = Done None) /\
     (complete b -> shown_body schema_of m b media = Done (Some b)) /\
     (forall x s, b = VList [x] \/ b = VTuple [x] -> schema_of (ListOf x) = Some s ->
        exists t, shown_body schema_of m b media = Done (Some (body_of t s)) /\ media_for media s t) /\
     (forall n s, b = VOther n -> schema_of (Of b) = Some s ->
        exists t, shown_body schema_of m b media = Done (Some (body_of t s)) /\ media_for media s t)) /\
  (shown_body schema_of m b media = ValueError <->
     exists l, (b = VList l \/ b = VTuple l) /\ length l <> 1%nat) /\
  (shown_body schema_of m b media = SchemaError ->
     exists a, schema_of a = None /\ (a = Of b \/ exists x, a = ListOf x /\ (b = VList [x] \/ b = VTuple [x]))).
Proof.
  intros schema_of m b media. refine (conj _ (conj _ (conj _ _))).
  - intros M r. unfold shown_body. destruct (body_metadata schema_of b media); try discriminate.
    destruct (smem (lower m) with_body) eqn:E; [apply bodied_iff in E; contradiction|]. intro H. now injection H.
  - intro M. apply bodied_iff in M. unfold shown_body. refine (conj _ (conj _ (conj _ _))).
    + intros ->. cbn [body_metadata]. now rewrite M.
    + intro C. pose proof C as [d [c [-> E]]]. unfold body_metadata. apply is_request_body_iff in C. rewrite C, M.
      assert (N : normalize (VDict d) media = VDict d).
      { unfold normalize. destruct d as [|kv d]; [discriminate E|]. cbn [falsy].
        assert (D : dmem (u "content") (kv :: d) = true).
        { apply dmem_iff. now exists (VDict c). }
        now rewrite D. }
      cbv zeta. rewrite N. destruct d; [discriminate E|]. reflexivity.
    + intros x s B S. destruct (wrap_media s media) as [t [W H]]. exists t. split; [|exact H].
      destruct B as [-> | ->]; cbn [body_metadata is_request_body is_schema]; rewrite S, W, M; reflexivity.
    + intros n s -> S. destruct (wrap_media s media) as [t [W H]]. exists t. split; [|exact H].
      cbn [body_metadata is_request_body is_schema]. now rewrite S, W, M.
  - unfold shown_body, body_metadata. split.
    + intro H. destruct b as [|s|d|l|l|n]; try discriminate.
      * cbn [is_request_body is_schema] in H. destruct (schema_of (Of (VStr s))); discriminate.
      * destruct (is_request_body (VDict d)); [discriminate|]. destruct (is_schema (VDict d)); [discriminate|].
        destruct (schema_of (Of (VDict d))); discriminate.
      * exists l. split; [auto|]. cbn [is_request_body is_schema] in H. destruct l as [|x [|y r]]; cbn [length]; try lia.
        destruct (schema_of (ListOf x)); discriminate.
      * exists l. split; [auto|]. cbn [is_request_body is_schema] in H. destruct l as [|x [|y r]]; cbn [length]; try lia.
        destruct (schema_of (ListOf x)); discriminate.
      * cbn [is_request_body is_schema] in H. destruct (schema_of (Of (VOther n))); discriminate.
    + intros [l [[-> | -> ] L]]; cbn [is_request_body is_schema]; destruct l as [|x [|y r]]; cbn [length] in L; try reflexivity; lia.
  - unfold shown_body, body_metadata. intro H. destruct b as [|s|d|l|l|n]; try discriminate.
    + cbn [is_request_body is_schema] in H. exists (Of (VStr s)). destruct (schema_of (Of (VStr s))); [discriminate | auto].
    + destruct (is_request_body (VDict d)); [discriminate|]. destruct (is_schema (VDict d)); [discriminate|].
      exists (Of (VDict d)). destruct (schema_of (Of (VDict d))); [discriminate | auto].
    + cbn [is_request_body is_schema] in H. destruct l as [|x [|y r]]; try discriminate.
      exists (ListOf x). destruct (schema_of (ListOf x)); [discriminate | eauto 8].
    + cbn [is_request_body is_schema] in H. destruct l as [|x [|y r]]; try discriminate.
      exists (ListOf x). destruct (schema_of (ListOf x)); [discriminate | eauto 8].
    + cbn [is_request_body is_schema] in H. exists (Of (VOther n)). destruct (schema_of (Of (VOther n))); [discriminate | auto].
Qed.
Print Assumptions C342_forms.

Example C342_case :
  let item := VDict [(u "type", VStr (u "array")); (u "items", VDict [(u "type", VStr (u "integer"))])] in
  let ask a := match a with ListOf (VOther 7) => Some item | _ => None end in
  shown_body ask (u "put") (VList [VOther 7]) (Some (u "text/x")) = Done (Some (body_of (u "text/x") item)) /\
  shown_body ask (u "put") (VTuple [VOther 7; VOther 8]) None = ValueError /\
  shown_body ask (u "get") (VList [VOther 7]) None = Done None /\
  shown_body ask (u "put") (VOther 7) None = SchemaError.
Proof. cbv zeta. repeat split. Qed.

Lemma says_query : forall k q, says k (DQuery q) (as_openapi k q).
Proof.
  intros k q. exists q. split; [auto|]. unfold as_openapi. cbn [p_name p_in p_required p_text p_style p_explode p_schema].
  refine (conj eq_refl (conj eq_refl (conj eq_refl (conj eq_refl (conj eq_refl (conj eq_refl (conj _ _))))))).
  - now intros ->.
  - now intros k0 v0 r ->.
Qed.
Lemma says_args : forall k q, says k (DArgs (Some q)) (as_openapi k q).
Proof.
  intros k q. destruct (says_query k q) as [q' [[E | E] H]]; [|discriminate]. injection E as <-. exists q. split; [auto | exact H].
Qed.

Lemma dset_new : forall (A : Type) k (v : A) d, ~ In k (dkeys d) -> dset k v d = d ++ [(k, v)].
Proof.
  intros A k v d. induction d as [|[k' v'] r IH]; [reflexivity|]. unfold dkeys. cbn [dset map fst app In]. intro H.
  destruct (seqb k k') eqn:E; [apply seqb_eq in E; exfalso; apply H; left; congruence|].
  rewrite IH; [reflexivity|]. intro I. apply H. right. exact I.
Qed.

(** A declaration that is not accepted. *)
Definition refused (v : decl) : Prop := v = DSeq \/ v = DArgs None.

Lemma declared_all : forall d acc,
  NoDup (map fst d) -> (forall k, In k (map fst d) -> ~ In k (dkeys acc)) ->
  match declared d acc with
  | Done r => (forall kv, In kv d -> ~ refused (snd kv)) /\
      exists l, r = acc ++ l /\ shown d (map (fun kq => as_openapi (fst kq) (snd kq)) l)
  | ValueError => exists a k b, d = a ++ (k, DSeq) :: b /\ (forall kv, In kv a -> ~ refused (snd kv))
  | TypeError => exists a k b, d = a ++ (k, DArgs None) :: b /\ (forall kv, In kv a -> ~ refused (snd kv))
  | SchemaError => False
  end.
Proof.
  assert (APP : forall (acc : list (str * query)) k q r (d : list (str * decl)), NoDup (k :: map fst d) ->
    (forall x, In x (k :: map fst d) -> ~ In x (dkeys acc)) -> declared d (dset k q acc) = r ->
    (forall x, In x (map fst d) -> ~ In x (dkeys (dset k q acc)))).
  { intros acc k q r d ND FR _ x I J. inversion ND as [|? ? NI ND']; subst. rewrite dset_new in J by (apply FR; now left).
    unfold dkeys in J. rewrite map_app in J. apply in_app_or in J. destruct J as [J | [J | []]].
    - apply (FR x); [now right | exact J].
    - cbn [fst] in J. subst x. contradiction. }
  induction d as [|[k v] d IH]; intros acc ND FR; cbn [declared].
  { split; [intros kv []|]. exists []. rewrite app_nil_r. split; [reflexivity | constructor]. }
  cbn [map fst] in ND, FR. pose proof ND as ND0. inversion ND as [|? ? NI ND']; subst.
  destruct v as [q| |[q|]|].
  - pose proof (APP acc k q _ d ND0 FR eq_refl) as FR'. specialize (IH (dset k q acc) ND' FR').
    destruct (declared d (dset k q acc)) as [r| | |] eqn:E.
    + destruct IH as [OK [l [-> S]]]. split.
      * intros kv [<- | I]; [intros [H|H]; discriminate | now apply OK].
      * exists ((k, q) :: l). rewrite dset_new by (apply FR; now left). rewrite <- app_assoc. split; [reflexivity|].
        cbn [map fst snd]. constructor; [apply says_query | exact S].
    + destruct IH as [a [k' [b [-> OK]]]]. exists ((k, DQuery q) :: a), k', b. split; [reflexivity|].
      intros kv [<- | I]; [intros [H|H]; discriminate | now apply OK].
    + destruct IH as [a [k' [b [-> OK]]]]. exists ((k, DQuery q) :: a), k', b. split; [reflexivity|].
      intros kv [<- | I]; [intros [H|H]; discriminate | now apply OK].
    + exact IH.
  - exists [], k, d. split; [reflexivity | intros kv []].
  - pose proof (APP acc k q _ d ND0 FR eq_refl) as FR'. specialize (IH (dset k q acc) ND' FR').
    destruct (declared d (dset k q acc)) as [r| | |] eqn:E.
    + destruct IH as [OK [l [-> S]]]. split.
      * intros kv [<- | I]; [intros [H|H]; discriminate | now apply OK].
      * exists ((k, q) :: l). rewrite dset_new by (apply FR; now left). rewrite <- app_assoc. split; [reflexivity|].
        cbn [map fst snd]. constructor; [apply says_args | exact S].
    + destruct IH as [a [k' [b [-> OK]]]]. exists ((k, DArgs (Some q)) :: a), k', b. split; [reflexivity|].
      intros kv [<- | I]; [intros [H|H]; discriminate | now apply OK].
    + destruct IH as [a [k' [b [-> OK]]]]. exists ((k, DArgs (Some q)) :: a), k', b. split; [reflexivity|].
      intros kv [<- | I]; [intros [H|H]; discriminate | now apply OK].
    + exact IH.
  - exists [], k, d. split; [reflexivity | intros kv []].
  - assert (FR' : forall x, In x (map fst d) -> ~ In x (dkeys acc)) by (intros x I; apply FR; now right).
    specialize (IH acc ND' FR'). destruct (declared d acc) as [r| | |] eqn:E.
    + destruct IH as [OK [l [-> S]]]. split.
      * intros kv [<- | I]; [intros [H|H]; discriminate | now apply OK].
      * exists l. split; [reflexivity|]. now constructor.
    + destruct IH as [a [k' [b [-> OK]]]]. exists ((k, DElse) :: a), k', b. split; [reflexivity|].
      intros kv [<- | I]; [intros [H|H]; discriminate | now apply OK].
    + destruct IH as [a [k' [b [-> OK]]]]. exists ((k, DElse) :: a), k', b. split; [reflexivity|].
      intros kv [<- | I]; [intros [H|H]; discriminate | now apply OK].
    + exact IH.
Qed.

(** C343 *)
Theorem C343_queries : forall d, NoDup (map fst d) ->
  ((forall kv, In kv d -> snd kv <> DSeq /\ snd kv <> DArgs None) ->
     exists ps, shown_queries (QDict d) = Done ps /\ shown d ps) /\
  (forall a k b, d = a ++ (k, DSeq) :: b -> (forall kv, In kv a -> snd kv <> DSeq /\ snd kv <> DArgs None) ->
     shown_queries (QDict d) = ValueError).
Proof.
  intros d ND. pose proof (declared_all d [] ND (fun _ _ H => H)) as A. unfold shown_queries, query_strings.
  destruct (declared d []) as [r| | |].
  - destruct A as [OK [l [-> S]]]. split.
    + intros _. eexists. split; [reflexivity | exact S].
    + intros a k b -> _. exfalso. apply (OK (k, DSeq)); [apply in_or_app; right; now left | now left].
  - destruct A as [a [k [b [-> OK]]]]. split.
    + intro H. exfalso. destruct (H (k, DSeq)) as [H1 _]; [apply in_or_app; right; now left | now apply H1].
    + reflexivity.
  - destruct A as [a [k [b [-> OK]]]]. split.
    + intro H. exfalso. destruct (H (k, DArgs None)) as [_ H1]; [apply in_or_app; right; now left | now apply H1].
    + intros a' k' b' E H. exfalso. clear ND. revert a' E H OK. induction a as [|x a IH]; intros [|y a'] E H OK.
      * discriminate.
      * cbn [app] in E. injection E as E1 E2. destruct (H y) as [_ N]; [now left|]. apply N. now subst y.
      * cbn [app] in E. injection E as E1 E2. apply (OK x); [now left|]. subst x. now left.
      * cbn [app] in E. injection E as E1 E2. apply (IH a' E2); intros kv I; [apply H | apply OK]; now right.
  - destruct A.
Qed.
Print Assumptions C343_queries.

Lemma fold_set : forall l acc, NoDup l -> (forall k, In k l -> ~ In k (dkeys acc)) ->
  fold_left (fun acc k => dset k plain acc) l acc = acc ++ map (fun k => (k, plain)) l.
Proof.
  induction l as [|k l IH]; intros acc ND FR; cbn [fold_left map]; [now rewrite app_nil_r|].
  inversion ND as [|? ? NI ND']; subst. rewrite dset_new by (apply FR; now left). rewrite IH.
  - now rewrite <- app_assoc.
  - exact ND'.
  - intros x I J. unfold dkeys in J. rewrite map_app in J. apply in_app_or in J. destruct J as [J | [J | []]].
    + apply (FR x); [now right | exact J].
    + cbn [fst] in J. subst x. contradiction.
Qed.

(** C343, names given as a set. *)
Theorem C343_names : forall l, NoDup l ->
  exists ps, shown_queries (QSet l) = Done ps /\ map p_name ps = l /\
    forall p, In p ps -> p_in p = u "query" /\ p_required p = false /\ p_schema p = VDict [(u "type", VStr (u "string"))].
Proof.
  intros l ND. unfold shown_queries, query_strings. rewrite fold_set; [|exact ND | intros k _ []].
  eexists. split; [reflexivity|]. cbn [app]. rewrite !map_map. split.
  - cbn [as_openapi fst p_name]. apply map_id.
  - intros p I. apply in_map_iff in I. destruct I as [k [<- _]]. now cbn.
Qed.
Print Assumptions C343_names.

Example C343_case :
  let tags := {| q_text := Some (u "tags"); q_required := true; q_schema := VDict [(u "type", VStr (u "array"))];
                 q_style := None; q_explode := Some false |} in
  let d := [(u "tags", DQuery tags); (u "page", DArgs (Some plain))] in
  NoDup (map fst d) /\ (forall kv, In kv d -> snd kv <> DSeq /\ snd kv <> DArgs None) /\
  exists a b, shown_queries (QDict d) = Done [a; b] /\ p_name a = u "tags" /\ p_required a = true /\
    p_schema b = VDict [(u "type", VStr (u "string"))] /\ NoDup [u "a"; u "b"].
Proof.
  cbv zeta. refine (conj _ (conj _ _)).
  - repeat constructor; cbn; intuition discriminate.
  - intros kv [<- | [<- | []]]; split; discriminate.
  - eexists _, _. refine (conj eq_refl (conj eq_refl (conj eq_refl (conj eq_refl _)))). repeat constructor; cbn; intuition discriminate.
Qed.

(** C344: every name that is declared is shown. *)
Definition C344_statement : Prop := forall d ps k, NoDup (map fst d) ->
  shown_queries (QDict d) = Done ps -> In k (map fst d) -> In k (map p_name ps).

Theorem C344_refuted : ~ C344_statement.
Proof.
  intro S. specialize (S [(u "q", DElse)] [] (u "q")). destruct S.
  - repeat constructor. intros [].
  - reflexivity.
  - now left.
Qed.
Print Assumptions C344_refuted.

Lemma shown_names : forall d ps, shown d ps -> (forall k, ~ In (k, DElse) d) -> map p_name ps = map fst d.
Proof.
  intros d ps H. induction H as [|k v d p ps S H IH|k d ps H IH]; intro NE.
  - reflexivity.
  - cbn [map fst]. rewrite IH by (intros k' I; apply (NE k'); now right). destruct S as [q [_ [-> _]]]. reflexivity.
  - exfalso. apply (NE k). now left.
Qed.

Theorem C344_partial : forall d ps, NoDup (map fst d) -> (forall k, ~ In (k, DElse) d) ->
  shown_queries (QDict d) = Done ps -> map p_name ps = map fst d.
Proof.
  intros d ps ND NE. pose proof (declared_all d [] ND (fun _ _ H => H)) as A. unfold shown_queries, query_strings.
  destruct (declared d []) as [r| | |]; try discriminate. destruct A as [_ [l [-> S]]]. intro H. injection H as <-.
  now apply shown_names.
Qed.
Print Assumptions C344_partial.

Example C344_case :
  let d := [(u "a", DArgs (Some plain)); (u "b", DQuery plain)] in
  NoDup (map fst d) /\ (forall k, ~ In (k, DElse) d) /\
  exists ps, shown_queries (QDict d) = Done ps /\ map p_name ps = [u "a"; u "b"].
Proof.
  cbv zeta. refine (conj _ (conj _ _)).
  - repeat constructor; cbn; intuition discriminate.
  - intros k [H | [H | []]]; discriminate H.
  - eexists. split; reflexivity.
Qed.
