(** Proofs for the OpenAPI document. *)
From Coq Require Import List NArith Bool Lia PeanoNat.
From Verif Require Import PyStr PyStrFacts DocModel DocSpec.
Import ListNotations.

Lemma upper_lower s : upper (lower s) = upper s.
Proof.
  unfold upper, lower. rewrite map_map. apply map_ext. intros c. unfold upper_c, lower_c.
  destruct ((65 <=? c)%N && (c <=? 90)%N) eqn:A.
  - apply andb_true_iff in A as [A B]. apply N.leb_le in A, B.
    replace ((97 <=? c + 32)%N) with true by (symmetry; apply N.leb_le; lia).
    replace ((c + 32 <=? 122)%N) with true by (symmetry; apply N.leb_le; lia). cbn [andb].
    replace ((97 <=? c)%N) with false by (symmetry; apply N.leb_gt; lia). cbn [andb]. lia.
  - reflexivity.
Qed.
Lemma lower_inj a b : upper a = a -> upper b = b -> lower a = lower b -> a = b.
Proof. intros A B E. rewrite <- A, <- B, <- (upper_lower a), <- (upper_lower b), E. reflexivity. Qed.

Lemma route_ind' (P : route -> Prop) :
  (forall l, P (Leaf l)) -> (forall p b rs, Forall P rs -> P (Node p b rs)) -> (forall rs, Forall P rs -> P (HostNode rs)) -> forall r, P r.
Proof.
  intros HL HN HH. fix IH 1. intros [l|p b rs|rs].
  - apply HL.
  - apply HN. induction rs; constructor; [apply IH|assumption].
  - apply HH. induction rs; constructor; [apply IH|assumption].
Qed.

(** * Templates *)
Lemma prefixb_head a p b s : prefixb (a :: p) (b :: s) = true -> a = b.
Proof. intros H. apply prefixb_iff in H as (t & E). cbn in E. congruence. Qed.
Lemma find_brace p : ~ In 123%N p -> find (u "/{") (p ++ u "/{path}") = Some (length p).
Proof.
  induction p as [|c p IH]; intros H; [reflexivity|]. cbn [app find].
  destruct (prefixb (u "/{") (c :: p ++ u "/{path}")) eqn:E.
  - exfalso. apply prefixb_iff in E as (t & E). change (u "/{") with [47%N; 123%N] in E. cbn in E.
    destruct p as [|d p]; cbn in E; [discriminate|]. injection E as E1 E2 E3. apply H. right. left. congruence.
  - rewrite IH; [reflexivity|]. intros I. apply H. right. exact I.
Qed.
Lemma node_prefix p : ~ In 123%N p -> forall q, before_brace (node_format p) ++ q = mounted p q.
Proof.
  intros H q. unfold before_brace, node_format, mounted. destruct (seqb p (u "/")) eqn:E; [reflexivity|].
  rewrite (find_brace p H). rewrite firstn_app, Nat.sub_diag, firstn_all. cbn [firstn]. rewrite app_nil_r. reflexivity.
Qed.

Lemma located_mono rs q b l : located rs q b l -> forall rs', incl rs rs' -> located rs' q b l.
Proof.
  intros L. destruct L; intros rs2 I.
  - apply here. apply I. assumption.
  - eapply inside; [apply I; eassumption|assumption].
  - eapply hosted; [apply I; eassumption|assumption].
Qed.
Lemma gather_located r : ordinary r -> forall prefix path l, In (path, l) (gather prefix r) ->
  ordinary_leaf l /\ exists q, path = prefix ++ q /\ located [r] q (l_in l) l.
Proof.
  induction r as [l|p b rs IH|rs IH] using route_ind'; intros O prefix path l0 I.
  - cbn in I. destruct I as [I|[]]. inversion O; subst. apply pair_equal_spec in I as [<- <-].
    split; [assumption|]. exists (l_path l). split; [reflexivity|]. apply here. left. reflexivity.
  - inversion O as [|p' rs' NB OR E1]; subst. cbn [gather] in I. apply in_flat_map in I as (r & R & I).
    rewrite Forall_forall in IH, OR. destruct (IH r R (OR r R) _ _ _ I) as (OL & q & -> & L).
    split; [exact OL|]. exists (mounted p q). split.
    + rewrite <- app_assoc, (node_prefix p NB). reflexivity.
    + change (l_in l0) with (true && l_in l0). eapply inside; [left; reflexivity|].
      eapply located_mono; [exact L|]. intros x [<-|[]]. exact R.
  - inversion O.
Qed.
Lemma located_gather rs q b l : located rs q b l -> Forall ordinary rs ->
  b = l_in l /\ ordinary_leaf l /\ forall prefix, In (prefix ++ q, l) (flat_map (gather prefix) rs).
Proof.
  induction 1 as [l rs I|p shown rs' rs q b l I L IH|rs' rs q b l I L IH]; intros O.
  - rewrite Forall_forall in O. pose proof (O _ I) as O'. inversion O'; subst.
    split; [reflexivity|]. split; [assumption|]. intros prefix. apply in_flat_map. exists (Leaf l). split; [exact I|left; reflexivity].
  - rewrite Forall_forall in O. pose proof (O _ I) as O'. inversion O' as [|p' r' NB OR]; subst.
    destruct (IH OR) as (-> & OL & G). split; [reflexivity|]. split; [exact OL|]. intros prefix. apply in_flat_map.
    exists (Node p true rs'). split; [exact I|]. cbn [gather]. rewrite <- (node_prefix p NB), app_assoc. apply G.
  - rewrite Forall_forall in O. pose proof (O _ I) as O'. inversion O'.
Qed.

(** * The operations *)
Section World.
  Variable definitions : nat -> list (str * nat).
  Notation add_operation := (add_operation definitions).
  Notation add_methods := (add_methods definitions).
  Notation add_leaf := (add_leaf definitions).
  Notation add_leaves := (add_leaves definitions).

  Definition doc_of (s : spec) (p k : str) : option operation :=
    match dget p (paths s) with Some os => dget k os | None => None end.
  Lemma documents_doc s p m o : documents s p m o <-> doc_of s p (lower m) = Some o.
  Proof.
    unfold documents, doc_of. split.
    - intros (os & -> & E). exact E.
    - destruct (dget p (paths s)) as [os|] eqn:E; [|discriminate]. eauto.
  Qed.

  (** One item of the document: the path, the method and the handler. *)
  Definition item : Type := str * str * handler.
  Definition item_op (i : item) : option operation :=
    let '(p, m, h) := i in option_map (operation_of p m h) (h_name h).
  Definition items_of (pl : str * leaf) : list item :=
    let '(p, l) := pl in
    if negb (l_in l) then [] else
    match l_end l with
    | Ctrl true _ => []
    | _ => match methods_of l with
           | Some ms => flat_map (fun m => if seqb (upper m) (u "HEAD") then [] else match handler_of l m with Some h => [(p, m, h)] | None => [] end) ms
           | None => []
           end
    end.
  (** The effect of an item. *)
  Definition put (s : spec) (i : item) : spec :=
    let '(p, m, h) := i in
    match h_name h with
    | None => s
    | Some name =>
        {| paths := dset p (dset (lower m) (operation_of p m h name) (match dget p (paths s) with Some os => os | None => [] end)) (paths s);
           schemes := match h_meta h with Some mt => add_schemes (schemes s) (m_security mt) | None => schemes s end;
           schemas := match h_meta h with Some mt => add_schemas definitions (schemas s) (m_responses mt) | None => schemas s end |}
    end.
  Definition named (i : item) : Prop := h_name (snd i) <> None.

  Lemma add_methods_put p l ms : forall s s', add_methods s p l ms = Some s' ->
    let is := flat_map (fun m => if seqb (upper m) (u "HEAD") then [] else match handler_of l m with Some h => [(p, m, h)] | None => [] end) ms in
    s' = fold_left put is s /\ Forall named is.
  Proof.
    induction ms as [|m ms IH]; intros s s' E; cbn [DocModel.add_methods flat_map] in *; cbv zeta.
    - apply (f_equal (fun o => match o with Some x => x | None => s end)) in E. cbn in E. subst. split; [reflexivity|constructor].
    - unfold DocModel.add_operation in E. destruct (seqb (upper m) (u "HEAD")) eqn:H; [apply IH; exact E|].
      destruct (handler_of l m) as [h|] eqn:HH; [|discriminate].
      destruct (h_name h) as [name|] eqn:HN; [|discriminate].
      destruct (IH _ _ E) as [-> F]. cbn [app fold_left]. unfold put at 3. rewrite HN. split; [reflexivity|].
      apply Forall_cons; [unfold named; cbn; congruence|exact F].
  Qed.
  Lemma add_leaf_put p l s s' : add_leaf s p l = Some s' -> s' = fold_left put (items_of (p, l)) s /\ Forall named (items_of (p, l)).
  Proof.
    unfold DocModel.add_leaf, items_of. destruct (negb (l_in l)).
    - intros E. injection E as <-. split; [reflexivity|constructor].
    - destruct (l_end l) as [h|[|] attrs|h] eqn:EE; try (destruct (methods_of l) as [ms|]; [|discriminate]; apply add_methods_put).
      intros E. injection E as <-. split; [reflexivity|constructor].
  Qed.
  Lemma add_leaves_put ls : forall s s', add_leaves s ls = Some s' ->
    s' = fold_left put (flat_map items_of ls) s /\ Forall named (flat_map items_of ls).
  Proof.
    induction ls as [|[p l] ls IH]; intros s s' E; cbn [DocModel.add_leaves flat_map] in *.
    - injection E as <-. split; [reflexivity|constructor].
    - destruct (add_leaf s p l) as [s1|] eqn:A; [|discriminate]. apply add_leaf_put in A as [-> F]. apply IH in E as [-> G].
      rewrite fold_left_app. split; [reflexivity|]. apply Forall_app. split; assumption.
  Qed.
  Definition start : spec := {| paths := []; schemes := []; schemas := [] |}.
  Definition all_items (rs : list route) : list item := flat_map items_of (flat_map (gather []) rs).
  Lemma get_put rs s : get_openapi definitions rs = Some s -> s = fold_left put (all_items rs) start /\ Forall named (all_items rs).
  Proof. apply add_leaves_put. Qed.

  Lemma put_doc s i p k : named i -> doc_of (put s i) p k =
    if seqb p (fst (fst i)) && seqb k (lower (snd (fst i))) then item_op i else doc_of s p k.
  Proof.
    destruct i as [[p' m] h]. unfold named. cbn [fst snd item_op put]. destruct (h_name h) as [name|]; [|congruence]. intros _.
    unfold doc_of. cbn [paths option_map]. destruct (seqb_spec p p') as [->|D].
    - rewrite dget_dset_same. cbn [andb]. destruct (seqb_spec k (lower m)) as [->|D].
      + apply dget_dset_same.
      + rewrite dget_dset_other by congruence. destruct (dget p' (paths s)); reflexivity.
    - cbn [andb]. rewrite dget_dset_other by congruence. reflexivity.
  Qed.
  Definition at_key (p k : str) (i : item) : Prop := fst (fst i) = p /\ lower (snd (fst i)) = k.
  Lemma items_doc is p k : forall s, Forall named is ->
    (doc_of (fold_left put is s) p k = doc_of s p k /\ Forall (fun i => ~ at_key p k i) is) \/
    (exists a i b, is = a ++ i :: b /\ at_key p k i /\ Forall (fun j => ~ at_key p k j) b /\ doc_of (fold_left put is s) p k = item_op i).
  Proof.
    induction is as [|i is IH]; intros s F; cbn [fold_left].
    - left. split; [reflexivity|constructor].
    - apply Forall_cons_iff in F as [N F]. destruct (IH (put s i) F) as [[E A]|(a & j & b & -> & K & B & E)].
      + rewrite (put_doc _ _ _ _ N) in E. destruct (seqb_spec p (fst (fst i))) as [P|P]; destruct (seqb_spec k (lower (snd (fst i)))) as [K|K];
          cbn [andb] in E; try (left; split; [exact E|]; apply Forall_cons; [unfold at_key; intros []; congruence|exact A]).
        right. exists [], i, is. refine (conj eq_refl (conj (conj _ _) (conj A E))); congruence.
      + right. exists (i :: a), j, b. refine (conj eq_refl (conj K (conj B E))).
  Qed.
  Lemma items_some is p k s o : Forall named is -> doc_of (fold_left put is s) p k = Some o -> doc_of s p k = None ->
    exists i, In i is /\ at_key p k i /\ item_op i = Some o.
  Proof.
    intros F E D. destruct (items_doc is p k s F) as [[E' _]|(a & i & b & -> & K & _ & E')]; [congruence|].
    exists i. refine (conj _ (conj K _)); [apply in_app_iff; right; left; reflexivity|congruence].
  Qed.
  Lemma items_in is p k s i : Forall named is -> In i is -> at_key p k i -> exists o, doc_of (fold_left put is s) p k = Some o.
  Proof.
    intros F I K. destruct (items_doc is p k s F) as [[_ A]|(a & j & b & -> & _ & _ & E)].
    - rewrite Forall_forall in A. destruct (A i I K).
    - rewrite E. rewrite Forall_forall in F. pose proof (F j (in_elt _ _ _)) as N. unfold named in N. destruct j as [[p' m] h]. cbn in *.
      destruct (h_name h); [eexists; reflexivity|congruence].
  Qed.

  Lemma http_upper m : In m http_methods -> upper m = m.
  Proof. unfold http_methods. intros I. cbn [In] in I. repeat (destruct I as [<-|I]; [reflexivity|]). destruct I. Qed.

  (** The items of an ordinary leaf are what it answers. *)
  Lemma leaf_items p l i : ordinary_leaf l -> In i (items_of (p, l)) <->
    exists m h, i = (p, m, h) /\ l_in l = true /\ m <> u "HEAD" /\ upper m = m /\ answers l m h /\ endpoint_shown l.
  Proof.
    intros (W & C & FN & ON & U & _). unfold items_of.
    destruct (l_in l) eqn:IN; cbn [negb].
    2: { split; [intros []|intros (m & h & _ & X & _)]. congruence. }
    assert (G : forall ms, methods_of l = Some ms -> endpoint_shown l ->
      (forall m, In m ms -> upper m = m) -> (forall m h, In m ms /\ handler_of l m = Some h <-> answers l m h) ->
      (In i (flat_map (fun m => if seqb (upper m) (u "HEAD") then [] else match handler_of l m with Some h => [(p, m, h)] | None => [] end) ms) <->
       exists m h, i = (p, m, h) /\ true = true /\ m <> u "HEAD" /\ upper m = m /\ answers l m h /\ endpoint_shown l)).
    { intros ms E S UM A. rewrite in_flat_map. split.
      - intros (m & I & J). destruct (seqb_spec (upper m) (u "HEAD")) as [X|X]; [destruct J|].
        destruct (handler_of l m) as [h|] eqn:H; [|destruct J]. destruct J as [<-|[]].
        exists m, h. refine (conj eq_refl (conj eq_refl (conj _ (conj (UM m I) (conj _ S))))); [rewrite (UM m I) in X; exact X|].
        apply A. split; assumption.
      - intros (m & h & -> & _ & X & UP & AN & _). apply A in AN as [I H]. exists m. split; [exact I|].
        rewrite UP. destruct (seqb_spec m (u "HEAD")); [congruence|]. rewrite H. left. reflexivity. }
    destruct (l_end l) as [h0|x attrs|h0] eqn:EE.
    - destruct (l_methods l) as [ms|] eqn:EM; [|destruct (FN h0 eq_refl eq_refl)].
      assert (MO : methods_of l = Some ms) by (unfold methods_of; rewrite EE, W; exact EM). rewrite MO.
      apply G; [exact MO|intros a X; congruence|intros m; apply (U ms); reflexivity|].
      intros m h. unfold handler_of. rewrite EE. split.
      + intros [I H]. injection H as <-. exact (by_function l h0 ms m W EE EM I).
      + intros A. inversion A; subst; try congruence. split; congruence.
    - assert (MO : methods_of l = Some (filter (fun m => dmem (lower m) attrs) http_methods)) by (unfold methods_of; rewrite EE; reflexivity).
      pose proof (C x attrs eq_refl) as EM. destruct x.
      { split; [intros []|]. intros (m & h & _ & _ & _ & _ & _ & S). destruct (S attrs EE). }
      rewrite MO. apply G; [exact MO|intros a X; congruence| |].
      + intros m I. apply filter_In in I as [I _]. exact (http_upper m I).
      + intros m h. unfold handler_of. rewrite EE, filter_In. split.
        * intros [[I _] H]. refine (by_controller l false attrs m h W EE _ I H). intros ms Y. congruence.
        * intros A. inversion A as [| |l' x' at' m' h' W' E' M' I' D']; subst; try congruence.
          assert (at' = attrs) by congruence. subst at'. split; [|exact D']. split; [exact I'|]. unfold dmem. rewrite D'. reflexivity.
    - destruct (l_methods l) as [ms|] eqn:EM; [|destruct (ON h0 eq_refl eq_refl)].
      assert (MO : methods_of l = Some ms) by (unfold methods_of; rewrite EE, W; exact EM). rewrite MO.
      apply G; [exact MO|intros a X; congruence|intros m; apply (U ms); reflexivity|].
      intros m h. unfold handler_of. rewrite EE. split.
      + intros [I H]. injection H as <-. refine (by_object l h0 m W EE _). intros ms' Y. congruence.
      + intros A. inversion A as [|l' h' m' W' E' M'|]; subst; try congruence. split; [exact (M' ms EM)|congruence].
  Qed.
  Lemma all_items_iff rs p m h : Forall ordinary rs -> In (p, m, h) (all_items rs) <->
    m <> u "HEAD" /\ upper m = m /\ exists l, located rs p true l /\ answers l m h /\ endpoint_shown l.
  Proof.
    intros O. unfold all_items. rewrite in_flat_map. split.
    - intros ([p' l] & G & I). apply in_flat_map in G as (r & R & G). rewrite Forall_forall in O.
      destruct (gather_located r (O r R) _ _ _ G) as (OL & q & -> & L). cbn [app] in I.
      apply (leaf_items q l _ OL) in I as (m' & h' & E & IN & X & UP & A & S). injection E as <- <- <-.
      refine (conj X (conj UP _)). exists l. refine (conj _ (conj A S)). rewrite <- IN.
      eapply located_mono; [exact L|]. intros x [<-|[]]. exact R.
    - intros (X & UP & l & L & A & S). destruct (located_gather _ _ _ _ L O) as (B & OL & G).
      exists (p, l). split; [exact (G [])|]. apply (leaf_items p l _ OL). exists m, h. refine (conj eq_refl (conj _ (conj X (conj UP (conj A S))))). congruence.
  Qed.
End World.

(** * Names in a template *)
Lemma brace_text t r n : ~ In 123%N t -> length t <= n -> brace_names n (t ++ r) = brace_names (n - length t) r.
Proof.
  revert n. induction t as [|c t IH]; intros n H L; cbn [app length] in *; [f_equal; lia|].
  destruct n as [|n]; [lia|]. cbn [brace_names]. destruct (N.eqb_spec c 123) as [->|D]; [destruct H; left; reflexivity|].
  rewrite IH; [f_equal|intros I; apply H; right; exact I|lia].
Qed.
Lemma brace_par x r n : x <> [] -> ~ In 125%N x -> length x + 2 <= n -> 
  brace_names n (u "{" ++ x ++ u "}" ++ r) = x :: brace_names (n - 1) r.
Proof.
  intros X H L. destruct n as [|n]; [lia|]. change (u "{") with [123%N]. change (u "}") with [125%N]. cbn [app brace_names]. change ((123 =? 123)%N) with true. cbv iota.
  replace (split1 125 (x ++ 125%N :: r)) with (Some (x, r)); [|symmetry; exact (split1_app 125 x r H)].
  destruct x as [|c x]; [congruence|]. f_equal. f_equal. lia.
Qed.
Lemma brace_enough n : forall m s, length s <= n -> length s <= m -> brace_names n s = brace_names m s.
Proof.
  induction n as [|n IH]; intros m s A B.
  - destruct s; [|cbn in A; lia]. destruct m; reflexivity.
  - destruct s as [|c s]; [destruct m; reflexivity|]. destruct m as [|m]; [cbn in B; lia|]. cbn [length] in *. cbn [brace_names].
    destruct (N.eqb c 123); [|apply IH; lia]. destruct (split1 125 s) as [[[|x name] rest]|] eqn:E; [apply IH; lia| |apply IH; lia].
    f_equal. apply split1_some in E as [E _]. assert (length s = length ((x :: name) ++ 125%N :: rest)) as LL by (f_equal; exact E).
    rewrite app_length in LL. cbn in LL. apply IH; lia.
Qed.
Lemma names_written ps : Forall piece_ok ps -> path_params (written ps) = names ps.
Proof.
  induction 1 as [|p ps OK F IH]; [reflexivity|]. unfold path_params, written, names in *. cbn [flat_map].
  destruct p as [t|x]; cbn [piece_ok] in OK.
  - rewrite brace_text by (rewrite ?app_length; auto; lia). cbn [app]. rewrite <- IH. apply brace_enough; rewrite ?app_length; lia.
  - destruct OK as [X H]. rewrite <- !app_assoc. rewrite brace_par; [|exact X|exact H|rewrite !app_length; cbn; lia]. cbn [app]. f_equal.
    rewrite <- IH. apply brace_enough; rewrite ?app_length; cbn [length u]; lia.
Qed.
