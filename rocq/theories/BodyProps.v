(** The properties C127 and C128. *)
From Verif Require Import PyStr PyStrFacts Utf8 JsonModel JsonSpec JsonProofs EncModel EncSpec EncProps EnvSpec EnvProofs ArgsModel ArgsSpec ArgsProofs ArgsProps BodyModel BodySpec.
Local Open Scope N_scope.

Lemma ann_ind' (P : ann -> Prop) :
  (forall t, P (ALeaf t)) -> P ANone -> (forall l, Forall P l -> P (AUnion l)) -> (forall l, Forall P l -> P (APipe l)) ->
  (forall a, P a -> P (AList a)) -> (forall a, P a -> P (AMany a)) -> (forall l, Forall P l -> P (ATuple l)) ->
  (forall a, P a -> P (ASet a)) -> (forall a, P a -> P (ADict a)) -> (forall a, P a -> P (AAnnotated a)) -> forall a, P a.
Proof.
  intros H1 H2 H3 H4 H5 H6 H7 H8 H9 H10. fix IH 1. intros [t| |l|l|a|a|l|a|a|a]; [apply H1 | apply H2 | | | apply H5, IH | apply H6, IH | | apply H8, IH | apply H9, IH | apply H10, IH].
  - apply H3. induction l as [|a l IHl]; constructor; [apply IH | exact IHl].
  - apply H4. induction l as [|a l IHl]; constructor; [apply IH | exact IHl].
  - apply H7. induction l as [|a l IHl]; constructor; [apply IH | exact IHl].
Qed.

Section Trip.
Context (py_eq : pv -> pv -> bool).
Notation structure := (structure py_eq D).
Definition trip (a : ann) (v : pv) : Prop := exists j, converts D v j /\ writable j /\ structure a (back j) = Some v.
Lemma other_same c v : apply_structure D (TOther c) v = Some v.
Proof. reflexivity. Qed.
Lemma instance_same t w : (forall c, t <> TOther c) -> is_instance t w = true -> apply_structure D t w = Some w.
Proof. intros H I. destruct t; try (now destruct (H cls)); destruct w; try discriminate I; reflexivity. Qed.
Lemma leaf_structure t v w : apply_structure D t v = Some w -> structure (ALeaf t) v = Some w.
Proof.
  intros E. cbn [BodyModel.structure]. destruct (is_instance t v) eqn:I; [|exact E]. destruct t; try (rewrite (instance_same _ v) in E; [exact E | discriminate | exact I]).
  rewrite other_same in E. exact E.
Qed.
Lemma leaf_trip t v : sendable t v -> trip (ALeaf t) v.
Proof.
  intros H. assert (K : (instance t v /\ simple v) \/ ((exists c, t = TOther c) /\ plain v)) by (destruct t; cbn [sendable] in H; [left; exact H .. | right; split; [eauto | apply H]]).
  destruct K as [[I S]|[(c & ->) P]].
  - destruct (restored_leaf t v I S) as (j & C & W & A). exists j. refine (conj C (conj W _)). apply leaf_structure, A.
  - destruct (plain_facts v P) as (W & B & _). exists (as_json v). refine (conj (plain_converts v P) (conj W _)). rewrite B. apply leaf_structure, other_same.
Qed.
Lemma converts_arr2 l js : Forall2 (converts D) l js -> exists n, all_some (map (conv D n) l) = Some js.
Proof.
  induction 1 as [|v j l js (n & E) _ (m & IH)]; [exists 0%nat; reflexivity|]. exists (Nat.max n m). cbn [map all_some].
  rewrite (conv_le D n _ v j (Nat.le_max_l _ _) E). rewrite (all_some_mono (conv D m) _ l js (fun a b C => conv_le D m _ a b (Nat.le_max_r _ _) C) IH). reflexivity.
Qed.
Lemma trips a l : Forall (trip a) l -> exists js, Forall2 (converts D) l js /\ Forall writable js /\ all_some (map (structure a) (map back js)) = Some l.
Proof.
  induction 1 as [|v l (j & C & W & S) _ (js & CS & WS & SS)]; [exists []; repeat constructor|].
  exists (j :: js). refine (conj _ (conj _ _)); [constructor; assumption | constructor; assumption|]. cbn [map all_some]. rewrite S, SS. reflexivity.
Qed.
Lemma items_arr js : items_or_empty (back (JArr js)) = Some (map back js).
Proof. destruct js; reflexivity. Qed.
Lemma writable_arr js : Forall writable js -> writable (JArr js).
Proof. intros F. cbn [writable]. apply fold_and. exact F. Qed.
Lemma distinct_all l : forall seen, (forall l1 x l2 y l3, rev seen ++ l = l1 ++ x :: l2 ++ y :: l3 -> py_eq y x = false) -> distinct py_eq seen l = rev seen ++ l.
Proof.
  induction l as [|y l IH]; intros seen H; cbn [distinct]; [now rewrite app_nil_r|].
  assert (E : existsb (py_eq y) seen = false).
  { apply not_true_is_false. intros X. apply existsb_exists in X. destruct X as (x & I & X). apply in_split in I. destruct I as (l1 & l2 & ->).
    rewrite (H (rev l2) x (rev l1) y l) in X; [discriminate|]. rewrite rev_app_distr. cbn [rev]. rewrite <- !app_assoc. reflexivity. }
  rewrite E, IH; cbn [rev]; [now rewrite <- app_assoc|]. intros l1 x l2 z l3 S. apply (H l1 x l2 z l3). rewrite <- S, <- app_assoc. reflexivity.
Qed.
Lemma none_leaf t : structure (ALeaf t) PNone = Some PNone \/ structure (ALeaf t) PNone = None.
Proof. destruct t; cbn; auto. Qed.
Lemma typed_trip a : forall v, typed sendable a v -> carried py_eq v -> certain a v -> trip a v.
Proof.
  induction a as [t| |l IH|l IH|a IH|a IH|l IH|a IH|a IH|a IH] using ann_ind'; intros v T K C.
  - apply leaf_trip. exact T.
  - cbn in T. subst v. exists JNull. refine (conj _ (conj I eq_refl)). exists 1%nat. reflexivity.
  - cbn [certain] in C. destruct C as [[-> L]|C].
    + exists JNull. refine (conj _ (conj I _)); [exists 1%nat; reflexivity|]. clear -L. cbn [back BodyModel.structure]. induction L as [|a l LA L IH]; [reflexivity|].
      destruct a; try destruct LA; cbn [is_none_type]; [|exact IH]. destruct (none_leaf t) as [-> | ->]; [reflexivity | exact IH].
    + cbn [typed] in T. clear T. unfold trip. cbn [BodyModel.structure]. revert IH C. induction l as [|a l IHl]; intros IH C; [destruct C|]. inversion IH as [|? ? IA IL]; subst.
      assert (N : is_none_type a = true \/ (is_none_type a = false /\ typed sendable a v /\ certain a v)) by (destruct a; auto).
      destruct N as [N|(N & TA & CA)].
      * destruct a; try discriminate N. destruct (IHl IL C) as (j & X). exists j. exact X.
      * destruct (IA v TA K CA) as (j & CV & W & S). exists j. refine (conj CV (conj W _)). rewrite N, S. reflexivity.
  - destruct C.
  - destruct T as (l & -> & T). cbn [certain] in C. cbn [carried] in K. apply fold_and in K.
    assert (F : Forall (trip a) l) by (rewrite !Forall_forall in *; auto). destruct (trips a l F) as (js & CS & WS & SS).
    exists (JArr js). refine (conj _ (conj (writable_arr js WS) _)).
    + destruct (converts_arr2 l js CS) as (n & E). exists (S n). cbn [conv]. now rewrite E.
    + cbn [BodyModel.structure]. rewrite items_arr, SS. reflexivity.
  - destruct T as (l & -> & T). cbn [certain] in C. cbn [carried] in K. apply fold_and in K.
    assert (F : Forall (trip a) l) by (rewrite !Forall_forall in *; auto). destruct (trips a l F) as (js & CS & WS & SS).
    exists (JArr js). refine (conj _ (conj (writable_arr js WS) _)).
    + destruct (converts_arr2 l js CS) as (n & E). exists (S n). cbn [conv]. now rewrite E.
    + cbn [BodyModel.structure]. rewrite items_arr, SS. reflexivity.
  - destruct T as (vs & -> & T). cbn [certain] in C. cbn [carried] in K. apply fold_and in K.
    assert (F : exists js, Forall2 (converts D) vs js /\ Forall writable js /\
      (fix zip (l : list ann) (vs : list pv) : option (list pv) :=
         match l, vs with a :: l, v :: vs => match structure a v with Some x => option_map (cons x) (zip l vs) | None => None end | _, _ => Some [] end) l (map back js) = Some vs).
    { revert vs T C K. induction IH as [|a l IA IL IHl]; intros [|v vs] T C K; try destruct T; [exists []; repeat constructor|].
      destruct C as [CA CL]. inversion K as [|? ? KA KL]; subst. destruct (IA v H KA CA) as (j & CV & W & S). destruct (IHl vs H0 CL KL) as (js & CS & WS & SS).
      exists (j :: js). refine (conj _ (conj _ _)); [constructor; assumption | constructor; assumption|]. cbn [map]. rewrite S, SS. reflexivity. }
    destruct F as (js & CS & WS & SS). exists (JArr js). refine (conj _ (conj (writable_arr js WS) _)).
    + destruct (converts_arr2 vs js CS) as (n & E). exists (S n). cbn [conv]. now rewrite E.
    + cbn [BodyModel.structure]. rewrite items_arr, SS. reflexivity.
  - destruct T as (l & -> & T). cbn [certain] in C. cbn [carried] in K. destruct K as (K & HS & DI). apply fold_and in K.
    assert (F : Forall (trip a) l) by (rewrite !Forall_forall in *; auto). destruct (trips a l F) as (js & CS & WS & SS).
    exists (JArr js). refine (conj _ (conj (writable_arr js WS) _)).
    + apply (via_default (PSet l) (PList l)); [reflexivity | | exact I]. destruct (converts_arr2 l js CS) as (n & E). exists (S n). cbn [conv]. now rewrite E.
    + cbn [BodyModel.structure]. rewrite items_arr, SS. unfold make_set. rewrite HS, distinct_all; [reflexivity | exact DI].
  - destruct T as (l & -> & ND & T). cbn [certain] in C. cbn [carried] in K. apply fold_and in K.
    assert (F : exists js, Forall2 (fun e x => fst x = fst e /\ converts D (snd e) (snd x)) l js /\ Forall (fun e => Forall scalar (fst e) /\ writable (snd e)) js /\
      all_some (map (fun e => option_map (pair (fst e)) (structure a (snd e))) (map (fun e => (fst e, back (snd e))) js)) = Some l).
    { clear ND. revert T C K. induction l as [|[k v] l IHl]; intros T C K; [exists []; repeat constructor|]. inversion T; inversion C; inversion K; subst. cbn [fst snd] in *.
      destruct (IH v H1 (proj2 H9) H5) as (j & CV & W & S). destruct (IHl H2 H6 H10) as (js & CS & WS & SS). exists ((k, j) :: js).
      refine (conj _ (conj _ _)); [constructor; auto | constructor; [split; [apply H9 | exact W] | exact WS]|]. cbn [map all_some fst snd]. rewrite S. cbn [option_map]. rewrite SS. reflexivity. }
    destruct F as (js & CS & WS & SS). assert (KEYS : map fst js = map fst l) by (clear -CS; induction CS as [|? ? ? ? [E _] _ IHc]; [reflexivity | cbn; now rewrite E, IHc]).
    exists (JObj js). refine (conj _ (conj _ _)).
    + assert (X : exists n, all_some (map (fun e : str * pv => match conv D n (snd e) with Some j => Some (fst e, j) | None => None end) l) = Some js).
      { clear -CS. induction CS as [|[k v] [k' j] l js [E (n & CV)] _ (m & IHc)]; [exists 0%nat; reflexivity|]. cbn [fst snd] in *. subst k'. exists (Nat.max n m). cbn [map all_some fst snd].
        rewrite (conv_le D n _ v j (Nat.le_max_l _ _) CV).
        assert (MO : forall (e : str * pv) b, match conv D m (snd e) with Some j => Some (fst e, j) | None => None end = Some b ->
                     match conv D (Nat.max n m) (snd e) with Some j => Some (fst e, j) | None => None end = Some b).
        { intros [k2 v2] b. cbn [fst snd]. destruct (conv D m v2) as [x|] eqn:Q; [|discriminate]. rewrite (conv_le D m _ v2 x (Nat.le_max_r _ _) Q). auto. }
        rewrite (all_some_mono _ _ l js MO IHc). reflexivity. }
      destruct X as (n & E). exists (S n). cbn [conv]. now rewrite E.
    + cbn [writable]. rewrite KEYS. split; [exact ND | apply fold_and; exact WS].
    + cbn [back BodyModel.structure]. rewrite SS. reflexivity.
  - cbn [typed certain] in T, C. destruct (IH v T K C) as (j & X). exists j. exact X.
Qed.

(** ** The class of the result *)
Lemma plain_items v l : plain v -> items_or_empty v = Some l -> Forall plain l.
Proof.
  unfold items_or_empty. destruct (falsy v); [intros _ [= <-]; constructor|]. destruct v; cbn [plain items]; try contradiction; try discriminate.
  - intros F [= <-]. apply Forall_map. eapply Forall_impl; [|exact F]. intros c S. constructor; [exact S | constructor].
  - intros F [= <-]. apply fold_and in F. exact F.
  - intros [_ F] [= <-]. apply fold_and in F. apply Forall_map. eapply Forall_impl; [|exact F]. intros e [S _]. exact S.
Qed.
Lemma all_some_forall {A B} (f : A -> option B) (P : A -> Prop) (Q : B -> Prop) l r : (forall a b, P a -> f a = Some b -> Q b) -> Forall P l -> all_some (map f l) = Some r -> Forall Q r.
Proof.
  intros H F. revert r. induction F as [|a l PA F IH]; cbn [map all_some]; intros r; [intros [= <-]; constructor|]. destruct (f a) as [b|] eqn:E; [|discriminate].
  destruct (all_some (map f l)) as [r'|]; [|discriminate]. intros [= <-]. constructor; [eapply H; eassumption | apply IH; reflexivity].
Qed.
Lemma distinct_in x l : forall seen, In x (distinct py_eq seen l) -> In x seen \/ In x l.
Proof.
  induction l as [|y l IH]; intros seen; cbn [distinct]; [rewrite <- in_rev; auto|]. intros I. apply IH in I. cbn [In]. destruct I as [I|I]; [|auto]. destruct (existsb (py_eq y) seen); [auto|]. destruct I; auto.
Qed.
Lemma structure_checked a : checked a -> forall r v, plain r -> structure a r = Some v -> typed instance_of a v.
Proof.
  induction a as [t| |l IH|l IH|a IH|a IH|l IH|a IH|a IH|a IH] using ann_ind'; intros K r v P; cbn [checked] in K; try contradiction; cbn [BodyModel.structure typed].
  - intros E. assert (X : instance t v).
    { destruct (is_instance t r) eqn:I; [|apply (C109_class_partial t r v P E K)]. injection E as <-. apply (C109_class_partial t r r P); [apply instance_same; assumption | exact K]. }
    destruct t; try exact X. now destruct (K cls).
  - destruct (items_or_empty r) as [vs|] eqn:I; [|discriminate]. destruct (all_some (map (structure a) vs)) as [l|] eqn:A; [|discriminate]. intros [= <-]. exists l. split; [reflexivity|].
    eapply (all_some_forall _ plain); [|eapply plain_items; eassumption | exact A]. intros x y PX E. eapply IH; eassumption.
  - destruct (items_or_empty r) as [vs|] eqn:I; [|discriminate]. destruct (all_some (map (structure a) vs)) as [l|] eqn:A; [|discriminate]. intros [= <-]. exists l. split; [reflexivity|].
    eapply (all_some_forall _ plain); [|eapply plain_items; eassumption | exact A]. intros x y PX E. eapply IH; eassumption.
  - destruct (items_or_empty r) as [vs|] eqn:I; [|discriminate]. destruct (all_some (map (structure a) vs)) as [l|] eqn:A; [|discriminate]. unfold make_set. destruct (forallb hashable l); [|discriminate].
    intros [= <-]. exists (distinct py_eq [] l). split; [reflexivity|].
    assert (F : Forall (typed instance_of a) l) by (eapply (all_some_forall _ plain); [|eapply plain_items; eassumption | exact A]; intros x y PX E; eapply IH; eassumption).
    rewrite Forall_forall in *. intros x J. apply distinct_in in J. destruct J as [[]|J]. auto.
  - destruct r; try discriminate; [intros [= <-]; exists []; repeat constructor|]. destruct P as [ND F]. apply fold_and in F.
    destruct (all_some (map (fun e => option_map (pair (fst e)) (structure a (snd e))) l)) as [l'|] eqn:A; [|discriminate]. intros [= <-]. exists l'. split; [reflexivity|]. split.
    + assert (E : map fst l' = map fst l); [|rewrite E; exact ND]. clear -A. revert l' A. induction l as [|e l IHl]; cbn [map all_some]; intros l'; [intros [= <-]; reflexivity|].
      destruct (structure a (snd e)); [|discriminate]. cbn [option_map]. destruct (all_some (map _ l)) as [r|]; [|discriminate]. intros [= <-]. cbn [map fst]. now rewrite (IHl r eq_refl).
    + eapply (all_some_forall _ (fun e => Forall scalar (fst e) /\ plain (snd e))); [|exact F | exact A]. intros [k x] y [_ PX]. cbn [fst snd] in *. destruct (structure a x) as [w|] eqn:E; [|discriminate].
      intros [= <-]. cbn [snd]. eapply IH; eassumption.
  - intros E. eapply IH; eassumption.
Qed.
End Trip.

(** * C127: the handler gets the object that was sent *)
Definition C127_statement : Prop :=
  forall py_eq a v, typed sendable a v -> carried py_eq v ->
  exists n0, forall n, (n0 <= n)%nat -> exists r, json_encode DEFAULT_ENCODER_TYPES None false n v = Some r /\ structure py_eq DEFAULT_ENCODER_TYPES a r = Some v.
(** None for an optional list arrives as an empty list. *)
Theorem C127_refuted : ~ C127_statement.
Proof.
  intros H. destruct (H (fun _ _ => false) (AUnion [AList (ALeaf (TOther (u "int"))); ANone]) PNone) as (n0 & X); [right; left; reflexivity | exact I|].
  destruct (X (S n0) ltac:(lia)) as (r & E & S). vm_compute in E. injection E as <-. vm_compute in S. discriminate.
Qed.
Print Assumptions C127_refuted.
(** A dataclass in X | None arrives as a dict; with Optional it is built. *)
Theorem C127_pipe_refuted :
  let a := ALeaf (TData (u "A") [u "x"]) in let v := PData (u "A") [(u "x", PInt 1)] in
  exists r, json_encode DEFAULT_ENCODER_TYPES None false 9 v = Some r /\ typed sendable (APipe [a; ANone]) v /\
    structure (fun _ _ => false) DEFAULT_ENCODER_TYPES (APipe [a; ANone]) r = Some (PDict [(u "x", PInt 1)]) /\
    structure (fun _ _ => false) DEFAULT_ENCODER_TYPES (AUnion [a; ANone]) r = Some v.
Proof.
  cbn zeta. eexists. refine (conj _ (conj _ (conj _ _))); [vm_compute; reflexivity | | vm_compute; reflexivity | vm_compute; reflexivity].
  left. split; [split; reflexivity|]. split; [repeat constructor; intros []|]. repeat constructor.
Qed.
Print Assumptions C127_pipe_refuted.
(** Missing: X | Y, and values of unions that an earlier alternative takes for its own. *)
Theorem C127_partial : forall py_eq a v, typed sendable a v -> carried py_eq v -> certain a v ->
  exists n0, forall n, (n0 <= n)%nat -> exists r, json_encode DEFAULT_ENCODER_TYPES None false n v = Some r /\ structure py_eq DEFAULT_ENCODER_TYPES a r = Some v.
Proof.
  intros py_eq a v T K C. destruct (typed_trip py_eq a v T K C) as (j & CV & W & S). destruct (encode_of v j CV W) as (n0 & E). exists n0. intros n L. exists (back j). auto.
Qed.
Print Assumptions C127_partial.
(** And a handler never gets anything else: *)
Definition C127_class_statement : Prop :=
  forall py_eq a r v, plain r -> structure py_eq DEFAULT_ENCODER_TYPES a r = Some v -> typed instance_of a v.
(** [int] takes a text; *)
Theorem C127_class_refuted : ~ C127_class_statement.
Proof.
  intros H. specialize (H (fun _ _ => false) (ALeaf (TOther (u "int"))) (PStr (u "a")) (PStr (u "a"))). cbn [typed instance_of of_class] in H.
  destruct H as [H|H]; [repeat constructor; unfold scalar; lia | reflexivity | discriminate | discriminate].
Qed.
Print Assumptions C127_class_refuted.
(** a tuple of two takes a list of one. *)
Theorem C127_tuple_refuted : exists r v, plain r /\ structure (fun _ _ => false) DEFAULT_ENCODER_TYPES (ATuple [ALeaf TUuid; ALeaf TUuid]) r = Some v /\
  ~ typed instance_of (ATuple [ALeaf TUuid; ALeaf TUuid]) v.
Proof.
  exists (PList []), (PTuple []). refine (conj I (conj eq_refl _)). intros (vs & E & H). injection E as <-. exact H.
Qed.
Print Assumptions C127_tuple_refuted.
(** Missing: classes no encoder knows (int, str, ...), unions, and tuples of fixed length. *)
Theorem C127_class_partial : forall py_eq a r v, checked a -> plain r -> structure py_eq DEFAULT_ENCODER_TYPES a r = Some v -> typed instance_of a v.
Proof. intros py_eq a r v K P E. exact (structure_checked py_eq a K r v P E). Qed.
Print Assumptions C127_class_partial.
Definition ex_item (n : Z) : pv := PData (u "Item") [(u "sku", PStr (u "s")); (u "n", PInt n)].
Definition ex_ann : ann := ADict (AList (AUnion [ANone; AAnnotated (ATuple [ALeaf (TData (u "Item") [u "sku"; u "n"]); ASet (ALeaf TDate)])])).
Definition ex_value : pv := PDict [(u "a", PList [PTuple [ex_item 1; PSet [PDate 2024 2 29; PDate 2023 1 1]]; PTuple [ex_item 2; PSet []]]); (u "b", PList [])].
Example C127_case :
  typed sendable ex_ann ex_value /\ certain ex_ann ex_value /\ carried (fun x y => match x, y with PDate a b c, PDate a' b' c' => (a =? a') && (b =? b') && (c =? c') | _, _ => false end) ex_value /\
  (exists r, json_encode DEFAULT_ENCODER_TYPES None false 20 ex_value = Some r /\ structure (fun x y => match x, y with PDate a b c, PDate a' b' c' => (a =? a') && (b =? b') && (c =? c') | _, _ => false end) DEFAULT_ENCODER_TYPES ex_ann r = Some ex_value).
Proof.
  assert (DA : forall y m d, (y, m, d) = (2024, 2, 29) \/ (y, m, d) = (2023, 1, 1) -> sendable TDate (PDate y m d)).
  { intros y m d [[= -> -> ->]|[= -> -> ->]]; (split; [exact I | unfold simple; repeat split; vm_compute; congruence]). }
  assert (IT : forall n, sendable (TData (u "Item") [u "sku"; u "n"]) (ex_item n)).
  { intros n. split; [split; reflexivity|]. split; [repeat constructor; cbn; intuition discriminate | repeat constructor]. }
  assert (E1 : forall n l, Forall (sendable TDate) l -> typed sendable (AAnnotated (ATuple [ALeaf (TData (u "Item") [u "sku"; u "n"]); ASet (ALeaf TDate)])) (PTuple [ex_item n; PSet l])).
  { intros n l F. eexists. split; [reflexivity|]. split; [apply IT|]. split; [|exact I]. exists l. auto. }
  assert (F1 : Forall (sendable TDate) [PDate 2024 2 29; PDate 2023 1 1]) by (apply Forall_cons; [|apply Forall_cons; [|apply Forall_nil]]; apply DA; auto).
  refine (conj _ (conj _ (conj _ _))).
  - eexists. split; [reflexivity|]. split; [repeat constructor; cbn; intuition discriminate|].
    apply Forall_cons; [|apply Forall_cons; [|apply Forall_nil]]; eexists; (split; [reflexivity|]).
    + apply Forall_cons; [|apply Forall_cons; [|apply Forall_nil]]; right; left; apply E1; [exact F1 | apply Forall_nil].
    + apply Forall_nil.
  - cbn [certain ex_ann ex_value]. apply Forall_cons; [|apply Forall_cons; [|apply Forall_nil]]; cbn [snd]; [|apply Forall_nil].
    apply Forall_cons; [|apply Forall_cons; [|apply Forall_nil]]; right; (split; [apply E1; [exact F1 || apply Forall_nil] | repeat constructor]).
  - cbn [carried ex_value map fold_right fst snd forallb hashable ex_item]. repeat split; try (repeat constructor; fail).
    + intros l1 x l2 y l3 E. destruct l1 as [|? [|? l1]]; cbn [app] in E.
      * destruct l2 as [|? [|? l2]]; cbn [app] in E; [injection E as <- <- <-; reflexivity | discriminate E | discriminate E].
      * destruct l2; discriminate E.
      * destruct l1; discriminate E.
    + intros l1 x l2 y l3 E. destruct l1; discriminate E.
  - eexists. split; vm_compute; reflexivity.
Qed.

(** * C128: which part of the body a parameter gets *)
Section Handler.
Context {C P : Type} (none : pv) (of_text : str -> pv) (of_texts : list str -> pv) (do_cast : C -> pv -> casted pv) (py_eq : pv -> pv -> bool) (types : list encoder).
Implicit Types (e : surroundings pv P) (r : request pv) (s : signature pv C P).
Notation handle := (handle none of_text of_texts do_cast).
Notation structure := (structure py_eq types).
Lemma dupdate_keys_iff {V} (l : dict V) : forall d n, In n (dkeys (dupdate d l)) <-> In n (dkeys d) \/ In n (dkeys l).
Proof.
  induction l as [|(k, v) l IH]; intros d n; [cbn; tauto|]. change (dupdate d ((k, v) :: l)) with (dupdate (dset k v d) l). rewrite IH.
  rewrite PathRevProofs.dkeys_dset. cbn [dkeys map fst In]. intuition.
Qed.
Lemma fold_keys {V} (ls : list (dict V)) n : forall d, In n (dkeys (fold_left dupdate ls d)) <-> In n (dkeys d) \/ exists l, In l ls /\ In n (dkeys l).
Proof.
  induction ls as [|l ls IH]; intros d; cbn [fold_left]; [split; [auto | intros [H|(l & [] & _)]; exact H]|]. rewrite IH, dupdate_keys_iff. cbn [In]. split.
  - intros [[H|H]|(x & I & H)]; eauto.
  - intros [H|(x & [<-|I] & H)]; eauto.
Qed.
Lemma merged_provided e n : dmem n (merged e) = true <-> provided e n.
Proof.
  assert (K : dmem n (merged e) = true <-> In n (dkeys (merged e))).
  { unfold dmem. destruct (dget n (merged e)) as [v|] eqn:E; [|apply dget_None_keys in E; split; [discriminate | contradiction]]. split; [intros _ | reflexivity].
    destruct (in_dec (list_eq_dec N.eq_dec) n (dkeys (merged e))) as [I|I]; [exact I|]. apply dget_None_keys in I. congruence. }
  rewrite K. unfold merged, provided. rewrite !dupdate_keys_iff, fold_keys, dupdate_keys_iff. cbn [In]. split.
  - intros [[[[[]|H]|(l & I & H)]|H]|H]; eauto 9.
  - intros (l & [<-|[<-|[<-|I]]] & H); eauto 9.
Qed.
Lemma requested_iff m s n : In n (dkeys (requested m s)) <-> exists d, In (n, d) s /\ (is_marker d = true \/ d = Empty /\ dmem n m = true).
Proof.
  unfold dkeys, requested. rewrite in_map_iff. split.
  - intros ((k, o) & <- & I). apply in_flat_map in I. destruct I as ((m', d) & J & I). cbn [fst snd] in *. exists d. destruct d; cbn [In] in I.
    + destruct (dmem m' m) eqn:X; [|destruct I]. destruct I as [I|[]]. injection I as <- <-. auto.
    + destruct I.
    + destruct I.
    + destruct I as [I|[]]. injection I as <- <-. auto.
    + destruct I as [I|[]]. injection I as <- <-. auto.
  - intros (d & J & K). destruct d.
    + destruct K as [K|[_ K]]; [discriminate|]. exists (n, dget n m). split; [reflexivity|]. apply in_flat_map. eexists. split; [exact J|]. cbn [fst snd]. rewrite K. left. reflexivity.
    + destruct K as [K|[K _]]; discriminate.
    + destruct K as [K|[K _]]; discriminate.
    + exists (n, dget n m). split; [reflexivity|]. apply in_flat_map. eexists. split; [exact J|]. left. reflexivity.
    + exists (n, Some p). split; [reflexivity|]. apply in_flat_map. eexists. split; [exact J|]. left. reflexivity.
Qed.
Definition clash r (n : str) : Prop := In n (query_names r) \/ In n (header_names r) \/ In n (cookie_names r).
Lemma name_once s n d d' : NoDup (names s) -> In (n, d) s -> In (n, d') s -> d = d'.
Proof.
  unfold names. induction s as [|(k, w) s IH]; intros D I J; [destruct I|]. cbn [map fst] in D. apply NoDup_cons_iff in D. destruct D as [D1 D2]. destruct I as [[= -> ->]|I], J as [J|J].
  - congruence.
  - destruct D1. exact (in_map fst _ _ J).
  - injection J as -> ->. destruct D1. exact (in_map fst _ _ I).
  - exact (IH D2 I J).
Qed.
Lemma body_names_iff e r s n : NoDup (names s) -> In n (body_names r s (requested (merged e) s)) <-> body_parameter e r s n /\ ~ clash r n.
Proof.
  intros ND. unfold body_names. rewrite in_map_iff. unfold body_parameter, clash. split.
  - intros ((k, d) & <- & I). apply filter_In in I. destruct I as [I H]. cbn [fst snd] in *. rewrite !andb_true_iff, !negb_true_iff in H. destruct H as [[[[H1 H2] H3] H4] H5].
    apply smem_not_In in H1, H5. rewrite !in_app_iff in H1. cbn [In] in H5. split; [|tauto]. split; [|intuition].
    destruct d; try discriminate.
    + left. split; [exact I|]. intros PR. apply merged_provided in PR. assert (X : In k (dkeys (requested (merged e) s))) by (apply requested_iff; eauto).
      unfold dmem in H4. destruct (dget k (requested (merged e) s)) eqn:G; [discriminate|]. apply dget_None_keys in G. contradiction.
    + right. eauto.
  - intros [[H1 (H2 & H3 & H4 & H5)] H6].
    assert (K : exists d, In (n, d) s /\ is_marker d = false /\ (match d with Bound _ => false | _ => true end = true) /\ (d = Empty -> ~ provided e n)) by (destruct H1 as [[I PR]|(v & I)]; eexists; (split; [exact I|]); repeat split; auto; discriminate).
    destruct K as (d & I & M & B & PR). exists (n, d). split; [reflexivity|]. apply filter_In. split; [exact I|]. cbn [fst snd]. rewrite !andb_true_iff, !negb_true_iff. repeat split; auto.
    + apply smem_not_In. rewrite !in_app_iff. tauto.
    + unfold dmem. destruct (dget n (requested (merged e) s)) eqn:G; [|reflexivity]. exfalso.
      assert (X : In n (dkeys (requested (merged e) s))) by (destruct (in_dec (list_eq_dec N.eq_dec) n (dkeys (requested (merged e) s))) as [X|X]; [exact X | apply dget_None_keys in X; congruence]).
      apply requested_iff in X. destruct X as (d' & J & X). rewrite <- (name_once s n d d' ND I J) in X. destruct X as [X|[X Y]]; [congruence|]. apply (PR X), merged_provided, Y.
    + apply smem_not_In. cbn [In]. intuition.
Qed.
Lemma body_names_nodup r s q : NoDup (names s) -> NoDup (body_names r s q).
Proof.
  unfold body_names, names. induction s as [|(k, d) s IH]; intros D; [constructor|]. cbn [map fst filter] in *. apply NoDup_cons_iff in D. destruct D as [D1 D2]. specialize (IH D2).
  match goal with |- context [if ?b then _ else _] => destruct b end; [|exact IH]. cbn [map fst]. constructor; [|exact IH]. intros X. apply D1. apply in_map_iff in X. destruct X as (y & <- & X). apply filter_In in X. apply in_map, X.
Qed.
Lemma parse_each_keeps anns ns data n : ~ In n ns -> forall p d, parse_each py_eq types anns ns data p = Some d -> dget n d = dget n p.
Proof.
  induction ns as [|k ns IH]; intros N p d; cbn [parse_each]; [intros [= <-]; reflexivity|]. destruct (dget k data); [|discriminate]. destruct (structure (anns k) p0); [|discriminate]. intros E.
  rewrite (IH (fun I => N (or_intror I)) _ _ E). apply dget_dset_other. intros <-. apply N. left. reflexivity.
Qed.
Lemma parse_each_in anns ns data n : NoDup ns -> In n ns -> forall p d, parse_each py_eq types anns ns data p = Some d ->
  exists x v, dget n data = Some x /\ structure (anns n) x = Some v /\ dget n d = Some v.
Proof.
  induction ns as [|k ns IH]; intros D I p d; [destruct I|]. cbn [parse_each]. apply NoDup_cons_iff in D. destruct D as [D1 D2]. destruct (dget k data) as [x|] eqn:G; [|discriminate].
  destruct (structure (anns k) x) as [v|] eqn:S; [|discriminate]. intros E. destruct I as [->|I]; [|eapply IH; eassumption].
  exists x, v. refine (conj G (conj S _)). rewrite (parse_each_keeps anns ns data n D1 _ _ E). apply dget_dset_same.
Qed.
Lemma parse_each_keys anns ns data : forall p d, parse_each py_eq types anns ns data p = Some d -> NoDup (dkeys p) -> NoDup (dkeys d).
Proof.
  induction ns as [|k ns IH]; intros p d; cbn [parse_each]; [intros [= <-]; auto|]. destruct (dget k data) as [x|]; [|discriminate]. destruct (structure (anns k) x); [|discriminate]. intros E D. eapply IH; [exact E|]. apply dset_nodup', D.
Qed.
Lemma dget_mapped (d : dict pv) n : dget n (map (fun p => (fst p, Val (snd p))) d) = option_map Val (dget n d).
Proof. induction d as [|(k, v) d IH]; [reflexivity|]. cbn [map dget fst snd]. destruct (seqb n k); [reflexivity | exact IH]. Qed.
(** What a parameter of the body is in the arguments. *)
Lemma body_argument e r s anns c body a n : NoDup (names s) -> infer_body e = true -> is_fast_path_eligible s = false ->
  handle (with_body py_eq types e anns c body) r s = Args a -> body_parameter e r s n -> ~ clash r n ->
  exists d v, parse_inferred py_eq types anns (body_names r s (requested (merged e) s)) (json_data c body) = Some d /\ dget n d = Some v /\ dget n a = Some (Val v) /\ NoDup (dkeys d).
Proof.
  intros ND INF FP H BP NC. assert (IB := proj2 (body_names_iff e r s n ND) (conj BP NC)).
  unfold ArgsModel.handle in H. rewrite FP in H. unfold general, extract_params in H. cbv zeta in H. change (merged (with_body py_eq types e anns c body)) with (merged e) in H.
  cbn [infer_body with_body parse_body] in H. rewrite INF in H. destruct (body_names r s (requested (merged e) s)) as [|b0 bs] eqn:BN; [destruct IB|]. rewrite <- BN in *.
  destruct (parse_inferred py_eq types anns (body_names r s (requested (merged e) s)) (json_data c body)) as [d|] eqn:PI; [|discriminate].
  assert (KEYS : NoDup (dkeys d) /\ exists v, dget n d = Some v).
  { pose proof (body_names_nodup r s (requested (merged e) s) ND) as NB. rewrite BN in *. unfold parse_inferred in PI. destruct bs as [|b1 bs].
    - destruct IB as [->|[]]. destruct (structure (anns n) (json_data c body)) as [x|]; [|destruct (structure (anns n) _) as [x|]; [|discriminate]]; injection PI as <-; cbn [dkeys map fst dget]; rewrite seqb_refl; (split; [repeat constructor; intros [] | eauto]).
    - destruct (json_data c body) as [| | | | | | | |dd| | | | | | | |]; try discriminate. split; [eapply parse_each_keys; [exact PI | constructor]|]. destruct (parse_each_in anns _ _ n NB IB _ _ PI) as (x & v & _ & _ & G). eauto. }
  destruct KEYS as [KN (v & G)]. exists d, v. refine (conj eq_refl (conj G (conj _ KN))).
  set (base := dupdate (path_args r s) _) in H. destruct (provide_all _ (requested (merged e) s) base) as [p'|] eqn:PA; [|discriminate].
  destruct (ArgsModel.bind none of_text of_texts do_cast r s []) as [b|x] eqn:BB; [|discriminate]. pose proof (bind_nodup _ _ _ _ r s [] b (NoDup_nil _) BB) as NDB.
  destruct BP as [K (B1 & B2 & B3 & B4)].
  assert (NB : dget n b = None).
  { rewrite (bind_other none of_text of_texts do_cast r s n) with (a := []) (a' := b); [reflexivity| |exact BB]. intros f J. destruct K as [[K _]|(w & K)]; pose proof (name_once s n _ _ ND K J); discriminate. }
  assert (NR : ~ In n (dkeys (requested (merged e) s))).
  { intros X. apply requested_iff in X. destruct X as (d' & J & X). destruct K as [[K PR]|(w & K)]; pose proof (name_once s n _ _ ND K J); subst d'; [|destruct X as [X|[X _]]; discriminate].
    destruct X as [X|[_ X]]; [discriminate|]. apply PR, merged_provided, X. }
  assert (BASE : dget n p' = Some (Val v)).
  { rewrite (provide_other _ _ n NR _ _ PA). unfold base. rewrite dget_dupdate_last, last_nodup.
    - rewrite dget_mapped, G. reflexivity.
    - unfold dkeys. rewrite map_map. exact KN. }
  apply args_inj in H. subst a. destruct (smem (u "request") (names s)); rewrite ?(dget_dset_other n) by assumption; rewrite dget_dupdate_last, last_nodup, NB by exact NDB;
  destruct (smem (u "context") (names s)); rewrite ?dget_dset_other by assumption; exact BASE.
Qed.
Theorem C128_partial : forall e r s anns body a n,
  NoDup (names s) -> infer_body e = true -> (exists m, body_parameter e r s m /\ In (m, Empty) s) ->
  (forall m, body_parameter e r s m -> ~ In m (query_names r) /\ ~ In m (header_names r) /\ ~ In m (cookie_names r)) ->
  falsy body = false \/ body = PDict [] ->
  handle (with_body py_eq types e anns Json body) r s = Args a -> body_parameter e r s n ->
  exists v, dget n a = Some (Val v) /\ for_body py_eq types anns e r s body n v.
Proof.
  intros e r s anns body a n ND INF (m & BM & EM) NC TR H BP.
  assert (FP : is_fast_path_eligible s = false).
  { destruct (is_fast_path_eligible s) eqn:E; [|reflexivity]. pose proof (proj1 (eligible_iff s) E m Empty EM) as [Q|Q]; destruct BM as [_ (_ & B1 & _ & B2)]; contradiction. }
  assert (NC' : forall m, body_parameter e r s m -> ~ clash r m) by (intros x X; destruct (NC x X) as (A & B & D); unfold clash; tauto).
  destruct (body_argument e r s anns Json body a n ND INF FP H BP (NC' n BP)) as (d & v & PI & G & GA & _). exists v. split; [exact GA|].
  assert (DATA : json_data Json body = body) by (cbn [json_data]; destruct TR as [-> | ->]; reflexivity). rewrite DATA in PI.
  pose proof (body_names_nodup r s (requested (merged e) s) ND) as NB. pose proof (fun x => body_names_iff e r s x ND) as IFF.
  assert (IB := proj2 (IFF n) (conj BP (NC' n BP))). unfold for_body. cbn zeta. destruct (body_names r s (requested (merged e) s)) as [|b0 [|b1 bs]] eqn:BN; [destruct IB| |].
  - destruct IB as [->|[]]. left. split; [intros x X; destruct (proj2 (IFF x) (conj X (NC' x X))) as [E|[]]; congruence|].
    cbn [parse_inferred] in PI. destruct (structure (anns n) body) as [x|] eqn:S.
    + injection PI as <-. cbn [dget] in G. rewrite seqb_refl in G. left. exact G.
    + right. split; [reflexivity|].
      assert (CAND : forall w, option_map (fun x => [(n, x)]) (structure (anns n) w) = Some d -> structure (anns n) w = Some v).
      { intros w E. destruct (structure (anns n) w) as [y|]; [|discriminate]. injection E as <-. cbn [dget] in G. rewrite seqb_refl in G. exact G. }
      destruct body; try (apply CAND in PI; congruence). destruct (dget n l) as [x|] eqn:GL; [|apply CAND in PI; congruence]. apply CAND in PI. eauto.
  - right. split.
    + destruct (list_eq_dec N.eq_dec b0 n) as [->|D]; [exists b1 | exists b0]; (split; [apply IFF; cbn [In]; auto|]); [|exact D]. intros ->. apply NoDup_cons_iff in NB. apply (proj1 NB). left. reflexivity.
    + cbn [parse_inferred] in PI. destruct body; try discriminate. destruct (parse_each_in anns _ _ n NB IB _ _ PI) as (x & w & A & B & G'). exists l, x. refine (conj eq_refl (conj A _)). congruence.
Qed.
(** A single parameter that is a list of instances of a dataclass may also be sent as the entry of its name, as the
    documentation says. *)
Theorem C128_wrapped_partial : forall e r s anns a n cls fields x v,
  NoDup (names s) -> infer_body e = true -> body_parameter e r s n -> In (n, Empty) s -> (forall m, body_parameter e r s m -> m = n) ->
  ~ In n (query_names r) /\ ~ In n (header_names r) /\ ~ In n (cookie_names r) ->
  types = DEFAULT_ENCODER_TYPES -> anns n = AList (ALeaf (TData cls fields)) -> structure (anns n) x = Some v ->
  handle (with_body py_eq types e anns Json (PDict [(n, x)])) r s = Args a -> dget n a = Some (Val v).
Proof.
  intros e r s anns a n cls fields x v ND INF BP EM ONE NC TY AN S H.
  assert (FP : is_fast_path_eligible s = false).
  { destruct (is_fast_path_eligible s) eqn:E; [|reflexivity]. pose proof (proj1 (eligible_iff s) E n Empty EM) as [Q|Q]; destruct BP as [_ (_ & B1 & _ & B2)]; contradiction. }
  assert (NC' : ~ clash r n) by (unfold clash; tauto).
  destruct (body_argument e r s anns Json (PDict [(n, x)]) a n ND INF FP H BP NC') as (d & w & PI & G & GA & _). rewrite GA. do 2 f_equal. cbn [json_data falsy] in PI.
  pose proof (body_names_nodup r s (requested (merged e) s) ND) as NB. pose proof (fun y => body_names_iff e r s y ND) as IFF. assert (IB := proj2 (IFF n) (conj BP NC')).
  destruct (body_names r s (requested (merged e) s)) as [|b0 [|b1 bs]] eqn:BN; [destruct IB| |].
  - destruct IB as [->|[]]. cbn [parse_inferred] in PI. rewrite AN in *.
    replace (structure (AList (ALeaf (TData cls fields))) (PDict [(n, x)])) with (@None pv) in PI by (rewrite TY; reflexivity).
    cbn [dget] in PI. rewrite seqb_refl, S in PI. injection PI as <-. cbn [dget] in G. rewrite seqb_refl in G. congruence.
  - exfalso. apply NoDup_cons_iff in NB. apply (proj1 NB). left. assert (b0 = n) by (apply ONE, IFF; left; reflexivity). assert (b1 = n) by (apply ONE, IFF; right; left; reflexivity). congruence.
Qed.
End Handler.
Print Assumptions C128_partial.
Print Assumptions C128_wrapped_partial.

Definition no_env (infer : bool) : surroundings pv str := {| app_deps := []; include_deps := []; route_deps := []; overrides := []; infer_body := infer; parse_body := fun _ => inl []; provide := fun _ => inl PNone |}.
Definition asks (query : list str) : request pv :=
  {| path_params := []; query_values := fun _ => []; header_values := fun _ => []; cookie_value := fun _ => None; query_names := query; header_names := [u "host"]; cookie_names := [] |}.
Definition run_handler (anns : str -> ann) (body : pv) (query : list str) (s : signature pv unit str) : outcome pv :=
  handle PNone PStr (fun _ => PNone) (fun (_ : unit) v => Cast v) (with_body (fun _ _ => false) DEFAULT_ENCODER_TYPES (no_env true) anns Json body) (asks query) s.
Definition C128_statement : Prop :=
  forall anns body query (s : signature pv unit str) a n, NoDup (names s) ->
  run_handler anns body query s = Args a -> body_parameter (no_env true) (asks query) s n ->
  exists v, dget n a = Some (Val v) /\ for_body (fun _ _ => false) DEFAULT_ENCODER_TYPES anns (no_env true) (asks query) s body n v.
Definition int_ann : ann := ALeaf (TOther (u "int")).
Definition dict_ann : ann := ALeaf (TOther (u "dict")).
(** With [def f(a: dict, b: dict)], whoever adds ?a= to the URL makes the whole body the value of [b]; [a] is then
    missing, unless it has a default as here. *)
Theorem C128_refuted : ~ C128_statement.
Proof.
  intros H. set (x := PDict [(u "k", PInt 1)]). set (body := PDict [(u "a", x); (u "b", x)]).
  destruct (H (fun _ => dict_ann) body [u "a"] [(u "a", Plain x); (u "b", Empty)] [(u "b", Val body)] (u "b")) as (v & G & F).
  - repeat constructor; cbn; intuition discriminate.
  - vm_compute. reflexivity.
  - split; [left; split; [right; left; reflexivity | intros (l & [<-|[<-|[<-|[]]]] & [])]|]. cbn. repeat split; intuition discriminate.
  - cbn [dget] in G. rewrite seqb_refl in G. injection G as <-. destruct F as [[ONE _]|[_ (d & y & E & GY & S)]].
    + assert (X : u "a" = u "b"); [|discriminate X]. apply ONE. split; [right; exists x; left; reflexivity|]. cbn. repeat split; intuition discriminate.
    + injection E as <-. vm_compute in GY. injection GY as <-. vm_compute in S. discriminate.
Qed.
Print Assumptions C128_refuted.
(** A body that is false in Python, as 0, is replaced by an empty dict. *)
Theorem C128_falsy_refuted : run_handler (fun _ => int_ann) (PInt 0) [] [(u "n", Empty)] = Args [(u "n", Val (PDict []))] /\
  run_handler (fun _ => int_ann) (PInt 1) [] [(u "n", Empty)] = Args [(u "n", Val (PInt 1))].
Proof. split; vm_compute; reflexivity. Qed.
Print Assumptions C128_falsy_refuted.
(** A parameter named as a header of the request is never read from the body. *)
Theorem C128_header_refuted : run_handler (fun _ => dict_ann) (PDict [(u "host", PDict []); (u "b", PDict [])]) [] [(u "host", Plain PNone); (u "b", Empty)] =
  Args [(u "b", Val (PDict [(u "host", PDict []); (u "b", PDict [])]))].
Proof. vm_compute. reflexivity. Qed.
Print Assumptions C128_header_refuted.
(** The documented wrapping of a single parameter fails for texts: the name of the parameter is taken for the list. *)
Definition C128_wrapped_statement : Prop :=
  forall a n x v body_ann (s : signature pv unit str), s = [(n, Empty)] -> n <> u "host" -> n <> u "request" -> n <> u "websocket" -> n <> u "context" ->
  structure (fun _ _ => false) DEFAULT_ENCODER_TYPES body_ann x = Some v -> run_handler (fun _ => body_ann) (PDict [(n, x)]) [] s = Args a -> dget n a = Some (Val v).
Theorem C128_wrapped_refuted : ~ C128_wrapped_statement.
Proof.
  intros H. specialize (H [(u "names", Val (PList [PStr (u "names")]))] (u "names") (PList [PStr (u "x"); PStr (u "y")]) (PList [PStr (u "x"); PStr (u "y")]) (AList (ALeaf (TOther (u "str")))) _ eq_refl).
  assert (X : dget (u "names") [(u "names", Val (PList [PStr (u "names")]))] = Some (Val (PList [PStr (u "x"); PStr (u "y")]))) by (apply H; try discriminate; vm_compute; reflexivity).
  vm_compute in X. discriminate.
Qed.
Print Assumptions C128_wrapped_refuted.
(** A default is no excuse: with several parameters each must be in the body. *)
Definition C128_default_statement : Prop :=
  forall anns d (s : signature pv unit str), NoDup (names s) -> NoDup (dkeys d) ->
  (forall n x, In (n, x) s -> body_parameter (no_env true) (asks []) s n /\ (x = Empty -> dmem n d = true)) ->
  (forall n x, In (n, x) d -> exists v, structure (fun _ _ => false) DEFAULT_ENCODER_TYPES (anns n) x = Some v) ->
  exists a, run_handler anns (PDict d) [] s = Args a.
Theorem C128_default_refuted : ~ C128_default_statement.
Proof.
  intros H. destruct (H (fun _ => dict_ann) [(u "a", PDict [])] [(u "a", Empty); (u "b", Plain PNone)]) as (a & E).
  - repeat constructor; cbn; intuition discriminate.
  - repeat constructor; cbn; intuition discriminate.
  - intros n x [[= <- <-]|[[= <- <-]|[]]]; (split; [split; [|cbn; repeat split; intuition discriminate]|]).
    + left. split; [left; reflexivity | intros (l & [<-|[<-|[<-|[]]]] & [])].
    + intros _. reflexivity.
    + right. exists PNone. right. left. reflexivity.
    + discriminate.
  - intros n x [[= <- <-]|[]]. eexists. vm_compute. reflexivity.
  - vm_compute in E. discriminate.
Qed.
Print Assumptions C128_default_refuted.
(** def f(user: User, tags: list[str]) with both sent, and the single list of users under its name. *)
Definition user_type : pt := TData (u "User") [u "name"].
Definition user_anns (n : str) : ann := if seqb n (u "user") then ALeaf user_type else if seqb n (u "users") then AList (ALeaf user_type) else AList (ALeaf (TOther (u "str"))).
Definition ann_user : pv := PDict [(u "name", PStr (u "ann"))].
Example C128_case : exists w, structure (fun _ _ => false) DEFAULT_ENCODER_TYPES (ALeaf user_type) ann_user = Some w /\
  run_handler user_anns (PDict [(u "tags", PList [PStr (u "x")]); (u "user", ann_user)]) [] [(u "user", Empty); (u "tags", Empty)] = Args [(u "user", Val w); (u "tags", Val (PList [PStr (u "x")]))] /\
  run_handler user_anns ann_user [] [(u "user", Empty)] = Args [(u "user", Val w)] /\
  run_handler user_anns (PDict [(u "users", PList [ann_user])]) [] [(u "users", Empty)] = Args [(u "users", Val (PList [w]))] /\
  body_parameter (no_env true) (asks []) [(u "user", @Empty pv unit str); (u "tags", Empty)] (u "tags").
Proof.
  eexists. split; [vm_compute; reflexivity|]. split; [vm_compute; reflexivity|]. split; [vm_compute; reflexivity|]. split; [vm_compute; reflexivity|].
  split; [left; split; [right; left; reflexivity | intros (l & [<-|[<-|[<-|[]]]] & [])]|]. cbn. repeat split; intuition discriminate.
Qed.
