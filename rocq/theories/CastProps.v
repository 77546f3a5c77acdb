(** C94: casts give values of the type asked for. *)
From Verif Require Import PyStr PyStrFacts CastModel.

Section Spec.
Context {C O : Type} (instance : C -> val O -> Prop).
(** When a value has a type.  [exact]: a tuple of given types has as many values. *)
Fixpoint has_type (exact : bool) (t : ty C) (v : val O) : Prop :=
  match t with
  | TAny => True
  | TNone => v = VNone
  | TStr => exists s, v = VStr s
  | TBool => exists b, v = VBool b
  | TUnion ts => (fix some (ts : list (ty C)) := match ts with [] => False | t :: r => has_type exact t v \/ some r end) ts
  | TList t => exists l, v = VList l /\ Forall (has_type exact t) l
  | TTupleOf t => exists l, v = VTuple l /\ Forall (has_type exact t) l
  | TTuple ts => exists l, v = VTuple l /\
      (fix zip (ts : list (ty C)) (l : list (val O)) := match ts, l with
                                        | t :: ts, x :: l => has_type exact t x /\ zip ts l
                                        | [], [] => True
                                        | _ :: _, [] => exact = false
                                        | _, _ => False
                                        end) ts l
  | TSet t => exists l, v = VSet l /\ Forall (has_type exact t) l
  | TFrozen t => exists l, v = VFrozen l /\ Forall (has_type exact t) l
  | TDict k w => exists l, v = VDict l /\ Forall (fun p => has_type exact k (fst p) /\ has_type exact w (snd p)) l
  | TClass c => instance c v
  end.
(** No tuple of given types anywhere. *)
Fixpoint no_fixed (t : ty C) : Prop :=
  match t with
  | TTuple _ => False
  | TUnion ts => (fix all (ts : list (ty C)) := match ts with [] => True | t :: r => no_fixed t /\ all r end) ts
  | TList t | TTupleOf t | TSet t | TFrozen t => no_fixed t
  | TDict k w => no_fixed k /\ no_fixed w
  | _ => True
  end.
End Spec.

Section Props.
Context {C O : Type} (instance : C -> val O -> Prop) (show : val O -> str) (truth : val O -> bool) (call : C -> val O -> res (val O)) (dedup : list (val O) -> option (list (val O)))
  (dedup_items : list (val O * val O) -> option (list (val O * val O))) (as_mapping : val O -> res (list (val O * val O))).
Notation cast_to := (cast_to show truth call dedup dedup_items as_mapping).
(** What Python's classes, sets and dicts do. *)
Record python : Prop := {
  calls : forall c v w, call c v = Ok w -> instance c w;
  sets : forall l l', dedup l = Some l' -> incl l' l;
  dicts : forall l l', dedup_items l = Some l' -> incl (map fst l') (map fst l) /\ incl (map snd l') (map snd l) }.

Lemma each_forall {A B} (f : A -> res B) (P : B -> Prop) : (forall x y, f x = Ok y -> P y) -> forall l l', each f l = Ok l' -> Forall P l'.
Proof.
  intros H. induction l as [|x l IH]; intros l' E; cbn [each] in E; [injection E as <-; constructor|]. destruct (f x) as [y| |] eqn:F; try discriminate. destruct (each f l) as [ys| |]; try discriminate. injection E as <-. constructor; [exact (H _ _ F)|apply IH; reflexivity].
Qed.
Lemma incl_forall {A} (P : A -> Prop) l l' : incl l' l -> Forall P l -> Forall P l'.
Proof. rewrite !Forall_forall. intros I H x J. apply H, I, J. Qed.

(** The structural induction over types. *)
Lemma ty_ind' (P : ty C -> Prop) : P TAny -> P TNone -> P TStr -> P TBool -> (forall ts, Forall P ts -> P (TUnion ts)) -> (forall t, P t -> P (TList t)) -> (forall ts, Forall P ts -> P (TTuple ts)) ->
  (forall t, P t -> P (TTupleOf t)) -> (forall t, P t -> P (TSet t)) -> (forall t, P t -> P (TFrozen t)) -> (forall k v, P k -> P v -> P (TDict k v)) -> (forall c, P (TClass c)) -> forall t, P t.
Proof.
  intros H1 H2 H3 H4 H5 H6 H7 H8 H9 H10 H11 H12. fix IH 1. intros [ | | | |ts|t|ts|t|t|t|k v|c]; [assumption..| | | | | | | |].
  - apply H5. induction ts as [|t ts J]; constructor; [apply IH|exact J].
  - apply H6, IH.
  - apply H7. induction ts as [|t ts J]; constructor; [apply IH|exact J].
  - apply H8, IH.
  - apply H9, IH.
  - apply H10, IH.
  - apply H11; apply IH.
  - apply H12.
Qed.
Lemma cast_typed exact : python -> forall t, (exact = true -> no_fixed t) -> forall v w, cast_to t v = Ok w -> has_type instance exact t w.
Proof.
  intros [PC PS PD]. induction t as [ | | | |ts IH|t IH|ts IH|t IH|t IH|t IH|k v IHk IHv|c] using ty_ind'; intros N0 x w E; cbn [CastModel.cast_to has_type] in *.
  - exact I.
  - discriminate.
  - injection E as <-. eexists; reflexivity.
  - destruct x; try (injection E as <-; eexists; reflexivity). destruct (smem (lower s) TRUE_VALUES); [injection E as <-; eexists; reflexivity|]. destruct (smem (lower s) FALSE_VALUES); [injection E as <-; eexists; reflexivity|discriminate].
  - cbv zeta in E. set (some := fix some (l : list (ty C)) : Prop := match l with [] => False | t :: r => has_type instance exact t w \/ some r end).
    assert (SOME : forall l t, In t l -> has_type instance exact t w -> some l). { induction l as [|t' l IHl]; intros t J H; [destruct J|]. destruct J as [-> |J]; [left; exact H|right; exact (IHl t J H)]. }
    destruct (match x with VNone => existsb is_none_ty ts | _ => false end) eqn:EN.
    + injection E as <-. destruct x; try discriminate. apply existsb_exists in EN as (t & I1 & T). destruct t; try discriminate. apply (SOME ts TNone I1). reflexivity.
    + set (sl := match x with VStr _ => _ | _ => false end) in E. assert (SL : sl = true -> In TStr ts). { unfold sl. destruct x; try discriminate. intros H. apply andb_true_iff in H as [H _]. apply existsb_exists in H as (t & I1 & T). apply filter_In in I1 as [I1 _]. destruct t; try discriminate. exact I1. }
      assert (G : forall l, incl l ts -> (fix go (ts : list (ty C)) : res (val O) := match ts with [] => if sl then Ok (VStr (show x)) else Bad | t :: r => if is_none_ty t || sl && is_str_ty t then go r else match cast_to t x with Bad => go r | y => y end end) l = Ok w -> some ts); [|exact (G ts (incl_refl _) E)].
      induction l as [|t l IHl]; intros IL EL.
      * destruct sl; [|discriminate]. injection EL as <-. apply (SOME ts TStr (SL eq_refl)). eexists; reflexivity.
      * assert (IL' : incl l ts) by (intros y J; apply IL; right; exact J). destruct (is_none_ty t || sl && is_str_ty t); [exact (IHl IL' EL)|].
        destruct (cast_to t x) as [y| |] eqn:CT; [|exact (IHl IL' EL)|discriminate]. injection EL as ->. assert (J : In t ts) by (apply IL; left; reflexivity). apply (SOME ts t J). rewrite Forall_forall in IH. apply (IH t J) with (v := x); [|exact CT].
        intros X. specialize (N0 X). clear - N0 J. cbn [no_fixed] in N0. induction ts as [|t' ts IHt]; [destruct J|]. destruct N0 as [A B]. destruct J as [-> |J]; [exact A|exact (IHt B J)].
  - destruct (each (cast_to t) (as_list x)) as [l| |] eqn:EL; cbn [rmap] in E; try discriminate. injection E as <-. exists l. split; [reflexivity|]. eapply each_forall; [|exact EL]. intros a b. apply IH. exact N0.
  - assert (G : forall tl, incl tl ts -> forall l r, (fix zip (ts : list (ty C)) (l : list (val O)) : res (list (val O)) := match ts, l with t :: ts, x :: l => match cast_to t x with Ok y => rmap (cons y) (zip ts l) | Bad => Bad | Raises => Raises end | _, _ => Ok [] end) tl l = Ok r ->
      (fix zip (ts : list (ty C)) (l : list (val O)) := match ts, l with t :: ts, x :: l => has_type instance exact t x /\ zip ts l | [], [] => True | _ :: _, [] => exact = false | _, _ => False end) tl r).
    { induction tl as [|t tl IHt]; intros IL l r EL; [injection EL as <-; exact I|]. assert (X0 : exact = false) by (destruct exact; [destruct (N0 eq_refl)|reflexivity]).
      destruct l as [|y l]; [injection EL as <-; exact X0|]. destruct (cast_to t y) as [z| |] eqn:CT; try discriminate.
      match type of EL with rmap _ ?q = _ => destruct q as [zs| |] eqn:EZ; cbn [rmap] in EL; try discriminate end. injection EL as <-. split.
      - rewrite Forall_forall in IH. apply (IH t (IL t (or_introl eq_refl))) with (v := y); [|exact CT]. intros X. congruence.
      - apply (IHt (fun a J => IL a (or_intror J)) l). exact EZ. }
    match type of E with rmap _ ?q = _ => destruct q as [zs| |] eqn:EZ; cbn [rmap] in E; try discriminate end. injection E as <-. exists zs. split; [reflexivity|]. exact (G ts (incl_refl _) _ _ EZ).
  - destruct (each (cast_to t) (as_list x)) as [l| |] eqn:EL; cbn [rmap] in E; try discriminate. injection E as <-. exists l. split; [reflexivity|]. eapply each_forall; [|exact EL]. intros a b. apply IH. exact N0.
  - destruct (each (cast_to t) (as_list x)) as [l| |] eqn:EL; try discriminate. destruct (dedup l) as [l'|] eqn:D; [|discriminate]. injection E as <-. exists l'. split; [reflexivity|]. apply (incl_forall _ l); [exact (PS _ _ D)|]. eapply each_forall; [|exact EL]. intros a b. apply IH. exact N0.
  - destruct (each (cast_to t) (as_list x)) as [l| |] eqn:EL; try discriminate. destruct (dedup l) as [l'|] eqn:D; [|discriminate]. injection E as <-. exists l'. split; [reflexivity|]. apply (incl_forall _ l); [exact (PS _ _ D)|]. eapply each_forall; [|exact EL]. intros a b. apply IH. exact N0.
  - destruct (as_mapping x) as [items| |]; try discriminate. match type of E with match ?q with _ => _ end = _ => destruct q as [l| |] eqn:EL; try discriminate end. destruct (dedup_items l) as [l'|] eqn:D; [|discriminate]. injection E as <-. exists l'. split; [reflexivity|].
    assert (F : Forall (fun p => has_type instance exact k (fst p) /\ has_type instance exact v (snd p)) l).
    { eapply each_forall; [|exact EL]. intros (a, b) (c, d) H. cbn [fst snd] in *. destruct (cast_to k a) as [c'| |] eqn:CK; try discriminate. destruct (cast_to v b) as [d'| |] eqn:CV; cbn [rmap] in H; try discriminate. injection H as <- <-. split; [eapply IHk|eapply IHv]; try eassumption; intros X; apply (N0 X). }
    destruct (PD _ _ D) as [DK DV]. rewrite Forall_forall in *. intros p J. split.
    + pose proof (DK _ (in_map fst _ _ J)) as W. apply in_map_iff in W as (q & <- & Q). exact (proj1 (F q Q)).
    + pose proof (DV _ (in_map snd _ _ J)) as W. apply in_map_iff in W as (q & <- & Q). exact (proj2 (F q Q)).
  - exact (PC _ _ _ E).
Qed.

(** C94: a value that was cast has the type. *)
Definition C94_statement : Prop := python -> forall t v w, cast_to t v = Ok w -> has_type instance true t w.
(** Proved for types without tuples of given types; and for all types, with tuples that may be too short. *)
Theorem C94_type_partial : python -> forall t v w, no_fixed t -> cast_to t v = Ok w -> has_type instance true t w.
Proof. intros P t v w N0 E. exact (cast_typed true P t (fun _ => N0) v w E). Qed.
Theorem C94_tuple_partial : python -> forall t v w, cast_to t v = Ok w -> has_type instance false t w.
Proof. intros P t v w E. apply (cast_typed false P t) with (v := v); [discriminate|exact E]. Qed.
(** The texts of booleans. *)
Theorem C94_bool : forall s,
  (In (lower s) [u "true"; u "1"; u "yes"; u "on"; u "t"] -> cast_to TBool (VStr s) = Ok (VBool true)) /\
  (In (lower s) [u "false"; u "0"; u "no"; u "off"; u "f"] -> cast_to TBool (VStr s) = Ok (VBool false)) /\
  (~ In (lower s) [u "true"; u "1"; u "yes"; u "on"; u "t"; u "false"; u "0"; u "no"; u "off"; u "f"] -> cast_to TBool (VStr s) = Bad).
Proof.
  intros s. cbn [CastModel.cast_to]. refine (conj _ (conj _ _)); intros H.
  - apply smem_In in H. fold TRUE_VALUES in H. rewrite H. reflexivity.
  - assert (T : smem (lower s) TRUE_VALUES = false). { apply smem_not_In. intros J. assert (X : forall x, In x TRUE_VALUES -> In x FALSE_VALUES -> False); [|exact (X _ J H)]. intros x A B.
      cbn [In TRUE_VALUES FALSE_VALUES] in A, B. repeat match goal with K : _ \/ _ |- _ => destruct K as [K|K] end; try contradiction; subst; discriminate. }
    rewrite T. apply smem_In in H. fold FALSE_VALUES in H. rewrite H. reflexivity.
  - assert (T : smem (lower s) TRUE_VALUES = false). { apply smem_not_In. intros J. apply H. exact (in_or_app TRUE_VALUES FALSE_VALUES _ (or_introl J)). }
    assert (F : smem (lower s) FALSE_VALUES = false). { apply smem_not_In. intros J. apply H. exact (in_or_app TRUE_VALUES FALSE_VALUES _ (or_intror J)). }
    rewrite T, F. reflexivity.
Qed.
(** A union: the first type that takes the value, in the order given, with text after the others for a text. *)
Definition skipped (x : val O) (t : ty C) : Prop := t = TNone \/ t = TStr /\ exists s, x = VStr s.
Theorem C94_union : forall l t r x w, (x = VNone -> ~ In TNone (l ++ t :: r)) ->
  ~ skipped x t -> (forall t', In t' l -> ~ skipped x t' -> cast_to t' x = Bad) -> cast_to t x = Ok w ->
  cast_to (TUnion (l ++ t :: r)) x = Ok w.
Proof.
  intros l t r x w NN TS BAD CT. cbn [CastModel.cast_to]. cbv zeta.
  assert (E : (match x with VNone => existsb is_none_ty (l ++ t :: r) | _ => false end) = false).
  { destruct x; try reflexivity. apply not_true_iff_false. intros H. apply existsb_exists in H as (t' & I1 & T). destruct t'; try discriminate. exact (NN eq_refl I1). }
  rewrite E. set (sl := match x with VStr _ => _ | _ => false end).
  assert (SL : sl = true -> exists s, x = VStr s) by (unfold sl; destruct x; try discriminate; eexists; reflexivity).
  assert (SK : forall t', ~ skipped x t' -> is_none_ty t' || sl && is_str_ty t' = false).
  { intros t' H. apply orb_false_iff. split; [destruct t'; try reflexivity; contradiction H; left; reflexivity|]. destruct sl; [|reflexivity]. destruct t'; try reflexivity. contradiction H. right. split; [reflexivity|exact (SL eq_refl)]. }
  assert (KS : forall t', In t' l -> skipped x t' -> is_none_ty t' || sl && is_str_ty t' = true).
  { intros t' J [-> |(-> & s & X)]; [reflexivity|]. cbn [is_none_ty is_str_ty orb]. rewrite andb_true_r. unfold sl. rewrite X. apply andb_true_iff. split.
    - apply existsb_exists. exists TStr. split; [|reflexivity]. apply filter_In. split; [apply in_app_iff; left; exact J|reflexivity].
    - apply Nat.ltb_lt. rewrite filter_app, app_length. cbn [filter]. replace (is_none_ty t) with false by (destruct t; try reflexivity; contradiction TS; left; reflexivity). cbn [negb length].
      assert (1 <= length (filter (fun t0 => negb (is_none_ty t0)) l)); [|lia]. assert (Q : In TStr (filter (fun t0 => negb (is_none_ty t0)) l)) by (apply filter_In; split; [exact J|reflexivity]). destruct (filter _ l); [destruct Q|cbn [length]; lia]. }
  clear NN E. clearbody sl. induction l as [|t' l IH]; cbn [app].
  - rewrite (SK t TS), CT. reflexivity.
  - assert (R := IH (fun t0 J => BAD t0 (or_intror J)) (fun t0 J => KS t0 (or_intror J))). destruct (is_none_ty t' || sl && is_str_ty t') eqn:K; [exact R|].
    rewrite (BAD t' (or_introl eq_refl)); [exact R|]. intros S. rewrite (KS t' (or_introl eq_refl) S) in K. discriminate K.
Qed.
(** A text stays a text only if no other type of the union takes it. *)
Theorem C94_union_text : forall ts s, In TStr ts -> (forall t, In t ts -> t <> TNone -> t <> TStr -> cast_to t (VStr s) = Bad) -> cast_to (TUnion ts) (VStr s) = Ok (VStr (show (VStr s))).
Proof.
  intros ts s J BAD. cbn [CastModel.cast_to]. cbv zeta. set (sl := existsb is_str_ty _ && _). destruct sl eqn:SL.
  - clear SL J. clearbody sl. induction ts as [|t ts IH]; [reflexivity|]. assert (R := IH (fun t0 K => BAD t0 (or_intror K))). destruct t eqn:T; cbn [is_none_ty is_str_ty orb andb]; try exact R; rewrite <- T in *; rewrite (BAD t (or_introl eq_refl)); try (rewrite T; discriminate); exact R.
  - (* only text and None are left *)
    assert (H : forall t, In t ts -> t = TNone \/ t = TStr).
    { intros t K. destruct (is_none_ty t) eqn:N1; [left; destruct t; try discriminate; reflexivity|]. destruct (is_str_ty t) eqn:S1; [right; destruct t; try discriminate; reflexivity|]. exfalso.
      unfold sl in SL. assert (A : existsb is_str_ty (filter (fun t0 => negb (is_none_ty t0)) ts) = true) by (apply existsb_exists; exists TStr; split; [apply filter_In; split; [exact J|reflexivity]|reflexivity]). rewrite A in SL. cbn [andb] in SL. apply Nat.ltb_ge in SL.
      assert (I1 : In t (filter (fun t0 => negb (is_none_ty t0)) ts)) by (apply filter_In; split; [exact K|rewrite N1; reflexivity]).
      assert (I2 : In TStr (filter (fun t0 => negb (is_none_ty t0)) ts)) by (apply filter_In; split; [exact J|reflexivity]).
      destruct (filter (fun t0 => negb (is_none_ty t0)) ts) as [|a [|b r]]; [destruct I1| |cbn [length] in SL; lia]. destruct I1 as [-> |[]], I2 as [-> |[]]. discriminate S1. }
    clear - J H. induction ts as [|t ts IH]; [destruct J|]. destruct (H t (or_introl eq_refl)) as [-> | -> ]; cbn [is_none_ty is_str_ty orb andb].
    + apply IH; [destruct J as [J|J]; [discriminate J|exact J]|intros t0 K; exact (H t0 (or_intror K))].
    + reflexivity.
Qed.
(** Containers are cast item by item: several values stay several, and one value is a container of one. *)
Definition items_of (v : val O) (l : list (val O)) : Prop :=
  v = VList l \/ v = VTuple l \/ v = VSet l \/ v = VFrozen l \/ (l = [v] /\ forall l', v <> VList l' /\ v <> VTuple l' /\ v <> VSet l' /\ v <> VFrozen l').
Theorem C94_items : forall t v l, items_of v l -> forall l', Forall2 (fun x y => cast_to t x = Ok y) l l' -> cast_to (TList t) v = Ok (VList l') /\ cast_to (TTupleOf t) v = Ok (VTuple l').
Proof.
  intros t v l IT l' F. assert (A : as_list v = l).
  { destruct IT as [-> |[-> |[-> |[-> |[-> H]]]]]; try reflexivity. destruct v as [s|b| |l0|l0|l0|l0|l0|o]; try reflexivity; exfalso; destruct (H l0) as (H1 & H2 & H3 & H4); congruence. }
  cbn [CastModel.cast_to]. rewrite A. assert (E : each (cast_to t) l = Ok l'). { clear - F. induction F as [|x y l l' H _ IH]; [reflexivity|]. cbn [each]. rewrite H, IH. reflexivity. }
  rewrite E. split; reflexivity.
Qed.
End Props.
Print Assumptions C94_items.
Print Assumptions C94_type_partial.
Print Assumptions C94_tuple_partial.
Print Assumptions C94_bool.
Print Assumptions C94_union.
Print Assumptions C94_union_text.

(** Integers as objects; the class [int]. *)
Definition ex_show (v : val Z) : str := match v with VStr s => s | VObj z => decz z | _ => [] end.
Definition ex_int (c : unit) (v : val Z) : res (val Z) := match v with VStr s => match int_parse s with Some z => Ok (VObj z) | None => Bad end | VObj z => Ok v | _ => Bad end.
Definition ex_cast : ty unit -> val Z -> res (val Z) := cast_to ex_show (fun _ => true) ex_int (fun l => Some l) (fun l => Some l) (fun v => match v with VDict l => Ok l | _ => Bad end).
Definition ex_instance (c : unit) (v : val Z) : Prop := exists z, v = VObj z.
Lemma ex_python : python ex_instance ex_int (fun l => Some l) (fun l => Some l).
Proof.
  split.
  - intros c v w E. destruct v; try discriminate; cbn in E; [|injection E as <-; eexists; reflexivity]. destruct (int_parse s); [|discriminate]. injection E as <-. eexists; reflexivity.
  - intros l l' [= <-]. apply incl_refl.
  - intros l l' [= <-]. split; apply incl_refl.
Qed.
Example C94_case : ex_cast (TList (TUnion [TStr; TClass tt; TNone])) (VList [VStr (u "12"); VStr (u "x"); VNone]) = Ok (VList [VObj 12%Z; VStr (u "x"); VNone])
  /\ ex_cast TBool (VStr (u "Yes")) = Ok (VBool true) /\ ex_cast (TList (TClass tt)) (VStr (u "one")) = Bad /\ no_fixed (TList (TUnion [TStr; TClass tt; TNone])).
Proof. refine (conj _ (conj _ (conj _ _))); try (vm_compute; reflexivity). cbn. tauto. Qed.
(** [tuple[int, int]] given one number has one element. *)
Theorem C94_refuted : ~ C94_statement ex_instance ex_show (fun _ => true) ex_int (fun l => Some l) (fun l => Some l) (fun v => match v with VDict l => Ok l | _ => Bad end).
Proof.
  intros H. specialize (H ex_python (TTuple [TClass tt; TClass tt]) (VStr (u "1")) (VTuple [VObj 1%Z]) eq_refl). destruct H as (l & E & F). injection E as <-. destruct F as [_ F]. discriminate F.
Qed.
Print Assumptions C94_refuted.
