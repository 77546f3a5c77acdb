(** C282-C285: classes and annotations in the documentation. *)
From Verif Require Import PyStr PyStrFacts AnnModel AnnSpec.

Fixpoint cls_ind' (P : cls -> Prop) (H : forall n h o bs, Forall P bs -> P (Class n h o bs)) (c : cls) : P c :=
  match c with
  | Class n h o bs => H n h o bs ((fix go (l : list cls) : Forall P l := match l with [] => Forall_nil _ | x :: l' => Forall_cons x (cls_ind' P H x) (go l') end) bs)
  end.
Fixpoint ann_ind' (P : ann -> Prop) (HC : forall c, P (ACls c)) (HG : forall o l, Forall P l -> P (AGen o l)) (HB : forall l, Forall P l -> P (ABar l))
  (HA : forall a m, P a -> P (AAnnotated a m)) (HO : forall n, P (AOther n)) (a : ann) : P a :=
  let go := fix go (l : list ann) : Forall P l := match l with [] => Forall_nil _ | x :: l' => Forall_cons x (ann_ind' P HC HG HB HA HO x) (go l') end in
  match a with
  | ACls c => HC c | AGen o l => HG o l (go l) | ABar l => HB l (go l) | AAnnotated b m => HA b m (ann_ind' P HC HG HB HA HO b) | AOther n => HO n
  end.

(** ** Dictionaries *)
Lemma dkeys_dset {V} k (v : V) d : dkeys (dset k v d) = if dmem k d then dkeys d else dkeys d ++ [k].
Proof.
  unfold dmem. induction d as [|[k' v'] d IH]; [reflexivity|]. cbn [dset dget]. destruct (seqb k k') eqn:E; [reflexivity|].
  unfold dkeys in *. cbn [map fst]. rewrite IH. destruct (dget k d); reflexivity.
Qed.
Lemma NoDup_snoc {A} (l : list A) x : NoDup l -> ~ In x l -> NoDup (l ++ [x]).
Proof.
  intros D N. induction D as [|a l Na D IH]; cbn; [constructor; [tauto|constructor]|]. constructor.
  - rewrite in_app_iff. intros [I|[<-|[]]]; [tauto|]. apply N. now left.
  - apply IH. intros I. apply N. now right.
Qed.
Lemma NoDup_dset {V} k (v : V) d : NoDup (dkeys d) -> NoDup (dkeys (dset k v d)).
Proof.
  intros D. rewrite dkeys_dset. destruct (dmem k d) eqn:E; [exact D|]. apply NoDup_snoc; [exact D|]. apply dget_None_keys.
  unfold dmem in E. now destruct (dget k d).
Qed.
Lemma NoDup_dupdate {V} e : forall d : dict V, NoDup (dkeys d) -> NoDup (dkeys (dupdate d e)).
Proof. unfold dupdate. induction e as [|kv e IH]; intros d D; [exact D|]. cbn [fold_left]. apply IH. now apply NoDup_dset. Qed.
Lemma dget_dupdate {V} k e : NoDup (dkeys e) -> forall d : dict V, dget k (dupdate d e) = match dget k e with Some v => Some v | None => dget k d end.
Proof.
  unfold dupdate. induction e as [|[k' v'] e IH]; intros D d; [reflexivity|]. cbn [fold_left fst snd dget]. inversion D as [|? ? N D' Eq]; subst.
  rewrite (IH D'). destruct (seqb k k') eqn:E.
  - apply seqb_eq in E as ->. assert (dget k' e = None) as -> by now apply dget_None_keys. apply dget_dset_same.
  - destruct (dget k e); [reflexivity|]. apply dget_dset_other. intros ->. rewrite seqb_refl in E. discriminate.
Qed.
Lemma dget_In {V} k (v : V) d : NoDup (dkeys d) -> (dget k d = Some v <-> In (k, v) d).
Proof.
  intros D. split; [apply dget_Some_In|]. induction d as [|[k' v'] d IH]; [intros []|]. inversion D as [|? ? N D' Eq]; subst. cbn [dget].
  intros [E|I].
  - injection E as -> ->. now rewrite seqb_refl.
  - destruct (seqb k k') eqn:E; [|now apply IH]. apply seqb_eq in E as ->. destruct N. apply in_map_iff. now exists (k', v).
Qed.
Lemma dget_None_In {V} k (d : dict V) : dget k d = None <-> forall v, ~ In (k, v) d.
Proof.
  rewrite dget_None_keys. unfold dkeys. split.
  - intros H v I. apply H. apply in_map_iff. now exists (k, v).
  - intros H I. apply in_map_iff in I as ([k' v] & <- & I). now apply (H v).
Qed.

(** ** Fields *)
Definition gather := fix go (bs : list cls) (acc : dict field) : dict field :=
  match bs with [] => acc | b :: bs' => go bs' (dupdate (dupdate acc (base_annotations b)) (c_own b)) end.
Lemma base_annotations_eq n h o bs : base_annotations (Class n h o bs) = gather bs [].
Proof. reflexivity. Qed.
Lemma gather_NoDup bs : forall acc, NoDup (dkeys acc) -> NoDup (dkeys (gather bs acc)).
Proof. induction bs as [|b bs IH]; intros acc D; [exact D|]. cbn [gather]. apply IH. now apply NoDup_dupdate, NoDup_dupdate. Qed.
Lemma base_NoDup c : NoDup (dkeys (base_annotations c)).
Proof. destruct c as [n h o bs]. rewrite base_annotations_eq. apply gather_NoDup. constructor. Qed.
Lemma fields_NoDup c : NoDup (dkeys (field_annotations c)).
Proof. apply NoDup_dupdate, base_NoDup. Qed.

Lemma gather_step b k acc : NoDup (dkeys (c_own b)) ->
  dget k (dupdate (dupdate acc (base_annotations b)) (c_own b)) = match dget k (field_annotations b) with Some v => Some v | None => dget k acc end.
Proof.
  intros D. unfold field_annotations. rewrite !dget_dupdate by (exact D || apply base_NoDup). now destruct (dget k (c_own b)).
Qed.
Lemma sound_own c : sound c -> NoDup (dkeys (c_own c)).
Proof. now intros []. Qed.
Lemma sound_bases c b : sound c -> In b (c_bases c) -> sound b.
Proof. intros [? _ H]. apply H. Qed.

(** The last base that has the name. *)
Lemma gather_get k bs : (forall b, In b bs -> NoDup (dkeys (c_own b))) -> forall acc f,
  dget k (gather bs acc) = Some f <->
  (exists pre b post, bs = pre ++ b :: post /\ dget k (field_annotations b) = Some f /\ forall x, In x post -> dget k (field_annotations x) = None) \/
  ((forall x, In x bs -> dget k (field_annotations x) = None) /\ dget k acc = Some f).
Proof.
  induction bs as [|b bs IH]; intros D acc f; cbn [gather].
  - split; [intros H; right; split; [intros ? []|exact H]|]. intros [(pre & b & post & E & _)|[_ H]]; [now destruct pre|exact H].
  - rewrite IH by (intros x I; apply D; now right). rewrite gather_step by (apply D; now left). split.
    + intros [(pre & b' & post & E & G & N)|[N G]].
      * left. exists (b :: pre), b', post. rewrite E. auto.
      * destruct (dget k (field_annotations b)) as [v|] eqn:Eb.
        -- left. exists [], b, bs. split; [reflexivity|]. split; [congruence|exact N].
        -- right. split; [|exact G]. intros x [<-|I]; auto.
    + intros [(pre & b' & post & E & G & N)|[N G]].
      * destruct pre as [|p pre]; cbn in E; injection E as -> ->.
        -- right. rewrite G. split; [exact N|reflexivity].
        -- left. exists pre, b', post. auto.
      * right. split; [intros x I; apply N; now right|]. rewrite (N b) by now left. exact G.
Qed.

Lemma fields_declares c : sound c -> forall n, (exists f, dget n (field_annotations c) = Some f) <-> declares c n.
Proof.
  induction c as [nm h o bs IH] using cls_ind'. intros S n. rewrite Forall_forall in IH. unfold field_annotations.
  assert (forall b, In b bs -> NoDup (dkeys (c_own b))) as SB by (intros b I; apply sound_own, (sound_bases _ _ S I)).
  pose proof (sound_own _ S) as DO. cbn [c_own] in DO. split.
  - intros (f & G). rewrite dget_dupdate in G by exact DO. cbn [c_own] in G. destruct (dget n o) as [v|] eqn:E.
    + apply (dc_own _ n v). cbn. now apply dget_Some_In.
    + rewrite base_annotations_eq in G. apply (gather_get n bs SB) in G as [(pre & b & post & -> & G & _)|[_ G]]; [|discriminate].
      apply (dc_base _ b); [cbn; apply in_elt|]. apply (IH b); [apply in_elt| |eauto]. apply (sound_bases _ _ S). cbn. apply in_elt.
  - intros Dc. rewrite dget_dupdate by exact DO. cbn [c_own]. destruct (dget n o) as [v|] eqn:E; [eauto|].
    inversion Dc as [c n' f I|c b n' I Db]; subst; cbn in I.
    + apply (dget_In n f o DO) in I. congruence.
    + rewrite base_annotations_eq. pose proof (proj2 (IH b I (sound_bases _ _ S I) n) Db) as (f & Gb).
      destruct (dget n (gather bs [])) as [v|] eqn:Gg; [eauto|]. exfalso.
      (* the last base with the name *)
      assert (exists pre b' post f', bs = pre ++ b' :: post /\ dget n (field_annotations b') = Some f' /\ forall x, In x post -> dget n (field_annotations x) = None) as (pre & b' & post & f' & Eb & G' & N').
      { clear -I Gb. induction bs as [|x bs IH]; [destruct I|]. destruct (existsb (fun y => dmem n (field_annotations y)) bs) eqn:Ex.
        - apply existsb_exists in Ex as (y & Iy & My). apply dmem_iff in My as (fy & My).
          assert (exists pre b' post f', bs = pre ++ b' :: post /\ dget n (field_annotations b') = Some f' /\ forall x, In x post -> dget n (field_annotations x) = None) as (pre & b' & post & f' & -> & G & N).
          { clear IH Gb I x. revert y fy Iy My. induction bs as [|x bs IH]; intros y fy Iy My; [destruct Iy|]. destruct (existsb (fun y => dmem n (field_annotations y)) bs) eqn:Ex.
            - apply existsb_exists in Ex as (z & Iz & Mz). apply dmem_iff in Mz as (fz & Mz). destruct (IH z fz Iz Mz) as (pre & b' & post & f' & -> & G & N).
              exists (x :: pre), b', post, f'. auto.
            - assert (forall z, In z bs -> dget n (field_annotations z) = None) as N.
              { intros z Iz. destruct (dget n (field_annotations z)) eqn:Ez; [|reflexivity]. assert (existsb (fun y => dmem n (field_annotations y)) bs = true) as C; [|congruence].
                apply existsb_exists. exists z. split; [exact Iz|]. unfold dmem. now rewrite Ez. }
              destruct Iy as [<-|Iy]; [|rewrite (N y Iy) in My; discriminate]. exists [], x, bs, fy. auto. }
          exists (x :: pre), b', post, f'. auto.
        - assert (forall z, In z bs -> dget n (field_annotations z) = None) as N.
          { intros z Iz. destruct (dget n (field_annotations z)) eqn:Ez; [|reflexivity]. assert (existsb (fun y => dmem n (field_annotations y)) bs = true) as C; [|congruence].
            apply existsb_exists. exists z. split; [exact Iz|]. unfold dmem. now rewrite Ez. }
          destruct I as [->|I]; [|rewrite (N b I) in Gb; discriminate]. exists [], b, bs, f. auto. }
      assert (dget n (gather bs []) = Some f') as C; [|congruence]. apply (gather_get n bs SB). left. eauto 6.
Qed.
Lemma fields_none c : sound c -> forall n, dget n (field_annotations c) = None <-> ~ declares c n.
Proof.
  intros S n. rewrite <- (fields_declares c S n). destruct (dget n (field_annotations c)); split; try tauto; try discriminate.
  - intros H. destruct H. eauto.
  - intros _ [? H]. discriminate.
Qed.

(** ** C282 *)
Theorem C282_names c n : sound c -> (In n (dkeys (field_annotations c)) <-> declares c n).
Proof.
  intros S. rewrite <- (fields_declares c S n). destruct (dget n (field_annotations c)) as [f|] eqn:E.
  - split; [eauto|]. intros _. apply dget_Some_In in E. apply in_map_iff. now exists (n, f).
  - split; [|intros [? H]; discriminate]. intros I. now apply dget_None_keys in E.
Qed.
Print Assumptions C282_names.
Theorem C282_shown c n f : sound c -> (dget n (field_annotations c) = Some f <-> shows c n f).
Proof.
  revert n f. induction c as [nm h o bs IH] using cls_ind'. intros n f S. rewrite Forall_forall in IH.
  assert (forall b, In b bs -> NoDup (dkeys (c_own b))) as SB by (intros b I; apply sound_own, (sound_bases _ _ S I)).
  pose proof (sound_own _ S) as DO. cbn [c_own] in DO. unfold field_annotations. rewrite dget_dupdate by exact DO. cbn [c_own]. split.
  - destruct (dget n o) as [v|] eqn:E.
    + intros H. apply sh_own. cbn. apply dget_Some_In. congruence.
    + rewrite base_annotations_eq. intros G. apply (gather_get n bs SB) in G as [(pre & b & post & -> & G & N)|[_ G]]; [|discriminate].
      assert (In b (pre ++ b :: post)) as Ib by apply in_elt.
      apply (sh_base _ pre b post); [cbn; now apply dget_None_In|reflexivity| |].
      * intros x I. apply fields_none; [|now apply N]. apply (sound_bases _ _ S). cbn. apply in_or_app. right. now right.
      * apply (IH b Ib); [|exact G]. apply (sound_bases _ _ S). exact Ib.
  - intros H. inversion H as [c n' f' I|c pre b post n' f' N E P Sh]; subst.
    + cbn in I. apply (dget_In n f o DO) in I. now rewrite I.
    + cbn in N, E. apply dget_None_In in N. rewrite N. rewrite base_annotations_eq. subst bs.
      assert (In b (pre ++ b :: post)) as Ib by apply in_elt.
      apply gather_get; [exact SB|]. left. exists pre, b, post. split; [reflexivity|]. split.
      * apply (IH b Ib); [|exact Sh]. apply (sound_bases _ _ S). exact Ib.
      * intros x I. apply fields_none; [|now apply P]. apply (sound_bases _ _ S). cbn. apply in_or_app. right. now right.
Qed.
Print Assumptions C282_shown.
(** With a single line of ancestors the nearest class that annotates a name decides. *)
Theorem C282_nearest cs n : Forall (fun c => NoDup (map fst (snd c))) cs ->
  dget n (field_annotations (line cs)) = fold_right (fun c rest => match dget n (snd c) with Some f => Some f | None => rest end) None cs.
Proof.
  intros D. induction D as [|[[nm h] o] cs Do D IH]; [reflexivity|]. cbn [fold_right snd]. rewrite <- IH. clear IH.
  destruct cs as [|c cs].
  - cbn [line]. unfold field_annotations. rewrite dget_dupdate by exact Do. reflexivity.
  - change (line ((nm, h, o) :: c :: cs)) with (Class nm h o [line (c :: cs)]). set (b := line (c :: cs)) in *.
    assert (NoDup (dkeys (c_own b))) as Db by (inversion D as [|? ? Dc _]; subst; destruct c as [[? ?] ?], cs; exact Dc).
    unfold field_annotations at 1. rewrite dget_dupdate by exact Do. change (c_own (Class nm h o [b])) with o.
    destruct (dget n o); [reflexivity|]. change (base_annotations (Class nm h o [b])) with (dupdate (dupdate [] (base_annotations b)) (c_own b)).
    rewrite gather_step by exact Db. now destruct (dget n (field_annotations b)).
Qed.
Print Assumptions C282_nearest.
Definition fld (t : nat) : field := {| f_type := t; f_default := false |}.
Definition base_a := Class (u "A") true [(u "x", fld 1); (u "y", fld 2)] [].
Definition base_b := Class (u "B") true [(u "x", fld 3)] [].
Definition both := Class (u "C") true [(u "z", fld 4)] [base_a; base_b].
Ltac in_cases I := cbn in I; decompose [or] I; try contradiction.
Lemma both_sound : sound both.
Proof.
  assert (forall n o, NoDup (map fst o) -> sound (Class n true o [])) as L by (intros; constructor; [assumption|intros ? []]).
  constructor.
  - repeat constructor. intros [].
  - intros b [<-|[<-|[]]]; apply L; cbn.
    + constructor; [intros [E|[]]; discriminate E|]. constructor; [intros []|constructor].
    + constructor; [intros []|constructor].
Qed.
Example C282_case : sound both /\ map fst (field_annotations both) = [u "x"; u "y"; u "z"] /\
  dget (u "y") (field_annotations (line [(u "C", true, []); (u "B", true, [(u "y", fld 7)]); (u "A", true, [(u "y", fld 8)])])) = Some (fld 7).
Proof. split; [exact both_sound|]. split; vm_compute; reflexivity. Qed.

(** ** C283 *)
Definition C283_statement : Prop := forall c n f, sound c -> dget n (field_annotations c) = Some f -> inherits c n f.
(** class C(A, B) with x in A and B: Python has A's, the documentation shows B's. *)
Theorem C283_refuted : ~ C283_statement.
Proof.
  intros H. specialize (H both (u "x") (fld 3) both_sound ltac:(vm_compute; reflexivity)).
  inversion H as [c n f I|c pre b post n f N E P In']; subst.
  - in_cases I. discriminate.
  - cbn in E. destruct pre as [|p pre]; cbn in E.
    + injection E as <- _. inversion In' as [c n f I|c pre b' post' n f _ E' _ _]; subst; [|cbn in E'; now destruct pre].
      in_cases I; discriminate.
    + injection E as <- E. apply (P base_a); [now left|]. apply (dc_own _ _ (fld 1)). now left.
Qed.
Print Assumptions C283_refuted.
(** It is so when no name comes from two bases of one class. *)
Theorem C283_partial c n f : sound c -> separate c -> dget n (field_annotations c) = Some f -> inherits c n f.
Proof.
  intros S Sep G. apply (C282_shown c n f S) in G. clear S. induction G as [c n f I|c pre b post n f N E P Sh IH]; [now apply in_own|].
  destruct Sep as [c SepB SepN]. apply (in_base c pre b post); [exact N|exact E| |apply IH, SepB; rewrite E; apply in_elt].
  intros x I Dx. apply in_split in I as (p1 & p2 & ->). rewrite <- app_assoc in E. cbn [app] in E.
  apply (SepN p1 x p2 b post n E Dx). clear -Sh. induction Sh as [c n f I|c pre b post n f N E P Sh IH]; [now apply (dc_own _ _ f)|].
  apply (dc_base _ b); [rewrite E; apply in_elt|exact IH].
Qed.
Print Assumptions C283_partial.
Example C283_case : separate (Class (u "C") true [(u "x", fld 4)] [Class (u "A") true [(u "y", fld 1)] []; Class (u "B") true [(u "z", fld 1)] []]).
Proof.
  assert (forall n o, separate (Class n true o [])) as L by (intros; constructor; [intros ? []|intros pre ? ? ? ? ? E; now destruct pre]).
  assert (forall n o k, declares (Class n true o []) k -> In k (map fst o)) as K.
  { intros n o k D. inversion D as [c k' f I|c b k' I _]; subst; [|destruct I]. apply in_map_iff. now exists (k, f). }
  constructor; [intros b [<-|[<-|[]]]; apply L|]. intros pre b mid d post n E Db Dd. cbn in E.
  destruct pre as [|p pre]; cbn in E; injection E as <- E.
  - destruct mid as [|m mid]; cbn in E; injection E as <- E; [|now destruct mid].
    apply K in Db, Dd. in_cases Db; in_cases Dd; subst; discriminate.
  - destruct pre as [|p' pre]; cbn in E; injection E as <- E; [now destruct mid|now destruct pre].
Qed.

(** ** C284 *)
(** A field with a default may be left out; the documentation says whether a field may be. *)
Definition C284_statement : Prop := forall c n f t r fields name, sound c -> c_handled c = true -> shows c n f ->
  convert (ACls c) = Fine (OModel name fields) -> dget n fields = Some (t, r) -> r = negb (f_default f).
Lemma model_get c n : dget n (map (fun kv => (fst kv, (f_type (snd kv), true))) (field_annotations c)) =
  option_map (fun f => (f_type f, true)) (dget n (field_annotations c)).
Proof. induction (field_annotations c) as [|[k v] d IH]; [reflexivity|]. cbn. now destruct (seqb n k). Qed.
Theorem C284_refuted : ~ C284_statement.
Proof.
  intros H. set (f := {| f_type := 1; f_default := true |}). set (c := Class (u "User") true [(u "age", f)] []).
  assert (sound c) as S by (constructor; [repeat constructor; intros []|intros ? []]).
  specialize (H c (u "age") f 1 true [(u "age", (1, true))] (u "User") S eq_refl ltac:(apply sh_own; now left) eq_refl eq_refl). discriminate.
Qed.
Print Assumptions C284_refuted.
(** The documentation names the class, every declared field with its type, and all of them as required; so it is right about the
    fields without a default. *)
Theorem C284_model_partial c : sound c -> c_handled c = true -> exists fields, convert (ACls c) = Fine (OModel (c_name c) fields) /\
  (forall n, In n (map fst fields) <-> declares c n) /\ (forall n f, shows c n f -> dget n fields = Some (f_type f, true)).
Proof.
  intros S H. cbn [convert]. rewrite H. unfold model_of. eexists. split; [reflexivity|]. split.
  - intros n. rewrite map_map. cbn. apply (C282_names c n S).
  - intros n f Sh. rewrite model_get. apply (C282_shown c n f S) in Sh. now rewrite Sh.
Qed.
Print Assumptions C284_model_partial.
Example C284_case : convert (ACls both) = Fine (OModel (u "C") [(u "x", (3, true)); (u "y", (2, true)); (u "z", (4, true))]).
Proof. vm_compute. reflexivity. Qed.

(** ** C285 *)
Definition C285_statement : Prop := forall a, convert a <> TypeError /\ forall args, mentions a = true -> convert a <> Fine (OBar args).
(** [User | None] is left as it is, and [Annotated[User, ...]] is an error. *)
Theorem C285_refuted : ~ C285_statement.
Proof. intros H. apply (proj1 (H (AAnnotated (ACls base_a) 0))). reflexivity. Qed.
Print Assumptions C285_refuted.
Theorem C285_bar_refuted c n : c_handled c = true -> convert (ABar [ACls c; AOther n]) = Fine (OBar [ACls c; AOther n]).
Proof. reflexivity. Qed.
Print Assumptions C285_bar_refuted.
Theorem C285_annotated_refuted a m g l r : convert (AAnnotated a m) = TypeError /\ convert (AGen g (l ++ AAnnotated a m :: r)) = TypeError.
Proof.
  split; [reflexivity|]. cbn [convert].
  match goal with |- match ?f ?args with _ => _ end = _ => assert (f args = None) as ->; [|reflexivity] end.
  induction l as [|x l IH]; [reflexivity|]. cbn [app]. destruct (convert x); [|reflexivity]. now rewrite IH.
Qed.
Print Assumptions C285_annotated_refuted.
(** Annotations made of classes and of generics such as [list[...]], [dict[..., ...]], [Optional[...]] and [Union[..., ...]],
    to any depth, are converted so. *)
Theorem C285_partial a : classic a = true -> (forall c, stands c a -> sound c) -> exists o, convert a = Fine o /\ documents a o.
Proof.
  induction a as [c|g l IH|l IH|a m IH|n] using ann_ind'; intros C S; try discriminate.
  - destruct (c_handled c) eqn:H.
    + destruct (C284_model_partial c (S c (st_cls c)) H) as (fields & E & N & G). eexists. split; [exact E|]. now apply do_model.
    + cbn [convert]. rewrite H. eexists. split; [reflexivity|]. now apply do_class.
  - cbn [classic] in C. cbn [convert].
    match goal with |- exists o, match ?f l with _ => _ end = _ /\ _ => assert (exists l', f l = Some l' /\ Forall2 documents l l') as (l' & -> & F) end.
    { induction IH as [|x l Hx IHl IH']; [exists []; split; [reflexivity|constructor]|]. cbn [forallb] in C. apply andb_true_iff in C as [Cx Cl].
      destruct (Hx Cx) as (y & E & D); [intros c Sc; apply S, (st_gen c g _ x); [now left|exact Sc]|].
      destruct (IH' Cl) as (l' & E' & F); [intros c Sc; inversion Sc as [|? ? ? z Iz Sz|]; subst; apply S, (st_gen c g _ z); [now right|exact Sz]|]. exists (y :: l'). rewrite E, E'. split; [reflexivity|now constructor]. }
    eexists. split; [reflexivity|]. now apply do_gen.
  - eexists. split; [reflexivity|constructor].
Qed.
Print Assumptions C285_partial.
Example C285_case : classic (AGen 0 [AGen 1 [ACls base_b; AOther 5]]) = true /\ (forall c, stands c (AGen 0 [AGen 1 [ACls base_b; AOther 5]]) -> sound c) /\
  convert (AGen 0 [AGen 1 [ACls base_b; AOther 5]]) = Fine (OGen 0 [OGen 1 [OModel (u "B") [(u "x", (3, true))]; OOther 5]]).
Proof.
  split; [reflexivity|]. split; [|vm_compute; reflexivity]. intros c H.
  inversion H as [|? ? ? x I H1|]; subst. in_cases I; subst. inversion H1 as [|? ? ? y J H2|]; subst. in_cases J; subst; inversion H2; subst.
  apply (sound_bases both); [exact both_sound|]. right. now left.
Qed.
