(** The properties C124, C125 and C126. *)
From Verif Require Import PyStr PyStrFacts InjModel InjSpec.

Scheme means_min := Minimality for means Sort Prop with fills_min := Minimality for fills Sort Prop with entry_min := Minimality for entry_is Sort Prop.
Combined Scheme means_mutual from means_min, fills_min, entry_min.

Section Inj.
Context {V : Type} (markers : nat -> marker V) (sig : nat -> list (str * param V)) (is_class : nat -> bool) (call : nat -> list V -> dict V -> option V).
Implicit Types (s : state V) (m : nat).
Section Fixed.
Context (ov : list (nat * target V)) (dm : dict (entry V)).
Notation means := (means markers sig is_class call ov dm).
Notation fills := (fills markers sig is_class call ov dm).
Notation entry_is := (entry_is markers sig is_class call ov dm).
Notation resolve := (resolve markers sig is_class call ov dm).

Lemma stands_override f g : stands ov f g <-> override ov f = TFun g.
Proof.
  unfold override. induction ov as [|(f', t) r IH]; cbn [List.find fst].
  - split; [intros H; inversion H; reflexivity | intros [= <-]; constructor].
  - destruct (Nat.eqb_spec f' f) as [->|N].
    + split; [intros H; inversion H; subst; congruence | intros ->; constructor].
    + rewrite <- IH. split; [intros H; inversion H; subst; [congruence | assumption] | intros H; constructor; assumption].
Qed.
Lemma explicit_iff m : explicit is_class (markers m) = true <-> m_args (markers m) <> [] \/ m_kwargs (markers m) <> [] \/ is_class (m_fun (markers m)) = true.
Proof.
  unfold explicit. rewrite !orb_true_iff, !negb_true_iff, !Nat.eqb_neq. destruct (m_args (markers m)), (m_kwargs (markers m)); cbn; intuition (try congruence; try lia).
Qed.
Lemma means_det : (forall m v, means m v -> forall v', means m v' -> v = v') /\ (forall ps kw, fills ps kw -> forall kw', fills ps kw' -> kw = kw') /\
  (forall e v, entry_is e v -> forall v', entry_is e v' -> v = v').
Proof.
  apply means_mutual.
  - intros m g v E S C v' H. inversion H as [? g' ? E' S' C'|? g' kw ? A1 A2 A3 F S' C']; subst.
    + apply stands_override in S, S'. congruence.
    + destruct E as [E|[E|E]]; congruence.
  - intros m g kw v A1 A2 A3 _ IH S C v' H. inversion H as [? g' ? E' S' C'|? g' kw' ? B1 B2 B3 F S' C']; subst.
    + destruct E' as [E'|[E'|E']]; congruence.
    + apply stands_override in S, S'. rewrite (IH _ F) in C. congruence.
  - intros kw H. inversion H. reflexivity.
  - intros n r kw _ IH kw' H. inversion H; subst; [apply IH; assumption | congruence].
  - intros n m v r kw _ IM _ IH kw' H. inversion H; subst; try match goal with X : forall k, Marked _ <> Marked k |- _ => destruct (X _ eq_refl) end. f_equal; [f_equal; apply IM; assumption | apply IH; assumption].
  - intros n p e v r kw P1 P2 D _ IE _ IH kw' H. inversion H; subst; try congruence.
    assert (e = e0) by congruence. subst. f_equal; [f_equal; apply IE; assumption | apply IH; assumption].
  - intros n v r kw D _ IH kw' H. inversion H; subst; [congruence|]. f_equal. apply IH. assumption.
  - intros v v' H. inversion H. reflexivity.
  - intros f v C v' H. inversion H. congruence.
  - intros m v _ IM v' H. inversion H. apply IM. assumption.
Qed.

(** ** Soundness *)
Definition agree (m m' : nat) : Prop := m_args (markers m) = m_args (markers m') /\ m_kwargs (markers m) = m_kwargs (markers m').
Definition consistent s : Prop :=
  (forall m v, kept s m = Some v -> means m v) /\
  (forall l f v, shared s l f = Some v -> forall m, m_fun (markers m) = f -> m_life (markers m) = l -> means m v).
Hypothesis names : forall f, NoDup (map fst (sig f)).
Hypothesis alike : forall m m', m_fun (markers m) = m_fun (markers m') -> m_life (markers m) = m_life (markers m') -> m_life (markers m) <> PerCall -> agree m m'.
Lemma means_agree m m' v : m_fun (markers m) = m_fun (markers m') -> agree m m' -> means m v -> means m' v.
Proof.
  intros F [A K] H. inversion H as [? g ? E S C|? g kw ? A1 A2 A3 FL S C]; subst.
  - eapply m_given; rewrite <- ?F, <- ?A, <- ?K; eassumption.
  - eapply m_filled; rewrite <- ?F, <- ?A, <- ?K; eassumption.
Qed.
Definition sound (go : state V -> nat -> state V * res V) : Prop :=
  forall s m s' r, consistent s -> go s m = (s', r) -> consistent s' /\ forall v, r = Val v -> means m v.
Lemma consistent_invoke s t a k s' r : consistent s -> invoke call s t a k = (s', r) -> consistent s' /\ forall v, r = Val v -> exists g, t = TFun g /\ call g a k = Some v.
Proof.
  intros C. unfold invoke. destruct t as [g|w]; [|intros [= <- <-]; split; [exact C | discriminate]].
  destruct (call g a k) as [x|] eqn:E; intros [= <- <-]; (split; [exact C|]); [intros v [= <-]; exists g; auto | discriminate].
Qed.
Lemma dset_app (kw : dict V) n v : ~ In n (map fst kw) -> dset n v kw = kw ++ [(n, v)].
Proof.
  induction kw as [|(a, w) kw IH]; intros N; [reflexivity|]. cbn [dset app]. destruct (seqb_spec n a) as [->|D]; [destruct N; left; reflexivity|].
  rewrite IH by (intros I; apply N; right; exact I). reflexivity.
Qed.
Lemma fill_sound go : sound go -> forall ps s acc s' o, consistent s -> NoDup (map fst ps) -> (forall n, In n (map fst ps) -> ~ In n (map fst acc)) ->
  fill call dm go s ps acc = (s', o) -> consistent s' /\ forall kw, o = inl kw -> exists kw', kw = acc ++ kw' /\ fills ps kw'.
Proof.
  intros G. induction ps as [|(n, p) ps IH]; intros s acc s' o C N D; cbn [fill].
  - intros [= <- <-]. split; [exact C|]. intros kw [= <-]. exists []. split; [symmetry; apply app_nil_r | constructor].
  - cbn [map fst] in N, D. inversion N as [|? ? NI N']; subst.
    assert (DA : ~ In n (map fst acc)) by (apply D; left; reflexivity).
    assert (NEXT : forall v s1, consistent s1 -> fill call dm go s1 ps (dset n v acc) = (s', o) -> (forall kw', fills ps kw' -> fills ((n, p) :: ps) ((n, v) :: kw')) ->
       consistent s' /\ forall kw, o = inl kw -> exists kw', kw = acc ++ kw' /\ fills ((n, p) :: ps) kw').
    { intros v s1 C1 E K. rewrite dset_app in E by exact DA. destruct (IH s1 (acc ++ [(n, v)]) s' o C1 N') as [C2 R].
      - intros x I. rewrite map_app, in_app_iff. intros [X|[<-|[]]]; [eapply D; [right; exact I | exact X] | exact (NI I)].
      - exact E.
      - split; [exact C2|]. intros kw K2. destruct (R kw K2) as (kw' & -> & F). exists ((n, v) :: kw'). split; [rewrite <- app_assoc; reflexivity | apply K, F]. }
    destruct p as [|v|m|].
    + destruct (dget n dm) as [[w|f|m]|] eqn:E.
      * intros R. eapply NEXT; [exact C | exact R |]. intros kw' F. eapply f_mapped; try eassumption; try discriminate. constructor.
      * destruct (invoke call s (TFun f) [] []) as [s1 [w| | |]] eqn:I; try (intros [= <- <-]; split; [eapply consistent_invoke; eassumption | discriminate]).
        destruct (consistent_invoke _ _ _ _ _ _ C I) as [C1 X]. destruct (X w eq_refl) as (g & EG & CL). intros R. eapply NEXT; [exact C1 | exact R |].
        intros kw' F. eapply f_mapped; try eassumption; try discriminate. constructor. congruence.
      * destruct (go s m) as [s1 [w| | |]] eqn:I; try (intros [= <- <-]; split; [eapply G; eassumption | discriminate]).
        destruct (G _ _ _ _ C I) as [C1 X]. intros R. eapply NEXT; [exact C1 | exact R |]. intros kw' F. eapply f_mapped; try eassumption; try discriminate. constructor. apply X. reflexivity.
      * intros [= <- <-]. split; [exact C | discriminate].
    + destruct (dget n dm) as [[w|f|m]|] eqn:E.
      * intros R. eapply NEXT; [exact C | exact R |]. intros kw' F. eapply f_mapped; try eassumption; try discriminate. constructor.
      * destruct (invoke call s (TFun f) [] []) as [s1 [w| | |]] eqn:I; try (intros [= <- <-]; split; [eapply consistent_invoke; eassumption | discriminate]).
        destruct (consistent_invoke _ _ _ _ _ _ C I) as [C1 X]. destruct (X w eq_refl) as (g & EG & CL). intros R. eapply NEXT; [exact C1 | exact R |].
        intros kw' F. eapply f_mapped; try eassumption; try discriminate. constructor. congruence.
      * destruct (go s m) as [s1 [w| | |]] eqn:I; try (intros [= <- <-]; split; [eapply G; eassumption | discriminate]).
        destruct (G _ _ _ _ C I) as [C1 X]. intros R. eapply NEXT; [exact C1 | exact R |]. intros kw' F. eapply f_mapped; try eassumption; try discriminate. constructor. apply X. reflexivity.
      * intros R. eapply NEXT; [exact C | exact R |]. intros kw' F. apply f_default; assumption.
    + destruct (go s m) as [s1 [w| | |]] eqn:I; try (intros [= <- <-]; split; [eapply G; eassumption | discriminate]).
      destruct (G _ _ _ _ C I) as [C1 X]. intros R. eapply NEXT; [exact C1 | exact R |]. intros kw' F. constructor; [apply X; reflexivity | exact F].
    + intros R. destruct (IH s acc s' o C N') as [C2 X]; [intros x I; apply D; right; exact I | exact R |]. split; [exact C2|]. intros kw K. destruct (X kw K) as (kw' & E & F). exists kw'. split; [exact E | constructor; exact F].
Qed.
Lemma consistent_keep s m v : consistent s -> means m v -> consistent (keep m v s).
Proof.
  intros [K S] M. split; [|exact S]. cbn [keep kept]. intros m' w. destruct (Nat.eqb_spec m' m) as [->|D]; [intros [= <-]; exact M | apply K].
Qed.
Lemma internal_sound go : sound go -> sound (internal markers sig is_class call ov dm go).
Proof.
  intros G s m s' r C. unfold internal. destruct (explicit is_class (markers m)) eqn:E.
  - destruct (invoke call s (override ov (m_fun (markers m))) (m_args (markers m)) (m_kwargs (markers m))) as [s1 x] eqn:I.
    destruct (consistent_invoke _ _ _ _ _ _ C I) as [C1 X]. destruct x as [v| | |]; intros [= <- <-]; try (split; [exact C1 | discriminate]).
    destruct (X v eq_refl) as (g & T & CL). assert (M : means m v).
    { eapply m_given; [apply explicit_iff; exact E | apply stands_override; exact T | exact CL]. }
    split; [destruct (m_cache (markers m)); [apply consistent_keep; assumption | exact C1] | intros w [= <-]; exact M].
  - destruct (fill call dm go s (sig (m_fun (markers m))) []) as [s1 [kw|e]] eqn:F.
    + destruct (fill_sound go G _ _ [] _ _ C (names _) (fun _ _ H => H) F) as [C1 X]. destruct (X kw eq_refl) as (kw' & -> & FL). cbn [app].
      destruct (invoke call s1 (override ov (m_fun (markers m))) [] kw') as [s2 x] eqn:I.
      destruct (consistent_invoke _ _ _ _ _ _ C1 I) as [C2 Y]. destruct x as [v| | |]; intros [= <- <-]; try (split; [exact C2 | discriminate]).
      destruct (Y v eq_refl) as (g & T & CL). assert (NE : ~ (explicit is_class (markers m) = true)) by congruence. rewrite explicit_iff in NE.
      assert (M : means m v).
      { eapply m_filled; [| | | exact FL | apply stands_override; exact T | exact CL].
        - destruct (m_args (markers m)); [reflexivity | exfalso; apply NE; left; discriminate].
        - destruct (m_kwargs (markers m)); [reflexivity | exfalso; apply NE; right; left; discriminate].
        - destruct (is_class (m_fun (markers m))); [exfalso; apply NE; auto | reflexivity]. }
      split; [destruct (m_cache (markers m)); [apply consistent_keep; assumption | exact C2] | intros w [= <-]; exact M].
    + intros [= <- <-]. destruct (fill_sound go G _ _ [] _ _ C (names _) (fun _ _ H => H) F) as [C1 _]. split; [exact C1|].
      (* a failed fill is never a value *)
      intros v ->. exfalso. clear -F. revert F. generalize (@nil (str * V)) as acc. generalize (sig (m_fun (markers m))) as ps. intros ps. revert s.
      induction ps as [|(n, p) ps IH]; intros s acc; cbn [fill]; [discriminate|].
      destruct p as [|w|k|]; try (destruct (dget n dm) as [[x|f|k]|]); try discriminate; try apply IH.
      all: try (destruct (call f [] []); cbn; [apply IH | discriminate]).
      all: try (unfold invoke; destruct (call f [] []); [apply IH | discriminate]).
      all: destruct (go s k) as [s2 [x| | |]]; try discriminate; apply IH.
Qed.
Lemma resolve_sound n : sound (resolve n).
Proof.
  induction n as [|n IH]; intros s m s' r C; cbn [InjModel.resolve]; [intros [= <- <-]; split; [exact C | discriminate]|].
  destruct (if m_cache (markers m) then kept s m else None) as [v|] eqn:K.
  - intros [= <- <-]. split; [exact C|]. intros w [= <-]. destruct (m_cache (markers m)); [apply C; exact K | discriminate].
  - assert (I := internal_sound (resolve n) IH s m). destruct (m_life (markers m)) eqn:L; [apply I; exact C| |].
    all: destruct (shared s _ (m_fun (markers m))) as [v|] eqn:S; [intros [= <- <-]; split; [exact C | intros w [= <-]; eapply (proj2 C); eauto]|].
    all: destruct (internal markers sig is_class call ov dm (resolve n) s m) as [s1 x] eqn:E; destruct (I _ _ C eq_refl) as [C1 X]; destruct x as [v| | |]; intros [= <- <-]; (split; [|exact X || discriminate]); try exact C1.
    all: split; [apply C1|]; cbn [share shared]; intros l f w; destruct (life_eqb l _ && Nat.eqb f (m_fun (markers m))) eqn:B; [|apply C1].
    all: apply andb_true_iff in B; destruct B as [B1 B2]; apply Nat.eqb_eq in B2; destruct l; try discriminate B1; intros [= <-] m' F L'.
    all: assert (M := X v eq_refl); apply (means_agree m m'); [congruence| |exact M]; apply alike; congruence.
Qed.

(** ** Completeness *)
Definition completes (n0 : nat) m v : Prop := forall n s, n0 <= n -> consistent s -> exists s', resolve n s m = (s', Val v) /\ consistent s'.
Lemma complete : (forall m v, means m v -> exists n0, completes n0 m v) /\
  (forall ps kw, fills ps kw -> NoDup (map fst ps) -> exists n0, forall n s acc, n0 <= n -> consistent s -> (forall x, In x (map fst ps) -> ~ In x (map fst acc)) ->
     exists s', fill call dm (resolve n) s ps acc = (s', inl (acc ++ kw)) /\ consistent s') /\
  (forall e v, entry_is e v -> match e with EMarker m => exists n0, completes n0 m v | _ => True end).
Proof.
  assert (START : forall m v, means m v -> (exists n0, forall n s, n0 <= n -> consistent s -> exists s', internal markers sig is_class call ov dm (resolve n) s m = (s', Val v)) -> exists n0, completes n0 m v).
  { intros m v M (n0 & H). exists (S n0). intros [|n] s L C; [lia|].
    assert (R : exists s', resolve (S n) s m = (s', Val v)).
    { cbn [InjModel.resolve]. destruct (if m_cache (markers m) then kept s m else None) as [w|] eqn:K.
      - exists s. repeat f_equal. destruct (m_cache (markers m)); [|discriminate]. eapply (proj1 means_det); [apply C; exact K | exact M].
      - destruct (H n s ltac:(lia) C) as (s' & E). destruct (m_life (markers m)) eqn:LF; [exists s'; exact E| |].
        all: destruct (shared s _ (m_fun (markers m))) as [w|] eqn:SH; [exists s; repeat f_equal; eapply (proj1 means_det); [eapply (proj2 C); eauto | exact M]|].
        all: rewrite E; eexists; reflexivity. }
    destruct R as (s' & R). exists s'. split; [exact R|]. eapply resolve_sound; eassumption. }
  apply means_mutual.
  - intros m g v E S CL. assert (M : means m v) by (eapply m_given; eassumption). apply START; [exact M|]. exists 0. intros n s _ C. unfold internal.
    rewrite (proj2 (explicit_iff m) E). rewrite (proj1 (stands_override _ _) S). cbn [invoke]. rewrite CL. eexists. reflexivity.
  - intros m g kw v A1 A2 A3 F IH S CL. assert (M : means m v) by (eapply m_filled; eassumption). apply START; [exact M|].
    destruct (IH (names _)) as (n0 & H). exists n0. intros n s L C. unfold internal.
    destruct (explicit is_class (markers m)) eqn:E; [apply explicit_iff in E; destruct E as [E|[E|E]]; congruence|].
    destruct (H n s [] L C (fun _ _ X => X)) as (s' & -> & _). cbn [app]. rewrite (proj1 (stands_override _ _) S). cbn [invoke]. rewrite CL. eexists. reflexivity.
  - intros _. exists 0. intros n s acc _ C _. exists s. cbn [fill]. rewrite app_nil_r. auto.
  - intros n r kw F IH N. cbn [map fst] in N. inversion N; subst. destruct (IH H2) as (n0 & H). exists n0. intros n1 s acc L C D. cbn [fill]. apply H; auto. intros x I. apply D. right. exact I.
  - intros n m v r kw M (n1 & HM) F IH N. cbn [map fst] in N. inversion N; subst. destruct (IH H2) as (n0 & H). exists (max n0 n1). intros n2 s acc L C D. cbn [fill].
    destruct (HM n2 s ltac:(lia) C) as (s1 & -> & C1). rewrite dset_app by (apply D; left; reflexivity).
    destruct (H n2 s1 (acc ++ [(n, v)]) ltac:(lia) C1) as (s2 & E & C2).
    + intros x I. rewrite map_app, in_app_iff. intros [X|[<-|[]]]; [eapply D; [right; exact I | exact X] | exact (H1 I)].
    + exists s2. rewrite <- app_assoc in E. auto.
  - intros n p e v r kw P1 P2 DG EI HE F IH N. cbn [map fst] in N. inversion N; subst. destruct (IH H2) as (n0 & H).
    assert (STEP : exists n1, forall n2 s, n1 <= n2 -> consistent s -> exists s1, consistent s1 /\ forall acc, fill call dm (resolve n2) s ((n, p) :: r) acc = fill call dm (resolve n2) s1 r (dset n v acc)).
    { destruct EI as [v|f v CL|m v M].
      - exists 0. intros n2 s _ C. exists s. split; [exact C|]. intros acc. cbn [fill]. destruct p; try congruence; rewrite DG; reflexivity.
      - exists 0. intros n2 s _ C. eexists. split; [|intros acc; cbn [fill]; destruct p; try congruence; rewrite DG; cbn [invoke]; rewrite CL; reflexivity]. exact C.
      - destruct HE as (n1 & HM). exists n1. intros n2 s L C. destruct (HM n2 s L C) as (s1 & E & C1). exists s1. split; [exact C1|]. intros acc. cbn [fill]. destruct p; try congruence; rewrite DG, E; reflexivity. }
    destruct STEP as (n1 & STEP). exists (max n0 n1). intros n2 s acc L C D. destruct (STEP n2 s ltac:(lia) C) as (s1 & C1 & ->). rewrite dset_app by (apply D; left; reflexivity).
    destruct (H n2 s1 (acc ++ [(n, v)]) ltac:(lia) C1) as (s2 & E & C2).
    + intros x I. rewrite map_app, in_app_iff. intros [X|[<-|[]]]; [eapply D; [right; exact I | exact X] | exact (H1 I)].
    + exists s2. rewrite <- app_assoc in E. auto.
  - intros n v r kw DG F IH N. cbn [map fst] in N. inversion N; subst. destruct (IH H2) as (n0 & H). exists n0. intros n2 s acc L C D. cbn [fill]. rewrite DG. rewrite dset_app by (apply D; left; reflexivity).
    destruct (H n2 s (acc ++ [(n, v)]) L C) as (s2 & E & C2).
    + intros x I. rewrite map_app, in_app_iff. intros [X|[<-|[]]]; [eapply D; [right; exact I | exact X] | exact (H1 I)].
    + exists s2. rewrite <- app_assoc in E. auto.
  - intros; exact I.
  - intros; exact I.
  - intros m v M IH. exact IH.
Qed.
Lemma consistent_fresh : consistent fresh.
Proof. split; intros; discriminate. Qed.
Lemma history_sound n h : forall s s' rs, Forall (fun x => fst x = (ov, dm)) h -> consistent s -> history markers sig is_class call n s h = (s', rs) ->
  consistent s' /\ Forall2 (fun x r => forall v, r = Val v -> means (snd x) v) h rs.
Proof.
  induction h as [|((o, d), m) h IH]; intros s s' rs F C; cbn [history]; [intros [= <- <-]; split; [exact C | constructor]|].
  inversion F as [|? ? FE FR]; subst. cbn [fst] in FE. injection FE as -> ->.
  destruct (resolve n s m) as [s1 x] eqn:R. destruct (history markers sig is_class call n s1 h) as [s2 xs] eqn:HH. intros [= <- <-].
  destruct (resolve_sound n _ _ _ _ C R) as [C1 X]. destruct (IH _ _ _ FR C1 HH) as [C2 Y]. split; [exact C2 | constructor; assumption].
Qed.

(** ** inject *)
Notation argument := (argument markers sig is_class call ov dm).
Notation injected := (injected markers sig is_class call ov dm).
Lemma injected_general ps : forall b0, NoDup (map fst ps) ->
  (forall p, In p ps -> dget (fst p) b0 = None -> snd p <> Variadic) ->
  (forall p, In p ps -> exists o, argument b0 p o) ->
  exists n0, forall n s bound, n0 <= n -> consistent s -> (forall p, In p ps -> dget (fst p) bound = dget (fst p) b0) ->
    exists s' d, injected n s ps bound = (s', inl d) /\
      (forall p, In p ps -> argument b0 p (dget (fst p) d)) /\ (forall k, ~ In k (map fst ps) -> dget k d = dget k bound) /\ consistent s'.
Proof.
  induction ps as [|(name, p) ps IH]; intros b0 N NV A.
  - exists 0. intros n s bound _ C _. exists s, bound. split; [reflexivity|]. split; [intros p [] | split; [reflexivity | exact C]].
  - cbn [map fst] in N. inversion N as [|? ? NI N']; subst.
    destruct (IH b0 N' (fun q I => NV q (or_intror I)) (fun q I => A q (or_intror I))) as (n0 & H).
    assert (REST : forall v, argument b0 (name, p) (Some v) -> forall n s1 bound b1, n0 <= n -> consistent s1 -> dget name b1 = Some v -> (forall k, k <> name -> dget k b1 = dget k bound) ->
       (forall q, In q ((name, p) :: ps) -> dget (fst q) bound = dget (fst q) b0) ->
       exists s' d, injected n s1 ps b1 = (s', inl d) /\
        (forall q, In q ((name, p) :: ps) -> argument b0 q (dget (fst q) d)) /\ (forall k, ~ In k (name :: map fst ps) -> dget k d = dget k bound) /\ consistent s').
    { intros v AR n s1 bound b1 L C1 BV BO SAME. destruct (H n s1 b1 L C1) as (s' & d & E & Q & K & C2).
      - intros q I. rewrite BO; [apply SAME; right; exact I|]. intros E. apply NI. rewrite <- E. apply in_map, I.
      - exists s', d. split; [exact E|]. split; [|split; [|exact C2]].
        + intros q [<-|I]; [cbn [fst]; rewrite K by exact NI; rewrite BV; exact AR | apply Q; exact I].
        + intros k KI. rewrite K by (intros I; apply KI; right; exact I). apply BO. intros ->. apply KI. left. reflexivity. }
    destruct (A _ (or_introl eq_refl)) as (o & AO). assert (NV1 := NV _ (or_introl eq_refl)). unfold InjSpec.argument in AO. cbn [fst snd] in AO, NV1.
    destruct (dget name b0) as [v|] eqn:B.
    + exists n0. intros n s bound L C SAME. assert (SN := SAME _ (or_introl eq_refl)). cbn [fst] in SN. rewrite B in SN. cbn [InjModel.injected map fst].
      assert (DM : dmem name bound = true) by (unfold dmem; rewrite SN; reflexivity). rewrite DM.
      apply (REST v) with (bound := bound); auto. unfold InjSpec.argument. cbn [fst]. rewrite B. reflexivity.
    + assert (DMF : forall bound, (forall q, In q ((name, p) :: ps) -> dget (fst q) bound = dget (fst q) b0) -> dmem name bound = false).
      { intros bound SAME. assert (SN := SAME _ (or_introl eq_refl)). cbn [fst] in SN. unfold dmem. rewrite SN, B. reflexivity. }
      destruct p as [|v|m|].
      * destruct AO.
      * exists n0. intros n s bound L C SAME. cbn [InjModel.injected map fst]. rewrite (DMF _ SAME).
        apply (REST v) with (bound := bound); auto; [|apply dget_dset_same | intros k K; apply dget_dset_other; congruence]. unfold InjSpec.argument. cbn [fst snd]. rewrite B. reflexivity.
      * destruct AO as (v & -> & M). destruct (proj1 complete m v M) as (n1 & H1). exists (max n0 n1). intros n s bound L C SAME.
        cbn [InjModel.injected map fst]. rewrite (DMF _ SAME). destruct (H1 n s ltac:(lia) C) as (s1 & -> & C1).
        apply (REST v) with (bound := bound); auto; [| lia | apply dget_dset_same | intros k K; apply dget_dset_other; congruence].
        unfold InjSpec.argument. cbn [fst snd]. rewrite B. exists v. auto.
      * exfalso. apply NV1; reflexivity.
Qed.
End Fixed.

(** ** What is kept *)
Definition by_marker m (v : V) s : Prop := m_cache (markers m) = true /\ kept s m = Some v.
Definition by_scope m (v : V) s : Prop :=
  m_life (markers m) <> PerCall /\ shared s (m_life (markers m)) (m_fun (markers m)) = Some v /\ (m_cache (markers m) = true -> kept s m = None).
Definition settled m v s : Prop := by_marker m v s \/ by_scope m v s.
Lemma settled_resolve m v s ov dm n : settled m v s -> resolve markers sig is_class call ov dm (S n) s m = (s, Val v).
Proof.
  cbn [resolve]. intros [[-> ->] | (L & S & K)]; [reflexivity|].
  assert (E : (if m_cache (markers m) then kept s m else None) = None) by (destruct (m_cache (markers m)); auto). rewrite E.
  destruct (m_life (markers m)); [congruence | |]; rewrite S; reflexivity.
Qed.
Section Keeps.
Context (m : nat) (v : V) (P : state V -> Prop).
Hypothesis Psettled : forall s, P s -> settled m v s.
Hypothesis Psame : forall s s', kept s' = kept s -> shared s' = shared s -> P s -> P s'.
Hypothesis Pkeep : forall s x w, x <> m -> P s -> P (keep x w s).
Hypothesis Pshare : forall s0 s l f w, shared s0 l f = None -> P s0 -> P s -> P (share l f w s).
Definition keeps (go : state V -> nat -> state V * res V) : Prop := forall s x, P s -> P (fst (go s x)).
Lemma invoke_keeps s t a k : P s -> P (fst (invoke call s t a k)).
Proof. unfold invoke. destruct t as [g|w]; [|auto]. destruct (call g a k); apply Psame; reflexivity. Qed.
Lemma fill_keeps dm go : keeps go -> forall ps s acc, P s -> P (fst (fill call dm go s ps acc)).
Proof.
  intros G. induction ps as [|(n, p) ps IH]; intros s acc S; cbn [fill]; [exact S|].
  assert (GO : forall x, P (fst (match go s x with (s1, Val v) => fill call dm go s1 ps (dset n v acc) | (s1, e) => (s1, inr e) end))).
  { intros x. assert (X := G s x S). destruct (go s x) as [s1 [w| | |]]; cbn [fst] in *; auto. }
  assert (IN : forall f, P (fst (match invoke call s (TFun f) [] [] with (s1, Val v) => fill call dm go s1 ps (dset n v acc) | (s1, e) => (s1, inr e) end))).
  { intros f. assert (X := invoke_keeps s (TFun f) [] [] S). destruct (invoke call s (TFun f) [] []) as [s1 [w| | |]]; cbn [fst] in *; auto. }
  destruct p as [|w|x|]; auto; destruct (dget n dm) as [[y|f|x]|]; auto.
Qed.
Lemma internal_keeps ov dm go : keeps go -> forall s x, x <> m -> P s -> P (fst (internal markers sig is_class call ov dm go s x)).
Proof.
  intros G s x D S. unfold internal.
  assert (DONE : forall sr : state V * res V, P (fst sr) -> P (fst (match sr with (s1, Val w) => (if m_cache (markers x) then keep x w s1 else s1, Val w) | y => y end))).
  { intros [s1 [w| | |]]; cbn [fst]; auto. destruct (m_cache (markers x)); [apply Pkeep; exact D | auto]. }
  destruct (explicit is_class (markers x)); [apply DONE, invoke_keeps, S|].
  assert (F := fill_keeps dm go G (sig (m_fun (markers x))) s [] S). destruct (fill call dm go s (sig (m_fun (markers x))) []) as [s1 [kw|e]]; cbn [fst] in *; [apply DONE, invoke_keeps, F | exact F].
Qed.
(** Only the resolution of [m] itself can touch what is kept for it, and that one returns at once. *)
Lemma resolve_keeps ov dm n : keeps (resolve markers sig is_class call ov dm n).
Proof.
  induction n as [|n IH]; intros s x S; [exact S|]. destruct (Nat.eq_dec x m) as [->|D]; [rewrite (settled_resolve m v s ov dm n (Psettled _ S)); exact S|].
  cbn [resolve]. destruct (if m_cache (markers x) then kept s x else None); [exact S|].
  assert (I := internal_keeps ov dm _ IH s x D S). destruct (m_life (markers x)) eqn:L; [exact I| |].
  all: destruct (shared s _ (m_fun (markers x))) as [w|] eqn:SH; [exact S|].
  all: destruct (internal markers sig is_class call ov dm _ s x) as [s1 [w| | |]]; cbn [fst] in *; try exact I; eapply Pshare; eassumption.
Qed.
Lemma history_keeps n h : forall s, P s -> P (fst (history markers sig is_class call n s h)).
Proof.
  induction h as [|((o, d), x) h IH]; intros s S; cbn [history]; [exact S|].
  assert (R := resolve_keeps o d n s x S). destruct (resolve markers sig is_class call o d n s x) as [s1 y]. cbn [fst] in R.
  specialize (IH s1 R). destruct (history markers sig is_class call n s1 h) as [s2 ys]. exact IH.
Qed.
End Keeps.
Lemma settled_history m v n h s : settled m v s -> settled m v (fst (history markers sig is_class call n s h)).
Proof.
  intros [S|S]; [left | right].
  - apply (history_keeps m v (by_marker m v)); auto; [left; assumption | intros s1 s2 K _ [C X]; split; [exact C | congruence] |].
    intros s1 x w D [C X]. split; [exact C|]. cbn [keep kept]. destruct (Nat.eqb_spec m x); [congruence | exact X].
  - apply (history_keeps m v (by_scope m v)); auto; [right; assumption | intros s1 s2 K H (A & B & C); split; [exact A | rewrite H, K; auto] | |].
    + intros s1 x w D (A & B & C). split; [exact A|]. split; [exact B|]. cbn [keep kept]. destruct (Nat.eqb_spec m x); [congruence | exact C].
    + intros s0 s1 l f w SH (A0 & B0 & _) (A & B & C). split; [exact A|]. split; [|exact C]. cbn [share shared].
      destruct (life_eqb (m_life (markers m)) l && Nat.eqb (m_fun (markers m)) f) eqn:E; [|exact B].
      apply andb_true_iff in E. destruct E as [E1 E2]. apply Nat.eqb_eq in E2. assert (m_life (markers m) = l) by (destruct (m_life (markers m)), l; discriminate || reflexivity). congruence.
Qed.
Lemma resolve_settles ov dm n s m s1 v : m_cache (markers m) = true \/ m_life (markers m) <> PerCall -> resolve markers sig is_class call ov dm n s m = (s1, Val v) -> settled m v s1.
Proof.
  intros H. destruct n as [|n]; [discriminate|]. cbn [resolve].
  assert (I : forall s1 v, internal markers sig is_class call ov dm (resolve markers sig is_class call ov dm n) s m = (s1, Val v) -> m_cache (markers m) = true -> kept s1 m = Some v).
  { intros s2 w E C. unfold internal in E. rewrite C in E. destruct (explicit is_class (markers m)).
    - destruct (invoke call s _ _ _) as [s3 [x| | |]]; try discriminate. injection E as <- <-. cbn [keep kept]. rewrite Nat.eqb_refl. reflexivity.
    - destruct (fill call dm _ s _ _) as [s4 [kw|e]] eqn:FE.
      + destruct (invoke call s4 _ _ _) as [s3 [x| | |]]; try discriminate. injection E as <- <-. cbn [keep kept]. rewrite Nat.eqb_refl. reflexivity.
      + injection E as -> ->. exfalso. revert FE. generalize (@nil (str * V)) as acc. generalize (sig (m_fun (markers m))) as ps. intros ps. generalize s.
        induction ps as [|(k, p) ps IH]; intros s0 acc; cbn [fill]; [discriminate|].
        destruct p as [|y|z|]; try (destruct (dget k dm) as [[y'|f|z]|]); try discriminate; try apply IH.
        all: try (unfold invoke; destruct (call f [] []); [apply IH | discriminate]).
        all: destruct (resolve markers sig is_class call ov dm n s0 z) as [s5 [x| | |]]; try discriminate; apply IH. }
  destruct (m_cache (markers m)) eqn:C.
  - destruct (kept s m) as [w|] eqn:K; [intros [= <- <-]; left; split; assumption|].
    destruct (m_life (markers m)) eqn:L; [intros E; left; split; [exact C | apply I; auto]| |].
    all: destruct (shared s _ (m_fun (markers m))) as [w|] eqn:SH; [intros [= <- <-]; right; repeat split; [congruence | congruence | auto]|].
    all: destruct (internal markers sig is_class call ov dm _ s m) as [s2 [w| | |]] eqn:E; try discriminate; intros [= <- <-]; left; split; [exact C | cbn [share kept]; apply I; auto].
  - destruct H as [H|H]; [discriminate|]. destruct (m_life (markers m)) eqn:L; [congruence| |].
    all: destruct (shared s _ (m_fun (markers m))) as [w|] eqn:SH; [intros [= <- <-]; right; repeat split; [congruence | congruence | congruence]|].
    all: destruct (internal markers sig is_class call ov dm _ s m) as [s2 [w| | |]] eqn:E; try discriminate; intros [= <- <-]; right; split; [congruence|]; split; [|congruence].
    all: cbn [share shared]; rewrite L; cbn [life_eqb]; rewrite Nat.eqb_refl; reflexivity.
Qed.
(** ** Nothing is kept *)
Definition blank s : Prop := (forall m, kept s m = None) /\ forall l f, shared s l f = None.
Lemma blank_consistent ov dm s : blank s -> consistent ov dm s.
Proof. intros [K S]. split; [intros m v E | intros l f v E]; rewrite ?K, ?S in E; discriminate. Qed.
Section Plain.
Hypothesis plain : forall m, m_cache (markers m) = false /\ m_life (markers m) = PerCall.
Lemma resolve_blank ov dm n : forall s m, blank s -> blank (fst (resolve markers sig is_class call ov dm n s m)).
Proof.
  induction n as [|n IH]; intros s m B; [exact B|]. cbn [resolve]. destruct (plain m) as [C ->]. rewrite C. unfold internal. rewrite C.
  assert (INV : forall s t a k, blank s -> blank (fst (invoke call s t a k))).
  { intros s0 t a k B0. unfold invoke. destruct t as [g|w]; [|exact B0]. destruct (call g a k); exact B0. }
  assert (DONE : forall sr : state V * res V, blank (fst sr) -> blank (fst (match sr with (s1, Val w) => (s1, Val w) | y => y end))) by (intros [s1 [w| | |]]; auto).
  destruct (explicit is_class (markers m)); [apply DONE, INV, B|].
  assert (F : blank (fst (fill call dm (resolve markers sig is_class call ov dm n) s (sig (m_fun (markers m))) []))).
  { generalize (@nil (str * V)) as acc. generalize (sig (m_fun (markers m))) as ps. intros ps. revert s B. induction ps as [|(k, p) ps IHp]; intros s B acc; cbn [fill]; [exact B|].
    assert (GO : forall x, blank (fst (match resolve markers sig is_class call ov dm n s x with (s1, Val v) => fill call dm (resolve markers sig is_class call ov dm n) s1 ps (dset k v acc) | (s1, e) => (s1, inr e) end))).
    { intros x. assert (X := IH s x B). destruct (resolve markers sig is_class call ov dm n s x) as [s1 [w| | |]]; cbn [fst] in *; auto. }
    assert (IN : forall f, blank (fst (match invoke call s (TFun f) [] [] with (s1, Val v) => fill call dm (resolve markers sig is_class call ov dm n) s1 ps (dset k v acc) | (s1, e) => (s1, inr e) end))).
    { intros f. assert (X := INV s (TFun f) [] [] B). destruct (invoke call s (TFun f) [] []) as [s1 [w| | |]]; cbn [fst] in *; auto. }
    destruct p as [|w|x|]; auto; destruct (dget k dm) as [[y|f|x]|]; auto. }
  destruct (fill call dm _ s (sig (m_fun (markers m))) []) as [s1 [kw|e]]; cbn [fst] in *; [apply DONE, INV, F | exact F].
Qed.
Lemma history_blank n h : (forall f, NoDup (map fst (sig f))) -> forall s s' rs, blank s -> history markers sig is_class call n s h = (s', rs) ->
  blank s' /\ Forall2 (fun x r => forall v, r = Val v -> means markers sig is_class call (fst (fst x)) (snd (fst x)) (snd x) v) h rs.
Proof.
  intros ND. induction h as [|((o, d), m) h IH]; intros s s' rs B; cbn [history]; [intros [= <- <-]; split; [exact B | constructor]|].
  assert (B1 := resolve_blank o d n s m B). destruct (resolve markers sig is_class call o d n s m) as [s1 x] eqn:R. cbn [fst] in B1.
  destruct (history markers sig is_class call n s1 h) as [s2 xs] eqn:HH. intros [= <- <-].
  destruct (IH _ _ _ B1 HH) as [B2 Y]. split; [exact B2 | constructor; [|exact Y]]. cbn [fst snd].
  refine (proj2 (resolve_sound o d ND _ n s m s1 x (blank_consistent o d s B) R)).
  intros a b _ _ X. destruct (X (proj2 (plain a))).
Qed.
End Plain.
End Inj.

(** * C124: keeping values does not change what a dependency is *)
Definition C124_statement : Prop :=
  forall (V : Type) (markers : nat -> marker V) sig is_class call n h s' rs, (forall f, NoDup (map fst (sig f))) ->
  history markers sig is_class call n fresh h = (s', rs) ->
  Forall2 (fun x r => forall v, r = Val v -> means markers sig is_class call (fst (fst x)) (snd (fst x)) (snd x) v) h rs.
Definition plain_marker (f : nat) (args : list nat) (cache : bool) (l : life) : marker nat := {| m_fun := f; m_args := args; m_kwargs := []; m_cache := cache; m_life := l |}.
(** A value that a marker keeps is returned whatever the overrides of a later call say. *)
Theorem C124_refuted : ~ C124_statement.
Proof.
  intros H. specialize (H nat (fun _ => plain_marker 0 [] true PerCall) (fun _ => []) (fun _ => false) (fun f _ _ => Some f) 1 [([], [], 0); ([(0, TFun 1)], [], 0)] _ _ (fun _ => NoDup_nil _) eq_refl).
  inversion H as [|? ? ? ? _ H2]; subst. inversion H2 as [|? ? ? ? H3 _]; subst. specialize (H3 0 eq_refl). cbn [fst snd] in H3.
  inversion H3; subst; match goal with S : stands _ _ _ |- _ => cbn [m_fun plain_marker] in S; inversion S; subst end; congruence.
Qed.
Print Assumptions C124_refuted.
(** Two markers of one function with different arguments share one application-wide value. *)
Theorem C124_arguments_refuted :
  exists (markers : nat -> marker nat) s' r, (forall m, m_life (markers m) = PerApp) /\ m_args (markers 0) = [1] /\ m_args (markers 1) = [2] /\
    history markers (fun _ => []) (fun _ => false) (fun _ a _ => hd_error a) 1 fresh [([], [], 0); ([], [], 1)] = (s', [Val 1; r]) /\
    r = Val 1 /\ means markers (fun _ => []) (fun _ => false) (fun _ a _ => hd_error a) [] [] 1 2.
Proof.
  exists (fun m => plain_marker 0 [S m] false PerApp). eexists. exists (Val 1). refine (conj (fun _ => eq_refl) (conj eq_refl (conj eq_refl (conj eq_refl (conj eq_refl _))))).
  eapply m_given; [left; discriminate | constructor | reflexivity].
Qed.
Print Assumptions C124_arguments_refuted.
(** With the same overrides and mapping throughout, and markers that share a value having the same arguments, every
    value is what the marker means.  Missing: the two cases above. *)
Theorem C124_partial {V} (markers : nat -> marker V) sig is_class call ov dm n h s' rs :
  (forall f, NoDup (map fst (sig f))) ->
  (forall m m', m_fun (markers m) = m_fun (markers m') -> m_life (markers m) = m_life (markers m') -> m_life (markers m) <> PerCall ->
     m_args (markers m) = m_args (markers m') /\ m_kwargs (markers m) = m_kwargs (markers m')) ->
  Forall (fun x => fst x = (ov, dm)) h ->
  history markers sig is_class call n fresh h = (s', rs) ->
  Forall2 (fun x r => forall v, r = Val v -> means markers sig is_class call ov dm (snd x) v) h rs.
Proof. intros N A F E. eapply (history_sound markers sig is_class call ov dm N A n h); [exact F | apply consistent_fresh | exact E]. Qed.
Print Assumptions C124_partial.
(** And a marker that means something is always resolved, after any such history: the value does not depend on it. *)
Theorem C124_resolves_partial {V} (markers : nat -> marker V) sig is_class call ov dm m v :
  (forall f, NoDup (map fst (sig f))) ->
  (forall m m', m_fun (markers m) = m_fun (markers m') -> m_life (markers m) = m_life (markers m') -> m_life (markers m) <> PerCall ->
     m_args (markers m) = m_args (markers m') /\ m_kwargs (markers m) = m_kwargs (markers m')) ->
  means markers sig is_class call ov dm m v ->
  exists n0, forall n n1 h s' rs, Forall (fun x => fst x = (ov, dm)) h -> history markers sig is_class call n1 fresh h = (s', rs) -> n0 <= n ->
    snd (resolve markers sig is_class call ov dm n s' m) = Val v.
Proof.
  intros N A M. destruct (proj1 (complete markers sig is_class call ov dm N A) m v M) as (n0 & H). exists n0. intros n n1 h s' rs F E L.
  destruct (H n s' L) as (s2 & -> & _); [|reflexivity]. eapply (history_sound markers sig is_class call ov dm N A); [exact F | apply consistent_fresh | exact E].
Qed.
Print Assumptions C124_resolves_partial.
(** If no marker keeps or shares its value, the overrides and the mapping may change from call to call. *)
Theorem C124_uncached {V} (markers : nat -> marker V) sig is_class call n h s' rs :
  (forall f, NoDup (map fst (sig f))) -> (forall m, m_cache (markers m) = false /\ m_life (markers m) = PerCall) ->
  history markers sig is_class call n fresh h = (s', rs) ->
  Forall2 (fun x r => forall v, r = Val v -> means markers sig is_class call (fst (fst x)) (snd (fst x)) (snd x) v) h rs.
Proof. intros N P E. eapply (history_blank markers sig is_class call P n h N fresh); [split; reflexivity | exact E]. Qed.
Print Assumptions C124_uncached.
(** Marker 0 is an application-wide function of a parameter marked by 1, which keeps its value, and of one with a
    default; marker 2 has arguments. *)
Definition ex_markers (m : nat) : marker nat := match m with 0 => plain_marker 0 [] false PerApp | 1 => plain_marker 1 [] true PerCall | _ => plain_marker 2 [5] false PerCall end.
Definition ex_sig (f : nat) : list (str * param nat) := match f with 0 => [(u "a", Marked 1); (u "b", Default 3); (u "c", Required)] | _ => [] end.
Definition ex_call (f : nat) (a : list nat) (k : dict nat) : option nat := Some (f + fold_right plus 0 a + fold_right plus 0 (map snd k)).
Example C124_case :
  snd (history ex_markers ex_sig (fun _ => false) ex_call 9 fresh (map (fun m => ([], [(u "c", EMarker 2)], m)) [0; 1; 2; 0])) = map Val [11; 1; 7; 11] /\
  calls (fst (history ex_markers ex_sig (fun _ => false) ex_call 9 fresh (map (fun m => ([], [(u "c", EMarker 2)], m)) [0; 1; 2; 0]))) =
    [(1, [], []); (2, [5], []); (0, [], [(u "a", 1); (u "b", 3); (u "c", 7)]); (2, [5], [])] /\
  means ex_markers ex_sig (fun _ => false) ex_call [] [(u "c", EMarker 2)] 0 11.
Proof.
  split; [vm_compute; reflexivity|]. split; [vm_compute; reflexivity|].
  apply m_filled with (g := 0) (kwargs := [(u "a", 1); (u "b", 3); (u "c", 7)]); try reflexivity; [|constructor].
  apply f_marked; [apply m_filled with (g := 1) (kwargs := []); try reflexivity; constructor|].
  apply f_default; [reflexivity|]. eapply f_mapped; [discriminate | discriminate | vm_compute; reflexivity | | constructor].
  constructor. eapply m_given; [left; discriminate | constructor | reflexivity].
Qed.

(** * C125: a kept or shared value is made once *)
Theorem C125_once {V} (markers : nat -> marker V) sig is_class call ov dm n s m s1 v :
  m_cache (markers m) = true \/ m_life (markers m) <> PerCall ->
  resolve markers sig is_class call ov dm n s m = (s1, Val v) ->
  forall n1 h s2 rs ov' dm' n2, history markers sig is_class call n1 s1 h = (s2, rs) ->
    resolve markers sig is_class call ov' dm' (S n2) s2 m = (s2, Val v).
Proof.
  intros H R n1 h s2 rs ov' dm' n2 E. apply settled_resolve. assert (X := settled_history markers sig is_class call m v n1 h s1 (resolve_settles _ _ _ _ _ _ _ _ _ _ _ H R)).
  rewrite E in X. exact X.
Qed.
Print Assumptions C125_once.
(** A failed attempt keeps nothing for its marker: see the example. An override by a static value, which the
    documentation of [resolve] allows, is never a value. *)
Definition C125_override_statement : Prop :=
  forall (V : Type) (markers : nat -> marker V) sig is_class call m w, (forall f, sig f = []) ->
  exists n, snd (resolve markers sig is_class call [(m_fun (markers m), TValue w)] [] n fresh m) = Val w.
Theorem C125_override_refuted : ~ C125_override_statement.
Proof.
  intros H. destruct (H nat (fun _ => plain_marker 0 [] false PerCall) (fun _ => []) (fun _ => false) (fun f _ _ => Some f) 0 7 (fun _ => eq_refl)) as ([|n] & E); cbn in E; discriminate.
Qed.
Print Assumptions C125_override_refuted.
(** A function that replaces another is what is called, when nothing is kept yet; the arguments are the marker's, or
    those that the replaced function's parameters are filled with. *)
Theorem C125_override {V} (markers : nat -> marker V) (sig : nat -> list (str * param V)) is_class call m g v n dm :
  m_args (markers m) <> [] \/ m_kwargs (markers m) <> [] \/ is_class (m_fun (markers m)) = true \/ sig (m_fun (markers m)) = [] ->
  call g (m_args (markers m)) (m_kwargs (markers m)) = Some v ->
  let r := resolve markers sig is_class call [(m_fun (markers m), TFun g)] dm (S n) fresh m in
  snd r = Val v /\ calls (fst r) = [(g, m_args (markers m), m_kwargs (markers m))].
Proof.
  intros H C. cbn zeta. cbn [resolve fresh kept shared].
  assert (I : exists s1, internal markers sig is_class call [(m_fun (markers m), TFun g)] dm (resolve markers sig is_class call [(m_fun (markers m), TFun g)] dm n) fresh m = (s1, Val v) /\ calls s1 = [(g, m_args (markers m), m_kwargs (markers m))]).
  { unfold internal. assert (O : @override V [(m_fun (markers m), TFun g)] (m_fun (markers m)) = TFun g) by (unfold override; cbn [List.find fst]; rewrite Nat.eqb_refl; reflexivity). rewrite O.
    destruct (explicit is_class (markers m)) eqn:E.
    - cbn [invoke]. rewrite C. eexists. split; [reflexivity|]. destruct (m_cache (markers m)); reflexivity.
    - assert (NE : ~ (explicit is_class (markers m) = true)) by congruence. rewrite (explicit_iff markers sig is_class call) in NE.
      assert (A : m_args (markers m) = []) by (destruct (m_args (markers m)); [reflexivity | exfalso; apply NE; left; discriminate]).
      assert (K : m_kwargs (markers m) = []) by (destruct (m_kwargs (markers m)); [reflexivity | exfalso; apply NE; right; left; discriminate]).
      assert (SG : sig (m_fun (markers m)) = []) by (destruct H as [H|[H|[H|H]]]; tauto). rewrite SG. cbn [fill invoke]. rewrite A, K in C |- *. rewrite C. eexists; split; [reflexivity | destruct (m_cache (markers m)); reflexivity]. }
  destruct I as (s1 & E & CS). assert (N : (if m_cache (markers m) then None else @None V) = None) by (destruct (m_cache (markers m)); reflexivity).
  unfold fresh in *. rewrite E. destruct (m_cache (markers m)); destruct (m_life (markers m)); cbn [fst snd share calls]; auto.
Qed.
Print Assumptions C125_override.
Example C125_case :
  (let '(s1, r) := resolve ex_markers ex_sig (fun _ => false) ex_call [] [] 9 fresh 0 in r = Unresolved /\ shared s1 PerApp 0 = None /\ length (calls s1) = 1) /\
  (let '(s1, r) := resolve ex_markers ex_sig (fun _ => false) ex_call [(1, TFun 40)] [(u "c", EValue 2)] 9 fresh 0 in r = Val 45 /\ shared s1 PerApp 0 = Some 45 /\ kept s1 1 = Some 40).
Proof. split; vm_compute; auto. Qed.

(** * C126: what an injected function is called with *)
Definition C126_statement : Prop :=
  forall (V : Type) (markers : nat -> marker V) sig is_class call ov dm ps bound,
  (forall f, NoDup (map fst (sig f))) -> NoDup (map fst ps) -> (forall m, m_cache (markers m) = false /\ m_life (markers m) = PerCall) ->
  (forall p, In p ps -> exists o, argument markers sig is_class call ov dm bound p o) ->
  exists n s' d, injected markers sig is_class call ov dm n fresh ps bound = (s', inl d) /\
    (forall p, In p ps -> argument markers sig is_class call ov dm bound p (dget (fst p) d)) /\ (forall k, ~ In k (map fst ps) -> dget k d = dget k bound).
(** [def f(a, *args)] called with [a] only: a RuntimeError. *)
Theorem C126_refuted : ~ C126_statement.
Proof.
  intros H. destruct (H nat (fun _ => plain_marker 0 [] false PerCall) (fun _ => []) (fun _ => false) (fun f _ _ => Some f) [] [] [(u "a", Required); (u "args", Variadic)] [(u "a", 1)]) as (n & s' & d & E & _).
  - intros _. constructor.
  - repeat constructor; cbn; intuition discriminate.
  - intros m. split; reflexivity.
  - intros p [<-|[<-|[]]]; [exists (Some 1) | exists None]; reflexivity.
  - vm_compute in E. discriminate.
Qed.
Print Assumptions C126_refuted.
(** Without variadic parameters, or with arguments for them, it holds, also after any history of resolutions that
    keep values.  Missing: variadic parameters without arguments. *)
Theorem C126_partial {V} (markers : nat -> marker V) sig is_class call ov dm ps bound :
  (forall f, NoDup (map fst (sig f))) -> NoDup (map fst ps) ->
  (forall m m', m_fun (markers m) = m_fun (markers m') -> m_life (markers m) = m_life (markers m') -> m_life (markers m) <> PerCall ->
     m_args (markers m) = m_args (markers m') /\ m_kwargs (markers m) = m_kwargs (markers m')) ->
  (forall p, In p ps -> dget (fst p) bound = None -> snd p <> Variadic) ->
  (forall p, In p ps -> exists o, argument markers sig is_class call ov dm bound p o) ->
  exists n0, forall n n1 h s rs, Forall (fun x => fst x = (ov, dm)) h -> history markers sig is_class call n1 fresh h = (s, rs) -> n0 <= n ->
    exists s' d, injected markers sig is_class call ov dm n s ps bound = (s', inl d) /\
      (forall p, In p ps -> argument markers sig is_class call ov dm bound p (dget (fst p) d)) /\ (forall k, ~ In k (map fst ps) -> dget k d = dget k bound).
Proof.
  intros N NP A NV AR. destruct (injected_general markers sig is_class call ov dm N A ps bound NP NV AR) as (n0 & H). exists n0. intros n n1 h s rs F E L.
  destruct (H n s bound L) as (s' & d & R & P & K & _); [|reflexivity | exists s', d; auto].
  eapply (history_sound markers sig is_class call ov dm N A); [exact F | apply consistent_fresh | exact E].
Qed.
Print Assumptions C126_partial.
(** A required parameter that is not given is a RuntimeError, not a call. *)
Theorem C126_missing {V} (markers : nat -> marker V) sig is_class call ov dm n s ps1 name ps2 bound s' o :
  ~ In name (map fst ps1) -> dget name bound = None ->
  injected markers sig is_class call ov dm n s (ps1 ++ (name, Required) :: ps2) bound = (s', o) -> exists e, o = inr e.
Proof.
  revert s bound. induction ps1 as [|(x, p) ps1 IH]; intros s bound NI B; cbn [app injected].
  - unfold dmem. rewrite B. intros [= <- <-]. eauto.
  - cbn [map fst] in NI. assert (D : x <> name) by (intros ->; apply NI; left; reflexivity). assert (NI' : ~ In name (map fst ps1)) by (intros I; apply NI; right; exact I).
    destruct (dmem x bound); [apply IH; assumption|]. destruct p as [|v|m|]; [intros [= <- <-]; eauto | | | intros [= <- <-]; eauto].
    + apply IH; [exact NI'|]. rewrite dget_dset_other by congruence. exact B.
    + destruct (resolve markers sig is_class call ov dm n s m) as [s1 [v| | |]]; try (intros [= <- <-]; eauto). apply IH; [exact NI'|]. rewrite dget_dset_other by congruence. exact B.
Qed.
Print Assumptions C126_missing.
Example C126_case :
  let '(s1, r) := injected ex_markers ex_sig (fun _ => false) ex_call [] [(u "c", EMarker 2)] 9 fresh [(u "x", Required); (u "y", Marked 0); (u "z", Default 9); (u "w", Marked 1)] [(u "x", 8); (u "w", 0)] in
  r = inl [(u "x", 8); (u "w", 0); (u "y", 11); (u "z", 9)].
Proof. vm_compute. reflexivity. Qed.
