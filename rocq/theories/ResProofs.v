From Verif Require Import PyStr PyStrFacts JsonProofs ResModel ResSpec.

Scheme solved_mut := Induction for solved Sort Prop
  with supplied_mut := Induction for supplied Sort Prop.
Combined Scheme solved_supplied from solved_mut, supplied_mut.

Definition ext (st : state) (cs : list (nat * dict value)) (og : list nat) : state :=
  {| calls := calls st ++ cs; opened := opened st ++ og |}.
Lemma ext_nil st : ext st [] [] = st.
Proof. destruct st; unfold ext; cbn; now rewrite !app_nil_r. Qed.
Lemma ext_ext st a b c d : ext (ext st a b) c d = ext st (a ++ c) (b ++ d).
Proof. unfold ext; cbn; now rewrite !app_assoc. Qed.
Lemma ext_length st a b : length (calls (ext st a b)) = (length (calls st) + length a)%nat.
Proof. cbn; apply app_length. Qed.

Lemma nodup_twice {A B} (l : list (A * B)) a x y : NoDup (map fst l) -> In (a, x) l -> In (a, y) l -> x = y.
Proof.
  induction l as [|[b z] r IH]; cbn; [easy|]. intros [N D]%NoDup_cons_iff [X|X] [Y|Y].
  - congruence.
  - injection X as -> ->. destruct N. now apply (in_map fst) in Y.
  - injection Y as -> ->. destruct N. now apply (in_map fst) in X.
  - now apply IH.
Qed.

Lemma dmem_keys {V} k (d : dict V) : dmem k d = true <-> In k (dkeys d).
Proof.
  unfold dkeys. rewrite dmem_iff. split.
  - intros [v G]. destruct (in_dec (list_eq_dec N.eq_dec) k (map fst d)) as [I|I]; [exact I|].
    apply dget_None_keys in I. congruence.
  - intros I. destruct (dget k d) eqn:G; [eauto|]. now apply dget_None_keys in G.
Qed.
Lemma lacking_iff ps kwargs : lacking ps kwargs = false <-> forall a, In (a, Required) ps -> In a (dkeys kwargs).
Proof.
  unfold lacking; split.
  - intros L a I. destruct (dmem a kwargs) eqn:M; [now apply dmem_keys|].
    assert (X : existsb (fun p : str * mark => is_required (snd p) && negb (dmem (fst p) kwargs)) ps = true).
    { apply existsb_exists. exists (a, Required). split; [exact I|]. cbn. now rewrite M. }
    congruence.
  - intros H. apply Bool.not_true_is_false. intros X. apply existsb_exists in X as [[a m] [I E]].
    cbn in E. apply andb_true_iff in E as [E1 E2]. destruct m; try discriminate.
    apply H, dmem_keys in I. now rewrite I in E2.
Qed.

Section R.
Variables (w : world) (tbl : list func) (ov : overrides) (rq : nat).
Hypothesis P : proper tbl.

Lemma supplied_keys t ps kwargs cs og : supplied w tbl ov rq t ps kwargs cs og -> map fst kwargs = map fst (filter marked ps).
Proof. induction 1; cbn; congruence. Qed.

Lemma lacking_no_required ps kwargs : NoDup (map fst ps) -> map fst kwargs = map fst (filter marked ps) ->
  (lacking ps kwargs = false <-> no_required ps).
Proof.
  intros D K. rewrite lacking_iff. unfold dkeys. rewrite K. split.
  - intros H a I. specialize (H a I). apply in_map_iff in H as [[b m] [E J]]. cbn in E; subst b.
    apply filter_In in J as [J M]. rewrite <- (nodup_twice _ _ _ _ D I J) in M. discriminate M.
  - intros H a I. now destruct (H a).
Qed.

Lemma lacking_scheme ps b m more v : NoDup (map fst ps) -> ps = (b, m) :: more ->
  (lacking ps [(b, v)] = false <-> no_required more).
Proof.
  intros D ->. rewrite lacking_iff. cbn in D. apply NoDup_cons_iff in D as [N D]. split.
  - intros H a I. destruct (H a (or_intror I)) as [E|[]]. cbn in E; subst a. apply N. now apply (in_map fst) in I.
  - intros H a [E|I]; [injection E as -> _; now left|now destruct (H a)].
Qed.

Lemma perform_gives f kwargs st v st' : perform w f kwargs st = (Ret v, st') ->
  exists o, gives (length (calls st)) (w (length (calls st)) f kwargs) v o /\ st' = ext st [(f, kwargs)] o.
Proof.
  unfold perform, ext. destruct (w _ _ _) as [x|[x|]|e]; intros E; try discriminate; injection E as <- <-.
  - exists []. rewrite app_nil_r. split; [constructor|reflexivity].
  - eexists. split; [constructor|reflexivity].
  - exists []. rewrite app_nil_r. split; [constructor|reflexivity].
Qed.
Lemma gives_perform f kwargs st v o : gives (length (calls st)) (w (length (calls st)) f kwargs) v o ->
  perform w f kwargs st = (Ret v, ext st [(f, kwargs)] o).
Proof. unfold perform, ext. intros G; inversion G; subst; cbn; now rewrite ?app_nil_r. Qed.

Lemma scheme_sound d st v st' : scheme_call w tbl rq d st = (Ret v, st') ->
  exists fd b m more, nth_error tbl d = Some fd /\ f_kind fd <> Sync /\ f_params fd = (b, m) :: more /\ no_required more /\
    (w (length (calls st)) d [(b, VRequest rq)] = Returns v
     \/ (exists g, w (length (calls st)) d [(b, VRequest rq)] = Generator g) /\ v = VMade d [(b, VRequest rq)]) /\
    st' = ext st [(d, [(b, VRequest rq)])] [].
Proof.
  unfold scheme_call. destruct (nth_error tbl d) as [fd|] eqn:E; [|discriminate].
  destruct (f_params fd) as [|[b m] more] eqn:F; [discriminate|].
  destruct (lacking _ _) eqn:L; [discriminate|]. intros X.
  exists fd, b, m, more. split; [reflexivity|].
  rewrite <- F in L. apply (lacking_scheme _ b m more _ (P _ _ E) F) in L.
  unfold ext; rewrite app_nil_r.
  destruct (f_kind fd), (w _ _ _) as [x|g|e] eqn:W; try discriminate; injection X as <- <-;
    (split; [discriminate|]); (split; [exact F|]); (split; [exact L|]); (split; [|reflexivity]); eauto.
Qed.
Lemma scheme_complete d st v fd b m more : nth_error tbl d = Some fd -> f_kind fd <> Sync -> f_params fd = (b, m) :: more -> no_required more ->
    (w (length (calls st)) d [(b, VRequest rq)] = Returns v
     \/ (exists g, w (length (calls st)) d [(b, VRequest rq)] = Generator g) /\ v = VMade d [(b, VRequest rq)]) ->
  scheme_call w tbl rq d st = (Ret v, ext st [(d, [(b, VRequest rq)])] []).
Proof.
  intros E K F L W. unfold scheme_call. rewrite E, F.
  pose proof (P _ _ E) as D. pose proof (proj2 (lacking_scheme _ b m more (VRequest rq) D F) L) as X. rewrite F in X. rewrite X.
  unfold ext; rewrite app_nil_r.
  destruct W as [->|[[g ->] ->]]; destruct (f_kind fd); easy.
Qed.

Section W.
Variable sub : nat -> state -> option (outcome * state).
Hypothesis Sub : forall g st v st', sub g st = Some (Ret v, st') ->
  exists cs og, st' = ext st cs og /\ solved w tbl ov rq (length (calls st)) g v cs og.
Lemma walk_sound ps : forall kwargs st k' st', NoDup (map fst ps) -> (forall a, In a (map fst ps) -> ~ In a (dkeys kwargs)) ->
  walk sub w tbl ov rq ps kwargs st = Some (inl k', st') ->
  exists kw cs og, k' = kwargs ++ kw /\ st' = ext st cs og /\ supplied w tbl ov rq (length (calls st)) ps kw cs og.
Proof.
  induction ps as [|[a m] r IH]; intros kwargs st k' st' D F.
  - intros [= <- <-]. exists [], [], []. rewrite app_nil_r, ext_nil. repeat split. constructor.
  - cbn in D. apply NoDup_cons_iff in D as [N D].
    assert (F' : forall v b, In b (map fst r) -> ~ In b (dkeys (dset a v kwargs))).
    { intros v b I J. rewrite (dset_new _ _ _ (F a (or_introl eq_refl))) in J. unfold dkeys in J. rewrite map_app in J.
      apply in_app_or in J as [J|[J|[]]]; [exact (F b (or_intror I) J)|]. cbn in J; subst b. exact (N I). }
    assert (Fr : forall b, In b (map fst r) -> ~ In b (dkeys kwargs)) by (intros b I; exact (F b (or_intror I))).
    pose proof (fun v => dset_new kwargs a v (F a (or_introl eq_refl))) as New.
    cbn [walk]. destruct m as [| |d|d].
    + intros X. destruct (IH _ _ _ _ D Fr X) as (kw & cs & og & -> & -> & S). exists kw, cs, og. repeat split. now constructor.
    + intros X. destruct (IH _ _ _ _ D Fr X) as (kw & cs & og & -> & -> & S). exists kw, cs, og. repeat split. now constructor.
    + destruct (redirect ov d) as [g|v] eqn:R.
      * destruct (sub g st) as [[[v| |e] st1]|] eqn:Y; try discriminate. intros X.
        destruct (Sub _ _ _ _ Y) as (cs & og & -> & S1).
        destruct (IH _ _ _ _ D (F' v) X) as (kw & cs' & og' & -> & -> & S2). rewrite ext_length in S2.
        exists ((a, v) :: kw), (cs ++ cs'), (og ++ og'). rewrite New, <- app_assoc, ext_ext. repeat split.
        eapply supplied_resolved; eassumption.
      * intros X. destruct (IH _ _ _ _ D (F' v) X) as (kw & cs & og & -> & -> & S).
        exists ((a, v) :: kw), cs, og. rewrite New, <- app_assoc. repeat split. now apply supplied_replaced.
    + destruct (scheme_call w tbl rq d st) as [[v| |e] st1] eqn:Y; try discriminate. intros X.
      destruct (scheme_sound _ _ _ _ Y) as (fd & b & m & more & E & K & Fp & L & W & ->).
      destruct (IH _ _ _ _ D (F' v) X) as (kw & cs & og & -> & -> & S). rewrite ext_length in S. cbn [length] in S.
      rewrite Nat.add_1_r in S.
      exists ((a, v) :: kw), ((d, [(b, VRequest rq)]) :: cs), og. rewrite New, <- app_assoc, ext_ext. repeat split.
      eapply supplied_scheme; eassumption.
Qed.
End W.

Lemma resolve_sound n : forall f st v st', resolve n w tbl ov rq f st = Some (Ret v, st') ->
  exists cs og, st' = ext st cs og /\ solved w tbl ov rq (length (calls st)) f v cs og.
Proof.
  induction n as [|n IH]; intros f st v st'; [discriminate|]. cbn [resolve].
  destruct (nth_error tbl f) as [fd|] eqn:E; [|discriminate].
  destruct (walk _ _ _ _ _ _ _ _) as [[[k|o] st1]|] eqn:W; try discriminate.
  - destruct (walk_sound _ (fun g st v st' => IH g st v st') _ [] _ _ _ (P _ _ E) (fun a _ X => X) W) as (kw & cs & og & -> & -> & S).
    cbn [app]. unfold finish. destruct (lacking _ _) eqn:L; [discriminate|].
    apply (lacking_no_required _ _ (P _ _ E) (supplied_keys _ _ _ _ _ S)) in L.
    destruct (f_kind fd) eqn:K.
    + intros [= X]. destruct (perform_gives _ _ _ _ _ X) as (o & G & ->). rewrite ext_length in G.
      exists (cs ++ [(f, kw)]), (og ++ o). rewrite ext_ext. split; [reflexivity|]. eapply solved_call; eauto; congruence.
    + intros [= X]. destruct (perform_gives _ _ _ _ _ X) as (o & G & ->). rewrite ext_length in G.
      exists (cs ++ [(f, kw)]), (og ++ o). rewrite ext_ext. split; [reflexivity|]. eapply solved_call; eauto; congruence.
    + intros [= <- <-]. exists cs, og. split; [reflexivity|]. eapply solved_object; eauto.
  - intros [= -> ->]. exfalso. revert W. generalize (@nil (str * value)) st. induction (f_params fd) as [|[a m] r IHr]; intros k s; cbn [walk]; [discriminate|].
    destruct m as [| |d|d]; [apply IHr|apply IHr| |].
    + destruct (redirect ov d); [|apply IHr]. destruct (resolve n _ _ _ _ _ _) as [[[x| |e] s']|]; try discriminate. apply IHr.
    + destruct (scheme_call _ _ _ _ _) as [[x| |e] s']; try discriminate. apply IHr.
Qed.

Lemma complete :
  (forall t f v cs og, solved w tbl ov rq t f v cs og -> forall st, length (calls st) = t ->
     exists n0, forall n, (n0 <= n)%nat -> resolve n w tbl ov rq f st = Some (Ret v, ext st cs og)) /\
  (forall t ps kw cs og, supplied w tbl ov rq t ps kw cs og -> forall st, length (calls st) = t ->
     NoDup (map fst ps) ->
     exists n0, forall n, (n0 <= n)%nat -> forall kwargs, (forall a, In a (map fst ps) -> ~ In a (dkeys kwargs)) ->
       walk (fun g st => resolve n w tbl ov rq g st) w tbl ov rq ps kwargs st = Some (inl (kwargs ++ kw), ext st cs og)).
Proof.
  apply (solved_supplied w tbl ov rq
    (fun t f v cs og _ => forall st, length (calls st) = t ->
     exists n0, forall n, (n0 <= n)%nat -> resolve n w tbl ov rq f st = Some (Ret v, ext st cs og))
    (fun t ps kw cs og _ => forall st, length (calls st) = t ->
     NoDup (map fst ps) ->
     exists n0, forall n, (n0 <= n)%nat -> forall kwargs, (forall a, In a (map fst ps) -> ~ In a (dkeys kwargs)) ->
       walk (fun g st => resolve n w tbl ov rq g st) w tbl ov rq ps kwargs st = Some (inl (kwargs ++ kw), ext st cs og))).
  - intros t f fd kwargs cs og v o E K L S IH G st T.
    destruct (IH st T (P _ _ E)) as [n0 H]. exists (1 + n0)%nat. intros [|n] Ln; [lia|]. cbn [resolve]. rewrite E.
    rewrite H; [|lia|easy]. cbn [app]. unfold finish.
    apply (lacking_no_required _ _ (P _ _ E) (supplied_keys _ _ _ _ _ S)) in L. rewrite L.
    rewrite <- T, <- ext_length with (b := og) in G. apply gives_perform in G. rewrite ext_ext in G.
    destruct (f_kind fd); congruence.
  - intros t f fd kwargs cs og E K L S IH st T.
    destruct (IH st T (P _ _ E)) as [n0 H]. exists (1 + n0)%nat. intros [|n] Ln; [lia|]. cbn [resolve]. rewrite E.
    rewrite H; [|lia|easy]. cbn [app]. unfold finish.
    apply (lacking_no_required _ _ (P _ _ E) (supplied_keys _ _ _ _ _ S)) in L. now rewrite L, K.
  - intros t st T _. exists O. intros n _ kwargs _. cbn. now rewrite app_nil_r, ext_nil.
  - intros t a r kwargs cs og S IH st T D. cbn in D. apply NoDup_cons_iff in D as [N D].
    destruct (IH st T D) as [n0 H]. exists n0. intros n Ln k F. cbn [walk]. apply H; [exact Ln|]. intros b I. apply F. now right.
  - intros t a r kwargs cs og S IH st T D. cbn in D. apply NoDup_cons_iff in D as [N D].
    destruct (IH st T D) as [n0 H]. exists n0. intros n Ln k F. cbn [walk]. apply H; [exact Ln|]. intros b I. apply F. now right.
  - intros t a d fd b m more r v kwargs cs og E K Fp L W S IH st T D. cbn in D. apply NoDup_cons_iff in D as [N D].
    subst t. pose proof (scheme_complete _ _ _ _ _ _ _ E K Fp L W) as X.
    destruct (IH (ext st [(d, [(b, VRequest rq)])] [])) as [n0 H]; [rewrite ext_length; cbn; lia|exact D|].
    exists n0. intros n Ln k F. cbn [walk]. rewrite X, H; [|exact Ln|].
    + rewrite (dset_new _ _ _ (F a (or_introl eq_refl))), <- app_assoc, ext_ext. reflexivity.
    + intros c I J. rewrite (dset_new _ _ _ (F a (or_introl eq_refl))) in J. unfold dkeys in J. rewrite map_app in J.
      apply in_app_or in J as [J|[J|[]]]; [exact (F c (or_intror I) J)|]. cbn in J; subst c. exact (N I).
  - intros t a d r v kwargs cs og R S IH st T D. cbn in D. apply NoDup_cons_iff in D as [N D].
    destruct (IH st T D) as [n0 H]. exists n0. intros n Ln k F. cbn [walk]. rewrite R, H; [|exact Ln|].
    + rewrite (dset_new _ _ _ (F a (or_introl eq_refl))), <- app_assoc. reflexivity.
    + intros c I J. rewrite (dset_new _ _ _ (F a (or_introl eq_refl))) in J. unfold dkeys in J. rewrite map_app in J.
      apply in_app_or in J as [J|[J|[]]]; [exact (F c (or_intror I) J)|]. cbn in J; subst c. exact (N I).
  - intros t a d g r v kwargs cs og cs' og' R S IH1 S2 IH2 st T D. cbn in D. apply NoDup_cons_iff in D as [N D].
    destruct (IH1 st T) as [n1 H1].
    destruct (IH2 (ext st cs og)) as [n2 H2]; [rewrite ext_length; lia|exact D|].
    exists (n1 + n2)%nat. intros n Ln k F. cbn [walk]. rewrite R, H1 by lia. rewrite H2; [|lia|].
    + rewrite (dset_new _ _ _ (F a (or_introl eq_refl))), <- app_assoc, ext_ext. reflexivity.
    + intros c I J. rewrite (dset_new _ _ _ (F a (or_introl eq_refl))) in J. unfold dkeys in J. rewrite map_app in J.
      apply in_app_or in J as [J|[J|[]]]; [exact (F c (or_intror I) J)|]. cbn in J; subst c. exact (N I).
Qed.

(** Depth. *)
Lemma walk_ends sub ps : forall kwargs st,
  (forall a d g s, In (a, Resolve d) ps -> redirect ov d = TFn g -> sub g s <> None) -> walk sub w tbl ov rq ps kwargs st <> None.
Proof.
  induction ps as [|[a m] r IH]; intros kwargs st H; cbn [walk]; [discriminate|].
  assert (H' : forall a d g s, In (a, Resolve d) r -> redirect ov d = TFn g -> sub g s <> None)
    by (intros b d g s I R; exact (H b d g s (or_intror I) R)).
  destruct m as [| |d|d]; [now apply IH|now apply IH| |].
  - destruct (redirect ov d) as [g|v] eqn:R; [|now apply IH].
    pose proof (H a d g st (or_introl eq_refl) R) as X. destruct (sub g st) as [[[v| |e] s']|]; try easy. now apply IH.
  - destruct (scheme_call _ _ _ _ _) as [[v| |e] s']; try easy. now apply IH.
Qed.
Lemma resolve_ends rank : ranked tbl ov rank -> forall n f st, (rank f < n)%nat -> resolve n w tbl ov rq f st <> None.
Proof.
  intros R. induction n as [|n IH]; intros f st L; [lia|]. cbn [resolve].
  destruct (nth_error tbl f) as [fd|] eqn:E; [|discriminate].
  pose proof (walk_ends (fun g st => resolve n w tbl ov rq g st) (f_params fd) [] st) as X.
  destruct (walk _ _ _ _ _ _ _ _) as [[[k|o] s']|]; try discriminate.
  exfalso. apply X; [|reflexivity]. intros a d g s I Rd. apply IH.
  pose proof (proj2 (R f fd a d E) I g Rd). lia.
Qed.

(** Whatever happens, the calls made before [f] is called are calls of functions of lower rank. *)
Definition below (rank : nat -> nat) (f : nat) (c : nat * dict value) : Prop := (rank (fst c) < rank f)%nat.
Lemma scheme_calls d st o st' : scheme_call w tbl rq d st = (o, st') -> exists cs, calls st' = calls st ++ cs /\ (cs = [] \/ exists k, cs = [(d, k)]).
Proof.
  unfold scheme_call. destruct (nth_error tbl d) as [fd|]; [|intros [= <- <-]; exists []; rewrite app_nil_r; auto].
  destruct (f_params fd) as [|[b m] more]; [intros [= <- <-]; exists []; rewrite app_nil_r; auto|].
  destruct (lacking _ _); [intros [= <- <-]; exists []; rewrite app_nil_r; auto|].
  intros X. exists [(d, [(b, VRequest rq)])]. split; [|eauto].
  destruct (f_kind fd), (w _ _ _); injection X as <- <-; reflexivity.
Qed.
Lemma walk_below sub rank f ps : forall kwargs st x st',
  (forall a d g s o s', In (a, Resolve d) ps -> redirect ov d = TFn g -> sub g s = Some (o, s') ->
     exists cs, calls s' = calls s ++ cs /\ Forall (below rank f) cs) ->
  (forall a d, In (a, Security d) ps -> (rank d < rank f)%nat) ->
  walk sub w tbl ov rq ps kwargs st = Some (x, st') -> exists cs, calls st' = calls st ++ cs /\ Forall (below rank f) cs.
Proof.
  induction ps as [|[a m] r IH]; intros kwargs st x st' H Hs.
  - intros [= <- <-]. exists []. rewrite app_nil_r. auto.
  - assert (H' : forall a d g s o s', In (a, Resolve d) r -> redirect ov d = TFn g -> sub g s = Some (o, s') ->
       exists cs, calls s' = calls s ++ cs /\ Forall (below rank f) cs)
      by (intros b d g s o s' I; exact (H b d g s o s' (or_intror I))).
    assert (Hs' : forall a d, In (a, Security d) r -> (rank d < rank f)%nat) by (intros b d I; exact (Hs b d (or_intror I))).
    cbn [walk]. destruct m as [| |d|d]; [now apply IH|now apply IH| |].
    + destruct (redirect ov d) as [g|v] eqn:R; [|now apply IH].
      destruct (sub g st) as [[o s']|] eqn:Y; [|discriminate].
      destruct (H a d g st o s' (or_introl eq_refl) R Y) as (cs & E & F).
      destruct o as [v| |e]; [|intros [= <- <-]; eauto|intros [= <- <-]; eauto].
      intros X. destruct (IH _ _ _ _ H' Hs' X) as (cs' & E' & F'). exists (cs ++ cs'). rewrite E', E, app_assoc.
      split; [reflexivity|]. apply Forall_app; auto.
    + destruct (scheme_call _ _ _ _ _) as [o s'] eqn:Y. destruct (scheme_calls _ _ _ _ Y) as (cs & E & C).
      assert (F : Forall (below rank f) cs).
      { destruct C as [->|[k ->]]; [constructor|]. apply Forall_cons; [|constructor]. apply (Hs a d). now left. }
      destruct o as [v| |e]; [|intros [= <- <-]; eauto|intros [= <- <-]; eauto].
      intros X. destruct (IH _ _ _ _ H' Hs' X) as (cs' & E' & F'). exists (cs ++ cs'). rewrite E', E, app_assoc.
      split; [reflexivity|]. apply Forall_app; auto.
Qed.
Lemma perform_calls f k st o st' : perform w f k st = (o, st') -> calls st' = calls st ++ [(f, k)].
Proof. unfold perform. destruct (w _ _ _) as [x|[x|]|e]; intros [= <- <-]; reflexivity. Qed.
Lemma resolve_calls rank : ranked tbl ov rank -> forall n f st o st', resolve n w tbl ov rq f st = Some (o, st') ->
  exists cs, calls st' = calls st ++ cs /\
    (Forall (below rank f) cs \/
     exists cs' kw og, cs = cs' ++ [(f, kw)] /\ Forall (below rank f) cs' /\
       exists fd, nth_error tbl f = Some fd /\ supplied w tbl ov rq (length (calls st)) (f_params fd) kw cs' og).
Proof.
  intros R. induction n as [|n IH]; intros f st o st'; [discriminate|]. cbn [resolve].
  destruct (nth_error tbl f) as [fd|] eqn:E; [|intros [= <- <-]; exists []; rewrite app_nil_r; auto].
  destruct (walk _ _ _ _ _ _ _ _) as [[x st1]|] eqn:W; [|discriminate].
  assert (B : exists cs, calls st1 = calls st ++ cs /\ Forall (below rank f) cs).
  { eapply walk_below; [| |exact W].
    - intros a d g s o1 s' I Rd Y. destruct (IH _ _ _ _ Y) as (cs & Ec & [F|(cs' & kw & og & -> & F & _)]);
        pose proof (proj2 (R f fd a d E) I g Rd) as Lt.
      + exists cs. split; [exact Ec|]. eapply Forall_impl; [|exact F]. unfold below; intros; lia.
      + exists (cs' ++ [(g, kw)]). split; [exact Ec|]. apply Forall_app. split; [|apply Forall_cons; [exact Lt|constructor]].
        eapply Forall_impl; [|exact F]. unfold below; intros; lia.
    - intros a d I. exact (proj1 (R f fd a d E) I). }
  destruct B as (cs & Ec & F). destruct x as [k|o1]; [|intros [= <- <-]; eauto].
  destruct (walk_sound _ (fun g st v st' => resolve_sound n g st v st') _ [] _ _ _ (P _ _ E) (fun a _ X => X) W) as (kw & cs2 & og & -> & -> & S).
  cbn [app]. cbn in Ec. apply app_inv_head in Ec. subst cs2.
  unfold finish. destruct (lacking _ _); [intros [= <- <-]; exists cs; auto|].
  destruct (f_kind fd); try (intros [= X]; apply perform_calls in X; exists (cs ++ [(f, kw)]); rewrite X; cbn; rewrite app_assoc;
    (split; [reflexivity|]); right; exists cs, kw, og; (split; [reflexivity|]); (split; [exact F|]); eauto).
  intros [= <- <-]. exists cs; auto.
Qed.
End R.
