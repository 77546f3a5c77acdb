(** C359, C360: how static files are configured and checked. *)
From Verif Require Import PyStr PyStrFacts SconfModel.

(** ** C359 *)
(** The first of some paths that is not a directory, and what it is reported as. *)
Definition first_bad (look : str -> kind) (ds : list str) (e : problem) : Prop :=
  exists before d after, ds = before ++ d :: after /\ (forall x, In x before -> look x = Directory)
    /\ ((look d = Missing /\ e = NotExisting d) \/ (look d = Other /\ e = NotDirectory d)).
Definition all_there (look : str -> kind) (ds : list str) : Prop := forall d, In d ds -> look d = Directory.
Lemma check_ok look ds : check_dirs look ds = None <-> all_there look ds.
Proof.
  induction ds as [|d ds IH]; cbn [check_dirs]; [split; [intros _ d []|reflexivity]|]. destruct (look d) eqn:L.
  - split; [discriminate|]. intros H. rewrite (H d (or_introl eq_refl)) in L. discriminate L.
  - rewrite IH. split; [intros H x [<- |I]; auto|intros H x I; apply H; right; exact I].
  - split; [discriminate|]. intros H. rewrite (H d (or_introl eq_refl)) in L. discriminate L.
Qed.
Lemma check_bad look ds e : check_dirs look ds = Some e <-> first_bad look ds e.
Proof.
  unfold first_bad. induction ds as [|d ds IH]; cbn [check_dirs].
  - split; [discriminate|]. intros (b & d & a & E & _). destruct b; discriminate E.
  - destruct (look d) eqn:L.
    + split; [intros H; injection H as <-; exists [], d, ds; split; [reflexivity|split; [intros x []|auto]]|].
      intros ([|x b] & y & a & E & B & K); [injection E as <- <-|injection E as <- E; rewrite (B d (or_introl eq_refl)) in L; discriminate L]. destruct K as [[_ ->]|[K _]]; [reflexivity|congruence].
    + rewrite IH. split.
      * intros (b & y & a & E & B & K). exists (d :: b), y, a. split; [rewrite E; reflexivity|split; [intros x [<- |I]; auto|exact K]].
      * intros ([|x b] & y & a & E & B & K); [injection E as <- <-; destruct K as [[K _]|[K _]]; congruence|]. injection E as <- E. exists b, y, a. split; [exact E|split; [intros z I; apply B; right; exact I|exact K]].
    + split; [intros H; injection H as <-; exists [], d, ds; split; [reflexivity|split; [intros x []|auto]]|].
      intros ([|x b] & y & a & E & B & K); [injection E as <- <-|injection E as <- E; rewrite (B d (or_introl eq_refl)) in L; discriminate L]. destruct K as [[K _]|[_ ->]]; [congruence|reflexivity].
Qed.
Lemma after_checked f looks : checked f = true -> Forall (fun e => e = None) (requests f looks).
Proof. revert f. induction looks as [|look looks IH]; intros f C; cbn [requests]; [constructor|]. unfold request. rewrite C. constructor; [reflexivity|exact (IH f C)]. Qed.
Lemma run_history f looks : checked f = false -> forall k look, nth_error looks k = Some look ->
  exists e, nth_error (requests f looks) k = Some e
  /\ (e = None <-> (given f = None \/ exists j l ds, (j <= k)%nat /\ nth_error looks j = Some l /\ given f = Some ds /\ all_there l ds))
  /\ (forall p, e = Some p <-> ((forall j l ds, (j < k)%nat -> nth_error looks j = Some l -> given f = Some ds -> ~ all_there l ds) /\ exists ds, given f = Some ds /\ first_bad look ds p)).
Proof.
  revert f. induction looks as [|l looks IH]; intros f C k look K; [destruct k; discriminate K|]. cbn [requests]. unfold request. rewrite C.
  destruct (given f) as [ds|] eqn:G.
  - destruct (check_dirs l ds) as [p0|] eqn:CD.
    + assert (NA : ~ all_there l ds) by (intros A; apply check_ok in A; congruence).
      destruct k as [|k]; cbn [nth_error] in *.
      * injection K as <-. exists (Some p0). refine (conj eq_refl (conj _ _)).
        -- split; [discriminate|]. intros [X|(j & l' & ds' & J & L & D & A)]; [discriminate X|]. destruct j; [|lia]. cbn in L. injection L as <-. injection D as <-. contradiction.
        -- intros p. split.
           ++ intros X. injection X as <-. split; [intros j l' ds' J; lia|]. exists ds. split; [reflexivity|apply check_bad; exact CD].
           ++ intros (_ & ds' & D & B). injection D as <-. apply check_bad in B. congruence.
      * destruct (IH f C k look K) as (e & E & S1 & S2). exists e. rewrite G in S1, S2. refine (conj E (conj _ _)).
        -- rewrite S1. split.
           ++ intros [X|(j & l' & ds' & J & L & D & A)]; [discriminate X|]. right. exists (S j), l', ds'. split; [lia|auto].
           ++ intros [X|(j & l' & ds' & J & L & D & A)]; [discriminate X|]. destruct j as [|j]; [cbn in L; injection L as <-; injection D as <-; contradiction|]. right. exists j, l', ds'. split; [lia|auto].
        -- intros p. rewrite S2. split; intros (N1 & R); (split; [|exact R]).
           ++ intros [|j] l' ds' J L D; [cbn in L; injection L as <-; injection D as <-; exact NA|]. apply (N1 j l' ds'); [lia|exact L|exact D].
           ++ intros j l' ds' J L D. apply (N1 (S j) l' ds'); [lia|exact L|exact D].
    + apply check_ok in CD. assert (OK : forall k, (k < length (l :: looks))%nat -> nth_error (@None problem :: requests {| given := Some ds; all_directories := all_directories f; checked := true |} looks) k = Some None).
      { intros [|n] LN; [reflexivity|]. cbn [nth_error length] in *. assert (LE : length (requests {| given := Some ds; all_directories := all_directories f; checked := true |} looks) = length looks).
        { generalize ({| given := Some ds; all_directories := all_directories f; checked := true |}). clear. induction looks as [|x r IH]; intros f; [reflexivity|]. cbn [requests length]. destruct (request f x). cbn [length]. rewrite IH. reflexivity. }
        destruct (nth_error (requests {| given := Some ds; all_directories := all_directories f; checked := true |} looks) n) as [x|] eqn:NE; [|apply nth_error_None in NE; lia].
        pose proof (after_checked {| given := Some ds; all_directories := all_directories f; checked := true |} looks eq_refl) as FA. rewrite Forall_forall in FA. rewrite (FA x (nth_error_In _ _ NE)). reflexivity. }
      exists None. refine (conj _ (conj _ _)).
      * apply OK. apply nth_error_Some. congruence.
      * split; [|reflexivity]. intros _. right. exists 0%nat, l, ds. split; [lia|auto].
      * intros p. split; [discriminate|]. intros (N1 & ds' & D & B). exfalso. injection D as <-. destruct k as [|k].
        -- cbn in K. injection K as <-. apply check_bad in B. apply check_ok in CD. congruence.
        -- exact (N1 0%nat l ds (Nat.lt_0_succ k) eq_refl eq_refl CD).
  - assert (OK : nth_error (@None problem :: requests {| given := None; all_directories := all_directories f; checked := true |} looks) k = Some None).
    { assert (LN : (k < length (l :: looks))%nat) by (apply nth_error_Some; congruence). destruct k as [|n]; [reflexivity|]. cbn [nth_error length] in *. assert (LE : length (requests {| given := None; all_directories := all_directories f; checked := true |} looks) = length looks).
      { generalize ({| given := @None (list str); all_directories := all_directories f; checked := true |}). clear. induction looks as [|x r IH]; intros f; [reflexivity|]. cbn [requests length]. destruct (request f x). cbn [length]. rewrite IH. reflexivity. }
      destruct (nth_error (requests {| given := None; all_directories := all_directories f; checked := true |} looks) n) as [x|] eqn:NE; [|apply nth_error_None in NE; lia].
      pose proof (after_checked {| given := None; all_directories := all_directories f; checked := true |} looks eq_refl) as FA. rewrite Forall_forall in FA. rewrite (FA x (nth_error_In _ _ NE)). reflexivity. }
    exists None. refine (conj OK (conj _ _)).
    + split; auto.
    + intros p. split; [discriminate|]. intros (_ & ds & D & _). discriminate D.
Qed.
(** With directories, a request is answered exactly if at its time or that of an earlier request all of them were there;
    else it fails and names the first that is not.  Without, every request is answered. *)
Theorem C359_checked : forall look0 locate directory packages check f looks k look,
  make look0 locate directory packages check = inl f -> nth_error looks k = Some look ->
  exists e, nth_error (requests f looks) k = Some e
  /\ (e = None <-> (exists j l, (j <= k)%nat /\ nth_error looks j = Some l /\ all_there l directory))
  /\ (forall p, e = Some p <-> ((forall j l, (j < k)%nat -> nth_error looks j = Some l -> ~ all_there l directory) /\ first_bad look directory p)).
Proof.
  intros look0 locate directory packages check f looks k look M K.
  assert (MF : exists ps, f = {| given := match directory with [] => None | _ => Some directory end; all_directories := directory ++ ps; checked := false |}).
  { unfold make in M. destruct (package_directories locate packages) as [ps|]; [|discriminate M]. cbn zeta in M. exists ps. destruct check; [|injection M as <-; reflexivity]. destruct (List.find _ directory); [discriminate M|injection M as <-; reflexivity]. }
  destruct MF as (ps & ->). destruct (run_history {| given := match directory with [] => None | _ => Some directory end; all_directories := directory ++ ps; checked := false |} looks eq_refl k look K) as (e & E & S1 & S2). exists e. refine (conj E _). cbn [given] in S1, S2. destruct directory as [|d0 ds].
  - split.
    + rewrite S1. split; [|auto]. intros _. exists k, look. split; [lia|split; [exact K|intros d []]].
    + intros p. rewrite S2. split; [intros (_ & ds & D & _); discriminate D|]. intros (_ & b & d & a & X & _). destruct b; discriminate X.
  - split.
    + rewrite S1. split; [intros [X|(j & l & ds' & J & L & D & A)]; [discriminate X|]; injection D as <-; eauto|intros (j & l & J & L & A); right; exists j, l, (d0 :: ds); auto].
    + intros p. rewrite S2. split.
      * intros (N1 & ds' & D & B). injection D as <-. split; [|exact B]. intros j l J L. exact (N1 j l _ J L eq_refl).
      * intros (N1 & B). split; [intros j l ds' J L D; injection D as <-; exact (N1 j l J L)|exists (d0 :: ds); auto].
Qed.
Print Assumptions C359_checked.
Definition early (d : str) : kind := if seqb d (u "/b") then Missing else Directory.
Definition later (d : str) : kind := Directory.
Definition gone (d : str) : kind := Missing.
Example C359_case : exists f, make gone (fun _ _ => None) [u "/a"; u "/b"] [] false = inl f /\ requests f [gone; early; later; gone] = [Some (NotExisting (u "/a")); Some (NotExisting (u "/b")); None; None].
Proof. eexists. split; reflexivity. Qed.

(** ** C360 *)
(** The directories of the packages, in order. *)
Definition located (locate : str -> str -> option str) (p : package) (d : str) : Prop :=
  match p with Named n => locate n (u "statics") = Some d | Within n s => locate n s = Some d end.
Lemma packages_ok locate ps ds : package_directories locate ps = inl ds <-> Forall2 (located locate) ps ds.
Proof.
  revert ds. induction ps as [|p ps IH]; intros ds; cbn [package_directories].
  - split; [intros H; injection H as <-; constructor|intros H; inversion H; reflexivity].
  - assert (L : forall n s, (let (name, d) := match p with Named name => (name, u "statics") | Within name d => (name, d) end in (name, d)) = (n, s) -> forall d, located locate p d <-> locate n s = Some d).
    { intros n s E d. destruct p; injection E as <- <-; reflexivity. }
    destruct (match p with Named name => (name, u "statics") | Within name d => (name, d) end) as [n s]. specialize (L n s eq_refl). destruct (locate n s) as [d|] eqn:LO.
    + destruct (package_directories locate ps) as [l|e].
      * split; [intros H; injection H as <-; constructor; [apply L; reflexivity|apply IH; reflexivity]|].
        intros H. inversion H as [|? d' ? ds' LD F]; subst. apply L in LD. injection LD as <-. apply IH in F. injection F as <-. reflexivity.
      * split; [discriminate|]. intros H. inversion H as [|? d' ? ds' LD F]; subst. apply IH in F. discriminate F.
    + split; [discriminate|]. intros H. inversion H as [|? d' ? ds' LD F]; subst. apply L in LD. discriminate LD.
Qed.
(** Static files can be made exactly if each package has its directory and, unless the check is turned off, each given
    directory is there; they are then looked for in the given directories and after them in those of the packages, in order. *)
Theorem C360_made : forall look locate directory packages check,
  (forall f, make look locate directory packages check = inl f -> exists ps, Forall2 (located locate) packages ps /\ all_directories f = directory ++ ps /\ (check = true -> all_there look directory))
  /\ (forall ps, Forall2 (located locate) packages ps -> (check = true -> all_there look directory) -> exists f, make look locate directory packages check = inl f).
Proof.
  intros look locate directory packages check.
  assert (FN : List.find (fun d => match look d with Directory => false | _ => true end) directory = None <-> all_there look directory).
  { split.
    - intros H d I. apply (List.find_none _ _ H) in I. destruct (look d); congruence.
    - intros A. destruct (List.find _ directory) as [d|] eqn:E; [|reflexivity]. apply List.find_some in E as [I E]. rewrite (A d I) in E. discriminate E. }
  split.
  - intros f M. unfold make in M. destruct (package_directories locate packages) as [ps|] eqn:P; [|discriminate M]. apply packages_ok in P. exists ps. split; [exact P|]. cbn zeta in M. destruct check.
    + destruct (List.find _ directory) eqn:E; [discriminate M|]. injection M as <-. split; [reflexivity|]. intros _. apply FN. reflexivity.
    + injection M as <-. split; [reflexivity|discriminate].
  - intros ps P A. apply packages_ok in P. unfold make. rewrite P. cbn zeta. destruct check; [|eauto]. rewrite (proj2 FN (A eq_refl)). eauto.
Qed.
Print Assumptions C360_made.
Definition site (p d : str) : option str := if seqb p (u "admin") then Some (u "/site/admin/" ++ d) else None.
Example C360_case : exists f, make later site [u "/a"] [Named (u "admin"); Within (u "admin") (u "css")] true = inl f /\ all_directories f = [u "/a"; u "/site/admin/statics"; u "/site/admin/css"]
  /\ make later site [] [Named (u "shop")] true = inr (NoPackage (u "shop")) /\ make early site [u "/b"] [] true = inr (NotExisting (u "/b")).
Proof. eexists. split; [reflexivity|split; [reflexivity|split; reflexivity]]. Qed.
