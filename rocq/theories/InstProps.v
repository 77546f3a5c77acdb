(** C259: each request of a controller is served as if it were alone.  C260: the same behind middlewares and
    permissions.  C261: which guards a controller can have. *)
From Coq Require Import Lia.
From Verif Require Import PyStr PyStrFacts InstModel InstSpec.

Lemma nth_put_same {X} i (x : X) l : (i < length l)%nat -> nth_error (put i x l) i = Some x.
Proof. revert i. induction l as [|y l IH]; intros [|i] H; cbn in *; try lia; [easy | apply IH; lia]. Qed.
Lemma nth_put_other {X} i j (x : X) l : i <> j -> nth_error (put i x l) j = nth_error l j.
Proof. revert i j. induction l as [|y l IH]; intros [|i] [|j] H; cbn in *; try easy. apply IH. congruence. Qed.
Lemma nth_some_lt {X} (l : list X) i x : nth_error l i = Some x -> (i < length l)%nat.
Proof. intros H. apply nth_error_Some. congruence. Qed.

Section Props.
  Context {request V A error response : Type}.
  Variable c : class request V A error response.

  Lemma bind_with_bound q s a : bind c q s a = with_bound c q (bound_names s) a.
  Proof.
    unfold bound_names. revert a. induction s as [|[n [|]] s IH]; intros a; cbn; [easy| |apply IH].
    destruct (bound_value c q n); [apply IH | easy].
  Qed.

  (** A task that ticks alone. *)
  Fixpoint ticks (n : nat) (x : task * object) : task * object :=
    match n with 0%nat => x | S n' => ticks n' (tick c (fst x) (snd x)) end.
  Lemma ticks_add m n x : ticks (m + n) x = ticks n (ticks m x).
  Proof. revert x. induction m as [|m IH]; intros x; cbn; [easy | apply IH]. Qed.
  Lemma ticks_S n x : ticks (S n) x = tick c (fst (ticks n x)) (snd (ticks n x)).
  Proof. replace (S n) with (n + 1)%nat by lia. now rewrite ticks_add. Qed.
  Lemma ticks_over n r o : fst (ticks n (Over r, o)) = Over r.
  Proof. revert o. induction n as [|n IH]; intros o; cbn; [easy | apply IH]. Qed.
  Lemma over_stays m n x r : fst (ticks m x) = Over r -> (m <= n)%nat -> fst (ticks n x) = Over r.
  Proof.
    intros H L. replace n with (m + (n - m))%nat by lia. rewrite ticks_add.
    destruct (ticks m x) as [t o]. cbn in H. subst t. apply ticks_over.
  Qed.

  Lemma code_ends p o : exists n, fst (ticks n (Running p, o)) = Over (finish p (o_attrs o)).
  Proof.
    revert o. induction p as [f | f k IH]; intros o.
    - exists 1%nat. reflexivity.
    - destruct (IH (o_attrs o) {| o_signature := o_signature o; o_scope := o_scope o; o_attrs := f (o_attrs o) |}) as [n H].
      exists (S n). cbn. exact H.
  Qed.

  Lemma alone q o : o_attrs o = init c -> exists n, fst (ticks n (New q, o)) = Over (serve c q).
  Proof.
    intros Ia. unfold serve. destruct (pick c q) as [[h s]|] eqn:Pk.
    - destruct (provided c q s) as [a|e] eqn:Pr.
      + rewrite <- bind_with_bound. destruct (bind c q s a) as [a'|e] eqn:B.
        * destruct (code_ends (body c h (if smem (u "request") (map fst s) then dset (u "request") (the_request c q) a' else a'))
                      {| o_signature := Some s; o_scope := Some q; o_attrs := o_attrs o |}) as [n H].
          exists (2 + n)%nat. rewrite ticks_add. cbn [ticks fst snd tick]. unfold handler. rewrite Pk. cbn [fst snd tick o_signature]. rewrite Pr, B.
          cbn [o_attrs] in H. rewrite Ia in H at 2. exact H.
        * exists 2%nat. cbn [ticks fst snd tick]. unfold handler. rewrite Pk. cbn [fst snd tick o_signature]. now rewrite Pr, B.
      + exists 2%nat. cbn [ticks fst snd tick]. unfold handler. rewrite Pk. cbn [fst snd tick]. now rewrite Pr.
    - exists 2%nat. cbn [ticks fst snd tick]. unfold handler. rewrite Pk. cbn [fst snd tick]. now destruct (provided c q []).
  Qed.
  Lemma only_alone q o n r : o_attrs o = init c -> fst (ticks n (New q, o)) = Over r -> r = serve c q.
  Proof.
    intros Ia H. destruct (alone q o Ia) as [m M].
    pose proof (over_stays n (n + m) _ _ H ltac:(lia)) as H1. pose proof (over_stays m (n + m) _ _ M ltac:(lia)) as H2. congruence.
  Qed.

  (** Without guards. *)
  Lemma own_task sched : forall w i x, nth_error (tasks w) i = Some x ->
    nth_error (tasks (fold_left (step c false) sched w)) i = Some (ticks (count_occ Nat.eq_dec sched i) x).
  Proof.
    induction sched as [|j sched IH]; intros w i x H; cbn [fold_left count_occ]; [exact H|].
    unfold step at 2. destruct (nth_error (tasks w) j) as [[t own]|] eqn:J.
    - destruct (tick c t own) as [t' o'] eqn:T. destruct (Nat.eq_dec j i) as [-> | N'].
      + rewrite H in J. inversion J; subst x. cbn [ticks fst snd]. rewrite T. apply IH. cbn. apply nth_put_same. now apply nth_some_lt in H.
      + apply IH. cbn. rewrite nth_put_other; [exact H | congruence].
    - destruct (Nat.eq_dec j i) as [-> | N']; [congruence|]. now apply IH.
  Qed.
  Lemma nth_start qs i q : nth_error qs i = Some q -> nth_error (tasks (start c qs)) i = Some (New q, new c).
  Proof. intros H. cbn. now rewrite nth_error_map, H. Qed.

  (** C259: without middlewares and permissions, for all lists of requests and all interleavings. *)
  Theorem C259_alone : forall qs, isolated c false qs.
  Proof.
    intros qs i q Q. pose proof (fun sched => own_task sched _ _ _ (nth_start qs i q Q)) as T. split.
    - intros sched o. unfold result, run. rewrite T. destruct (ticks _ _) as [t ob] eqn:E. intros R.
      apply (only_alone q (new c) (count_occ Nat.eq_dec sched i)); [easy|]. rewrite E. cbn. destruct t; try discriminate. congruence.
    - destruct (alone q (new c) eq_refl) as [n H]. exists n. intros sched L. unfold result, run. rewrite T.
      pose proof (over_stays _ _ _ _ H L) as O. revert O. destruct (ticks (count_occ Nat.eq_dec sched i) (New q, new c)) as [t ob]. cbn [fst]. now intros ->.
  Qed.

  (** The object that a task alone works with, once it has begun. *)
  Hypothesis Reads : forall h a, reads_only (body c h a).
  Definition mine (q : request) : object := {| o_signature := Some (snd (handler c q)); o_scope := Some q; o_attrs := init c |}.
  Definition calm (t : task (request := request) (V := V) (A := A) (error := error) (response := response)) : Prop :=
    match t with New _ => False | Running p => reads_only p | _ => True end.
  Lemma calm_tick t o : calm t -> calm (fst (tick c t o)) /\ snd (tick c t o) = o.
  Proof.
    destruct t as [q|q h [a|e]|[f|f k]|r]; cbn; try easy.
    - intros _. destruct (bind c q _ a); cbn; [|easy]. destruct h; cbn; [|easy]. split; [apply Reads | easy].
    - intros H. inversion H; subst. split; [easy|]. destruct o; cbn. now f_equal.
  Qed.
  Lemma begun q n : calm (fst (ticks (S n) (New q, new c))) /\ snd (ticks (S n) (New q, new c)) = mine q.
  Proof.
    induction n as [|n [C M]].
    - cbn. unfold mine. destruct (handler c q). cbn. easy.
    - rewrite ticks_S. destruct (ticks (S n) (New q, new c)) as [t o]. cbn [fst snd] in *. subst o.
      pose proof (calm_tick t (mine q) C) as [C' ->]. easy.
  Qed.
  Definition state_after (q : request) (n : nat) := fst (ticks n (New q, new c)).
  (** What a tick does depends on the signature, on whether there is an application, and on the attributes. *)
  Lemma tick_alike q n o : (o_signature o = Some (snd (handler c q)) /\ (exists q', o_scope o = Some q' /\ in_app c q' = in_app c q)) \/ n = 0%nat ->
    o_attrs o = init c -> fst (tick c (state_after q n) o) = state_after q (S n).
  Proof.
    intros H Ia. unfold state_after. rewrite ticks_S. destruct n as [|n].
    - cbn. now destruct (handler c q).
    - destruct H as [[Si [q' [Sc In_]]]|]; [|easy]. destruct (begun q n) as [_ ->].
      destruct (fst (ticks (S n) (New q, new c))) as [q0|q0 h [a|e]|[f|f k]|r]; cbn; try easy.
      + now destruct (handler c q0).
      + rewrite Si. destruct (bind c q0 _ a); [|easy]. destruct h; [easy|]. now rewrite Sc, In_.
      + now rewrite Ia.
      + now rewrite Ia.
  Qed.
  Lemma tick_object q n o : o_attrs o = init c ->
    snd (tick c (state_after q n) o) = match n with 0%nat => mine q | S _ => o end.
  Proof.
    intros Ia. destruct n as [|n].
    - cbn. unfold mine. destruct (handler c q). cbn. now rewrite Ia.
    - apply calm_tick. apply begun.
  Qed.

  (** All handlers that the requests choose have the same signature. *)
  Definition same_signatures (qs : list request) : Prop :=
    forall q q', In q qs -> In q' qs -> snd (handler c q) = snd (handler c q') /\ in_app c q = in_app c q'.
  Lemma shared_tasks qs : same_signatures qs -> forall sched,
    let w := run c true qs sched in
    o_attrs (common w) = init c /\
    (forall i q, nth_error qs i = Some q -> nth_error (tasks w) i = Some (state_after q (count_occ Nat.eq_dec sched i), new c)) /\
    (forall i q, nth_error qs i = Some q -> (0 < count_occ Nat.eq_dec sched i)%nat ->
       exists q', In q' qs /\ common w = mine q') /\ length (tasks w) = length qs.
  Proof.
    intros Same. induction sched as [|i sched IH] using rev_ind; cbn zeta.
    - refine (conj eq_refl (conj _ (conj _ _))).
      + intros i q Q. apply (nth_start qs i q Q).
      + cbn. lia.
      + cbn. apply map_length.
    - unfold run in *. rewrite fold_left_app. cbn [fold_left]. cbn zeta in IH. set (w := fold_left (step c true) sched (start c qs)) in *.
      destruct IH as [Ia [T [M L]]].
      assert (Cnt : forall j, count_occ Nat.eq_dec (sched ++ [i]) j = (count_occ Nat.eq_dec sched j + if Nat.eq_dec i j then 1 else 0)%nat).
      { intros j. rewrite count_occ_app. cbn. now destruct (Nat.eq_dec i j). }
      unfold step. destruct (nth_error qs i) as [q|] eqn:Q.
      + rewrite (T i q Q).
        assert (Iq : In q qs) by (eapply nth_error_In; exact Q).
        pose proof (tick_object q (count_occ Nat.eq_dec sched i) (common w) Ia) as Ob.
        assert (Nx : fst (tick c (state_after q (count_occ Nat.eq_dec sched i)) (common w)) = state_after q (S (count_occ Nat.eq_dec sched i))).
        { apply tick_alike; [|exact Ia]. destruct (count_occ Nat.eq_dec sched i) as [|n] eqn:C; [now right|left].
          destruct (M i q Q ltac:(lia)) as [q' [Iq' ->]]. cbn. destruct (Same q' q Iq' Iq) as [-> E]. eauto. }
        destruct (tick c _ (common w)) as [t' o']. cbn [fst snd] in *. subst t' o'. cbn [common tasks].
        refine (conj _ (conj _ (conj _ _))).
        * destruct (count_occ Nat.eq_dec sched i); [reflexivity | exact Ia].
        * intros j q' Q'. rewrite Cnt. destruct (Nat.eq_dec i j) as [<- | N'].
          -- rewrite nth_put_same; [|apply nth_some_lt in Q; lia]. rewrite Nat.add_1_r. congruence.
          -- rewrite nth_put_other; [|exact N']. rewrite Nat.add_0_r. now apply T.
        * intros j q' Q' _. destruct (count_occ Nat.eq_dec sched i) eqn:C; [eauto|]. apply (M i q Q). lia.
        * rewrite <- L. clear. generalize (tasks w) as l. intros l. generalize (state_after q (S (count_occ Nat.eq_dec sched i)), new c) as x.
          intros x. revert i. induction l as [|y l IH]; intros [|i]; cbn; congruence.
      + replace (nth_error (tasks w) i) with (@None (@task request V A error response * @object request A)).
        * refine (conj Ia (conj _ (conj _ L))); intros j q' Q'; rewrite Cnt; destruct (Nat.eq_dec i j) as [<- | N']; try congruence; rewrite Nat.add_0_r.
          -- now apply T.
          -- now apply (M j q').
        * symmetry. apply nth_error_None. rewrite L. now apply nth_error_None.
  Qed.

  (** C260: behind a guard, if the handlers do not change the object and the requests that come ask for handlers of
      one signature. *)
  Lemma same_isolated qs : same_signatures qs -> isolated c true qs.
  Proof.
    intros Same i q Q. split.
    - intros sched o. destruct (shared_tasks qs Same sched) as [_ [T _]]. unfold result. rewrite (T i q Q). intros R.
      apply (only_alone q (new c) (count_occ Nat.eq_dec sched i)); [easy|]. fold (state_after q (count_occ Nat.eq_dec sched i)).
      destruct (state_after q _); try discriminate. congruence.
    - destruct (alone q (new c) eq_refl) as [n H]. exists n. intros sched L. destruct (shared_tasks qs Same sched) as [_ [T _]].
      unfold result. rewrite (T i q Q). pose proof (over_stays _ _ _ _ H L) as O. unfold state_after. now rewrite O.
  Qed.

  (** One request after the other. *)
  Definition turns (blocks : list (nat * nat)) : list nat := flat_map (fun b => repeat (fst b) (snd b)) blocks.
  Lemma one_turn i q : forall n w own, o_attrs (common w) = init c -> nth_error (tasks w) i = Some (New q, own) ->
    let w' := fold_left (step c true) (repeat i n) w in
    o_attrs (common w') = init c /\ nth_error (tasks w') i = Some (state_after q n, own) /\
    (forall j, j <> i -> nth_error (tasks w') j = nth_error (tasks w) j) /\ (n = 0%nat \/ common w' = mine q).
  Proof.
    induction n as [|n IH]; intros w own Ia H; cbn zeta.
    - cbn. unfold state_after. cbn. repeat split; auto.
    - replace (repeat i (S n)) with (repeat i n ++ [i]) by (clear; induction n as [|n IH]; cbn in *; congruence).
      rewrite fold_left_app. cbn [fold_left]. destruct (IH w own Ia H) as [Ia' [T [O C]]]. set (w' := fold_left _ (repeat i n) w) in *.
      unfold step. rewrite T. pose proof (tick_object q n (common w') Ia') as Ob.
      assert (Nx : fst (tick c (state_after q n) (common w')) = state_after q (S n)).
      { apply tick_alike; [|exact Ia']. destruct C as [-> | ->]; [now right|left]. cbn. split; [easy|]. now exists q. }
      destruct (tick c (state_after q n) (common w')) as [t' o']. cbn [fst snd] in *. subst t' o'. cbn [common tasks].
      assert (E : match n with 0%nat => mine q | S _ => common w' end = mine q) by (destruct n; [easy|]; destruct C; [discriminate | easy]).
      rewrite E. refine (conj eq_refl (conj _ (conj _ (or_intror eq_refl)))).
      + apply nth_put_same. now apply nth_some_lt in T.
      + intros j J. rewrite nth_put_other; [|congruence]. now apply O.
  Qed.
  Lemma all_turns blocks : NoDup (map fst blocks) -> forall w, o_attrs (common w) = init c ->
    (forall i, In i (map fst blocks) -> forall x, nth_error (tasks w) i = Some x -> exists q, x = (New q, new c)) ->
    forall i q, nth_error (tasks w) i = Some (New q, new c) ->
      nth_error (tasks (fold_left (step c true) (turns blocks) w)) i = Some (state_after q (count_occ Nat.eq_dec (turns blocks) i), new c).
  Proof.
    induction blocks as [|[j n] blocks IH]; intros ND w Ia Fresh i q H; [exact H|].
    change (turns ((j, n) :: blocks)) with (repeat j n ++ turns blocks). rewrite fold_left_app, count_occ_app. cbn in ND. inversion ND as [|? ? N1 N2]; subst.
    assert (Nj : forall k, ~ In k (map fst blocks) -> count_occ Nat.eq_dec (turns blocks) k = 0%nat).
    { intros k K. apply count_occ_not_In. intros I. unfold turns in I. apply in_flat_map in I. destruct I as [[k' m] [I1 I2]]. cbn in I2.
      apply repeat_spec in I2. subst k'. apply K. apply in_map_iff. now exists (k, m). }
    assert (Cj : forall k, count_occ Nat.eq_dec (repeat j n) k = if Nat.eq_dec j k then n else 0%nat).
    { intros k. clear. induction n as [|n IH]; cbn; [now destruct (Nat.eq_dec j k)|]. rewrite IH. now destruct (Nat.eq_dec j k). }
    assert (Later : forall w', o_attrs (common w') = init c -> (forall k, k <> j -> nth_error (tasks w') k = nth_error (tasks w) k) -> i <> j ->
      nth_error (tasks (fold_left (step c true) (turns blocks) w')) i = Some (state_after q (count_occ Nat.eq_dec (turns blocks) i), new c)).
    { intros w' Ia' O Nij. apply IH; try assumption.
      - intros k K x X. apply (Fresh k); [now right|]. rewrite <- O; [exact X|]. congruence.
      - now rewrite O. }
    destruct (nth_error (tasks w) j) as [x|] eqn:J.
    - destruct (Fresh j (or_introl eq_refl) x J) as [qj ->].
      destruct (one_turn j qj n w (new c) Ia J) as [Ia' [T [O _]]]. rewrite Cj. destruct (Nat.eq_dec j i) as [<- | Nij].
      + rewrite (Nj j N1), Nat.add_0_r. rewrite J in H. inversion H; subst qj. rewrite <- T.
        generalize dependent (fold_left (step c true) (repeat j n) w). intros w' Ia' T O.
        (* no later step touches this task *)
        assert (U : forall s v, ~ In j s -> nth_error (tasks (fold_left (step c true) s v)) j = nth_error (tasks v) j).
        { clear. induction s as [|k s IH]; intros v K; cbn; [easy|]. rewrite IH; [|intros I; apply K; now right].
          unfold step. destruct (nth_error (tasks v) k) as [[t own]|]; [|easy]. destruct (tick c t (common v)). cbn.
          apply nth_put_other. intros ->. apply K. now left. }
        apply U. intros I. apply (count_occ_In Nat.eq_dec) in I. rewrite (Nj j N1) in I. lia.
      + cbn. apply Later; [exact Ia' | exact O | congruence].
    - assert (Nij : i <> j) by congruence. rewrite Cj. destruct (Nat.eq_dec j i) as [|_]; [congruence|]. cbn.
      replace (fold_left (step c true) (repeat j n) w) with w; [now apply Later|].
      clear - J. induction n as [|n IH]; cbn; [easy|]. unfold step at 2. now rewrite J.
  Qed.
  (** Requests one after the other, each with as many steps as the schedule gives it. *)
  Definition isolated_in_turns (qs : list request) : Prop :=
    forall i q, nth_error qs i = Some q ->
      (forall blocks o, NoDup (map fst blocks) -> result (run c true qs (turns blocks)) i = Some o -> o = serve c q) /\
      exists n, forall blocks, NoDup (map fst blocks) -> (n <= count_occ Nat.eq_dec (turns blocks) i)%nat ->
        result (run c true qs (turns blocks)) i = Some (serve c q).
  Lemma turns_isolated qs : isolated_in_turns qs.
  Proof.
    intros i q Q.
    assert (T : forall blocks, NoDup (map fst blocks) ->
              nth_error (tasks (run c true qs (turns blocks))) i = Some (state_after q (count_occ Nat.eq_dec (turns blocks) i), new c)).
    { intros blocks ND. unfold run. apply all_turns; [exact ND | reflexivity | | now apply nth_start].
      intros j _ x X. cbn in X. rewrite nth_error_map in X. destruct (nth_error qs j) as [q'|]; [|discriminate]. cbn in X. inversion X. eauto. }
    split.
    - intros blocks o ND. unfold result. rewrite (T blocks ND). intros R. apply (only_alone q (new c) (count_occ Nat.eq_dec (turns blocks) i)); [easy|].
      fold (state_after q (count_occ Nat.eq_dec (turns blocks) i)). destruct (state_after q _); try discriminate. congruence.
    - destruct (alone q (new c) eq_refl) as [n H]. exists n. intros blocks ND L. unfold result. rewrite (T blocks ND).
      pose proof (over_stays _ _ _ _ H L) as O. unfold state_after. now rewrite O.
  Qed.
End Props.

(** C260, full statement: middlewares and permissions make no difference. *)
Definition C260_statement : Prop :=
  forall (request V A error response : Type) (c : class request V A error response) qs, isolated c true qs.

Theorem C260_same_partial : forall (request V A error response : Type) (c : class request V A error response) qs,
  (forall h a, reads_only (body c h a)) -> same_signatures c qs -> isolated c true qs.
Proof. intros request V A error response c qs R S_. now apply same_isolated. Qed.
Theorem C260_turns_partial : forall (request V A error response : Type) (c : class request V A error response) qs,
  (forall h a, reads_only (body c h a)) -> isolated_in_turns c qs.
Proof. intros request V A error response c qs R. now apply turns_isolated. Qed.

(** A controller with [get(self, token=Query())] and [post(self)]: the value of [token] is what the client sent; without it the
    function sees the marker of the query in its place.  The requests: 0 is a GET, 1 a POST, 2 a PUT. *)
Definition ex_class : class nat str unit str (option str) := {|
  pick := fun q => match q with 0%nat => Some (0%nat, [(u "token", Bound)]) | 1%nat => Some (1%nat, []) | _ => None end;
  body := fun h a => Return (fun _ => Answer (dget (u "token") a)); init := tt; in_app := fun _ => true;
  provided := fun _ _ => inl []; bound_value := fun _ _ => inl (u "s3cret"); the_request := fun _ => u "request" |}.
(** The GET waits for its dependencies, the POST begins, the GET goes on: with the signature of the POST. *)
Theorem C260_overlap_refuted :
  result (run ex_class true [0%nat; 1%nat] [0%nat; 1%nat; 0%nat; 0%nat]) 0 = Some (Answer None) /\
  serve ex_class 0%nat = Answer (Some (u "s3cret")) /\ (forall h a, reads_only (body ex_class h a)) /\ ~ isolated ex_class true [0%nat; 1%nat].
Proof.
  assert (E : result (run ex_class true [0%nat; 1%nat] [0%nat; 1%nat; 0%nat; 0%nat]) 0 = Some (Answer None)) by reflexivity.
  refine (conj E (conj eq_refl (conj _ _))).
  - intros h a. constructor.
  - intros H. destruct (H 0%nat 0%nat eq_refl) as [S_ _]. specialize (S_ _ _ E). discriminate S_.
Qed.
(** A handler that counts on [self]: the second request sees what the first one left, although they do not overlap. *)
Definition ex_counter : class nat str nat str nat := {|
  pick := fun _ => Some (0%nat, []); body := fun _ _ => Do S (fun _ => Return (fun n => Answer n)); init := 0%nat; in_app := fun _ => true;
  provided := fun _ _ => inl []; bound_value := fun _ _ => inl []; the_request := fun _ => [] |}.
Theorem C260_leak_refuted :
  result (run ex_counter true [0%nat; 0%nat] (turns [(0%nat, 4%nat); (1%nat, 4%nat)])) 1 = Some (Answer 2%nat) /\
  serve ex_counter 0%nat = Answer 1%nat /\ ~ C260_statement.
Proof.
  assert (E : result (run ex_counter true [0%nat; 0%nat] (turns [(0%nat, 4%nat); (1%nat, 4%nat)])) 1 = Some (Answer 2%nat)) by reflexivity.
  refine (conj E (conj eq_refl _)). intros H. destruct (H _ _ _ _ _ ex_counter [0%nat; 0%nat] 1%nat 0%nat eq_refl) as [S_ _].
  specialize (S_ _ _ E). discriminate S_.
Qed.

(** C261, full statement: whatever lets a request pass can stand in front of a controller. *)
Definition C261_statement : Prop := forall k guards, reach k guards = Served.
(** For [Controller], and for what [with_init] makes of one: when the innermost guard is one of Lilya's protocols. *)
Theorem C261_http_partial : forall k guards g, k = Http \/ k = HttpFactory \/ k = SocketFactory ->
  reach k [] = Served /\ reach k (guards ++ [g]) = match g, k with OfProtocol, _ | _, SocketFactory => Served | _, _ => TypeFails end.
Proof. intros k guards g H. unfold reach. rewrite rev_app_distr. destruct H as [-> | [-> | -> ]]; destruct g; easy. Qed.
(** For [WebSocketController]: when it is not. *)
Theorem C261_socket_partial : forall guards g,
  reach Socket [] = Served /\ reach Socket (guards ++ [g]) = match g with Plain => Served | OfProtocol => NoRoute end.
Proof. intros guards g. unfold reach. rewrite rev_app_distr. now destruct g. Qed.
Theorem C261_refuted : reach Http [OfProtocol; Plain] = TypeFails /\ reach Socket [OfProtocol] = NoRoute /\ ~ C261_statement.
Proof. refine (conj eq_refl (conj eq_refl _)). intros H. specialize (H Socket [OfProtocol]). discriminate H. Qed.

Print Assumptions C259_alone.
Print Assumptions C260_same_partial.
Print Assumptions C260_turns_partial.
Print Assumptions C260_overlap_refuted.
Print Assumptions C260_leak_refuted.
Print Assumptions C261_http_partial.
Print Assumptions C261_socket_partial.
Print Assumptions C261_refuted.

(** The same schedule without guards; two GETs that overlap behind a guard; a 405. *)
Example C259_case : result (run ex_class false [0%nat; 1%nat; 2%nat] [0%nat; 1%nat; 2%nat; 0%nat; 0%nat; 2%nat]) 0 = Some (Answer (Some (u "s3cret")))
  /\ result (run ex_class false [0%nat; 1%nat; 2%nat] [0%nat; 1%nat; 2%nat; 0%nat; 0%nat; 2%nat]) 2 = Some (NotAllowed true).
Proof. easy. Qed.
Example C260_case : same_signatures ex_class [0%nat; 0%nat]
  /\ result (run ex_class true [0%nat; 0%nat] [0%nat; 1%nat; 0%nat; 0%nat]) 0 = Some (Answer (Some (u "s3cret")))
  /\ result (run ex_class true [1%nat; 0%nat] (turns [(1%nat, 3%nat); (0%nat, 3%nat)])) 1 = Some (Answer (Some (u "s3cret"))).
Proof. refine (conj _ (conj eq_refl eq_refl)). intros q q' [<- |[<- |[]]] [<- |[<- |[]]]; easy. Qed.
