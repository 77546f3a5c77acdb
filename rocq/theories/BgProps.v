(** C100: background tasks. C101: listeners of events. *)
From Coq Require Import Permutation.
From Verif Require Import PyStr Asgi BgModel BgSpec PyStrFacts.

Section JobInd.
  Variable P : job -> Prop.
  Hypothesis HT : forall n, P (Task n).
  Hypothesis HS : forall g l, Forall P l -> P (Tasks g l).
  Fixpoint job_ind' (j : job) : P j :=
    match j with
    | Task n => HT n
    | Tasks g l => HS g l ((fix go (l : list job) : Forall P l := match l with [] => Forall_nil P | x :: l' => Forall_cons x (job_ind' x) (go l') end) l)
    end.
End JobInd.

Lemma shuffle_perm {A} (ls : list (list A)) t : shuffle ls t -> Permutation t (concat ls).
Proof.
  induction 1 as [ls H|a x l b t _ IH].
  - replace (concat ls) with (@nil A); [constructor|]. symmetry. induction ls as [|l ls IH]; cbn; [easy|].
    rewrite (H l (or_introl eq_refl)), IH; [easy|]. intros y I. apply H. now right.
  - rewrite concat_app in *. cbn in *. rewrite <- Permutation_middle. now constructor.
Qed.

Section Fine.
  Variable fine : nat -> bool.

  (** A job of which no task raises: it returns, and every task runs to its end exactly once. *)
  Lemma fine_runs j : (forall n, In n (tasks j) -> fine n = true) -> forall t b, runs fine j t b ->
    b = true /\ Permutation t (flat_map whole (tasks j)).
  Proof.
    induction j as [n|g l IH] using job_ind'; intros F t b H.
    - inversion H; subst; [easy|]. rewrite (F n) in *; [discriminate | now left].
    - cbn in *.
      assert (Each : forall j, In j l -> forall t b, runs fine j t b -> b = true /\ Permutation t (flat_map whole (tasks j))).
      { intros j I. rewrite Forall_forall in IH. apply (IH j I). intros n In'. apply F, in_flat_map. eauto. }
      clear IH F. inversion H as [| | ? ? ? O | ? ts ? O S | ? ts ? O S]; subst; clear H.
      + revert t b O. induction l as [|j l IH]; intros t b O; inversion O; subst; cbn.
        * easy.
        * match goal with R : runs fine j _ true, Q : in_order fine l _ _ |- _ => destruct (Each j (or_introl eq_refl) _ _ R) as [_ P]; destruct (IH (fun x I => Each x (or_intror I)) _ _ Q) as [-> P'] end.
          split; [easy|]. rewrite flat_map_app. now apply Permutation_app.
        * match goal with R : runs fine j _ false |- _ => destruct (Each j (or_introl eq_refl) _ _ R); discriminate end.
      + split; [easy|]. rewrite (shuffle_perm _ _ S). clear S. revert ts O. induction l as [|j l IH]; intros ts O; inversion O; subst; cbn; [easy|].
        rewrite flat_map_app. match goal with R : runs fine j ?t0 true |- _ => apply Permutation_app; [now apply (Each j (or_introl eq_refl) t0 true) | apply IH; auto] end. intros x I. apply Each. now right.
      + exfalso. assert (N : forall l ts r, (forall j, In j l -> forall t b, runs fine j t b -> b = true) -> some_raise fine l ts r -> r = false).
        { clear. induction l as [|j l IH]; intros ts r E H; inversion H; subst; auto.
          - match goal with R : runs fine j _ false |- _ => specialize (E j (or_introl eq_refl) _ _ R); discriminate end.
          - eapply IH; eauto. intros x I. apply E. now right. }
        specialize (N l ts true). discriminate N; [|exact O]. intros j I t' b' R. now apply (Each j I t' b').
  Qed.

  (** Some run exists. *)
  Lemma shuffle_concat {A} (ls : list (list A)) : shuffle ls (concat ls).
  Proof.
    assert (G : forall ls (done : list (list A)), (forall l, In l done -> l = []) -> shuffle (done ++ ls) (concat ls)).
    { induction ls0 as [|l ls' IH]; intros done D; cbn.
      - constructor. rewrite app_nil_r. exact D.
      - induction l as [|x l IHl]; cbn.
        + specialize (IH (done ++ [[]])). rewrite <- app_assoc in IH. apply IH. intros l [I|[<-|[]]]%in_app_iff; auto.
        + now constructor. }
    apply (G ls []). intros l [].
  Qed.
  Lemma some_run j : exists t b, runs fine j t b.
  Proof.
    induction j as [n|g l IH] using job_ind'.
    - destruct (fine n) eqn:F; do 2 eexists; [apply run_ok | apply run_fail]; auto.
    - destruct g.
      + assert (D : (exists ts, all_return fine l ts) \/ exists ts, some_raise fine l ts true).
        { induction IH as [|j l (t & b & R) _ [(ts & A)|(ts & A)]].
          - left. exists []. constructor.
          - destruct b; [left; eexists; econstructor; eauto|]. right.
            assert (B : exists r, some_raise fine l ts r).
            { clear -A. revert ts A. induction l as [|j l IH]; intros ts A; inversion A; subst; [eexists; constructor|].
              match goal with Q : all_return fine l _ |- _ => destruct (IH _ Q) as (r & S) end. exists r. eapply raise_cut with (t' := []); [rewrite app_nil_r; eauto | exact S]. }
            destruct B as (r & S). eexists. eapply raise_here; eauto.
          - right. eexists. eapply raise_cut with (t' := []); [rewrite app_nil_r; eauto | eauto]. }
        destruct D as [(ts & A)|(ts & A)]; do 2 eexists; [eapply run_group | eapply run_group_fails]; eauto; apply shuffle_concat.
      + assert (D : exists t b, in_order fine l t b).
        { induction IH as [|j l (t & b & R) _ (t' & b' & A)]; [do 2 eexists; constructor|]. destruct b; do 2 eexists; [eapply order_next | eapply order_stop]; eauto. }
        destruct D as (t & b & D). do 2 eexists. constructor. eauto.
  Qed.
End Fine.

(** ** C100 *)
Theorem C100_all_run : forall fine j, (forall n, In n (tasks j) -> fine n = true) ->
  (exists t b, runs fine j t b) /\ forall t b, runs fine j t b -> b = true /\ Permutation t (flat_map whole (tasks j)).
Proof. intros fine j F. split; [apply some_run | now apply fine_runs]. Qed.
Print Assumptions C100_all_run.

(** Tasks that are not a group run one after the other; the first that raises is the last. *)
Theorem C100_in_order : forall fine l1 l2 t b, runs fine (Tasks false (l1 ++ l2)) t b ->
  (exists t1 t2, t = t1 ++ t2 /\ runs fine (Tasks false l1) t1 true /\ runs fine (Tasks false l2) t2 b) \/
  (runs fine (Tasks false l1) t false /\ b = false).
Proof.
  intros fine l1 l2 t b H. inversion H as [| | ? ? ? O0 | |]; subst. clear H.
  revert t b O0. induction l1 as [|j l1 IH]; cbn; intros t b O.
  - left. exists [], t. repeat split; constructor; auto. constructor.
  - inversion O; subst.
    + match goal with Q : in_order fine (l1 ++ l2) _ _ |- _ => destruct (IH _ _ Q) as [(t3 & t4 & -> & A & B)|[A ->]] end.
      * left. exists (t1 ++ t3), t4. rewrite app_assoc. repeat split; auto. inversion A; subst. constructor. now constructor.
      * right. inversion A; subst. split; auto. constructor. now constructor.
    + right. split; auto. constructor. now constructor.
Qed.
Print Assumptions C100_in_order.
Lemma steps_ordered fine j : one_by_one j -> forall t b, runs fine j t b ->
  exists a rest, tasks j = a ++ rest /\
    ((b = true /\ rest = [] /\ t = flat_map whole a) \/ (exists n r, b = false /\ rest = n :: r /\ fine n = false /\ t = flat_map whole a ++ [Start n; Fail n])).
Proof.
  induction j as [n|g l IH] using job_ind'; cbn; intros O t b H.
  - inversion H; subst; [exists [n], [] | exists [], [n]]; split; auto. right. exists n, []. auto.
  - destruct O as [-> O]. inversion H as [| | ? ? ? O0 | |]; subst. clear H. revert t b O0. induction IH as [|j l J _ IHl]; intros t b R.
    + inversion R; subst. exists [], []. auto.
    + cbn in O. destruct O as [Oj Ol]. specialize (IHl Ol). inversion R; subst.
      * match goal with R1 : runs fine j _ true, Q1 : in_order fine l _ _ |- _ => rename R1 into H1; rename Q1 into H4 end. destruct (J Oj _ _ H1) as (a & rest & E & [(_ & -> & ->)|(n & r & X & _)]); [|discriminate]. rewrite app_nil_r in E.
        destruct (IHl _ _ H4) as (a' & rest' & E' & D). cbn. exists (a ++ a'), rest'. rewrite E, E'. split; [now rewrite app_assoc|].
        destruct D as [(-> & -> & ->)|(n & r & -> & -> & F & ->)]; [left | right; exists n, r]; rewrite flat_map_app; auto. rewrite app_assoc. auto.
      * match goal with R1 : runs fine j _ false |- _ => rename R1 into H3' end. destruct (J Oj _ _ H3') as (a & rest & E & [(X & _)|(n & r & _ & -> & F & ->)]); [discriminate|].
        cbn. exists a, ((n :: r) ++ flat_map tasks l). rewrite E. split; [now rewrite app_assoc|]. right. exists n, (r ++ flat_map tasks l). auto.
Qed.
(** Without groups: in the order written, each ending before the next starts; none after one that raises. *)
Theorem C100_one_by_one : forall fine j t b, one_by_one j -> runs fine j t b ->
  exists a rest, tasks j = a ++ rest /\
    ((b = true /\ rest = [] /\ t = flat_map whole a) \/ (exists n r, b = false /\ rest = n :: r /\ fine n = false /\ t = flat_map whole a ++ [Start n; Fail n])).
Proof. intros fine j t b O. apply steps_ordered. exact O. Qed.
Print Assumptions C100_one_by_one.

Example C100_case : runs (fun _ => true) (Tasks false [Task 1; Tasks true [Task 2; Task 3]; Task 4])
  [Start 1; End 1; Start 2; Start 3; End 3; End 2; Start 4; End 4] true.
Proof.
  constructor. apply (order_next _ _ _ [Start 1; End 1]); [now constructor|].
  apply (order_next _ _ _ [Start 2; Start 3; End 3; End 2] [Start 4; End 4]).
  - apply (run_group _ _ [[Start 2; End 2]; [Start 3; End 3]]); [constructor; [now constructor|]; constructor; [now constructor | constructor]|].
    apply (sh_step []). cbn. apply (sh_step [[End 2]]). cbn. apply (sh_step [[End 2]]). cbn. apply (sh_step []). cbn. constructor. intros l [<-|[<-|[]]]; easy.
  - apply (order_next _ _ _ [Start 4; End 4] []); [now constructor | constructor].
Qed.

(** The background tasks of a response run after both messages are sent and the cleanup is done, and only then. *)
Theorem C100_after_response : forall c m1 m2 bg,
  let '(t, b) := respond c m1 m2 bg in
  (forall e, In (Job e) t -> quiet_method c = false /\ exists tb ok, bg = Some (tb, ok) /\ t = [Msg m1; Msg m2; Clean] ++ map Job tb /\ b = ok) /\
  (content_ok c = true -> first_taken c = true -> second_taken c = true -> clean_ok c = true -> quiet_method c = false ->
     forall tb ok, bg = Some (tb, ok) -> t = [Msg m1; Msg m2; Clean] ++ map Job tb /\ b = ok) /\
  exists pre post, t = pre ++ [Clean] ++ post /\ ~ In Clean (pre ++ post).
Proof.
  assert (Cl : forall ms tb, exists pre post, map Msg ms ++ Clean :: map Job tb = pre ++ [Clean] ++ post /\ ~ In Clean (pre ++ post)).
  { intros ms tb. exists (map Msg ms), (map Job tb). split; [reflexivity|]. intros I. apply in_app_or in I as [I|I]; apply in_map_iff in I as (x & X & _); discriminate X. }
  assert (NJ : forall ms e, ~ In (Job e) (map Msg ms ++ [Clean])).
  { intros ms e I. apply in_app_or in I as [I|[I|[]]]; [apply in_map_iff in I as (x & X & _)|]; congruence. }
  intros [q co f s cl] m1 m2 bg. unfold respond. cbn [quiet_method content_ok first_taken second_taken clean_ok].
  destruct co; cbn [negb andb].
  2: { refine (conj _ (conj _ _)); [intros e I; destruct (NJ [] e I) | discriminate | exact (Cl [] [])]. }
  destruct f; cbn [negb andb].
  2: { refine (conj _ (conj _ _)); [intros e I; destruct (NJ [m1] e I) | discriminate | exact (Cl [m1] [])]. }
  destruct (s && cl) eqn:SC; cbn [negb].
  2: { refine (conj _ (conj _ _)); [intros e I; destruct (NJ [m1; m2] e I) | | exact (Cl [m1; m2] [])].
       intros _ _ -> ->. discriminate SC. }
  destruct bg as [[tb ok]|]; [destruct q|].
  - refine (conj _ (conj _ _)); [intros e I; destruct (NJ [m1; m2] e I) | discriminate | exact (Cl [m1; m2] [])].
  - refine (conj _ (conj _ _)); [intros e I | | exact (Cl [m1; m2] tb)].
    + split; [reflexivity|]. exists tb, ok. auto.
    + intros _ _ _ _ _ tb' ok' [= <- <-]. now split.
  - refine (conj _ (conj _ _)); [intros e I; destruct (NJ [m1; m2] e I) | discriminate | exact (Cl [m1; m2] [])].
Qed.
Print Assumptions C100_after_response.
Definition usual : call := {| quiet_method := false; content_ok := true; first_taken := true; second_taken := true; clean_ok := true |}.
Example C100_response_case : respond usual (AStart 200 []) (ABody [] false) (Some ([Start 1; Fail 1], false))
  = ([Msg (AStart 200 []); Msg (ABody [] false); Clean; Job (Start 1); Job (Fail 1)], false).
Proof. reflexivity. Qed.

(** ** C101 *)
Definition C101_statement : Prop := forall subs e args kwargs,
  emit e args kwargs (subscribed subs) = Some (map (expected args kwargs) (listeners_of e subs)).

Lemma subscribed_get subs e : match dget e (subscribed subs) with Some ls => ls | None => [] end = listeners_of e subs.
Proof.
  unfold subscribed. assert (G : forall d, match dget e (fold_left (fun d s => subscribe (fst s) (snd s) d) subs d) with Some ls => ls | None => [] end
    = match dget e d with Some ls => ls | None => [] end ++ listeners_of e subs).
  { induction subs as [|[e' l] subs IH]; intros d; cbn; [now rewrite app_nil_r|]. rewrite IH. unfold subscribe at 1. cbn [fst snd].
    unfold listeners_of. cbn [filter fst]. destruct (seqb e' e) eqn:E.
    - apply seqb_eq in E. subst e'. rewrite dget_dset_same. cbn. now rewrite <- app_assoc.
    - rewrite dget_dset_other; [easy|]. intros ->. rewrite seqb_refl in E. discriminate. }
  rewrite G. reflexivity.
Qed.
(** Each listener of the event is called once, in order, when there are no keyword arguments, or the listeners are
    coroutine functions that take them all. *)
Theorem C101_emit_partial : forall subs e args kwargs,
  kwargs = [] \/ (forall l, In l (listeners_of e subs) -> l_async l = true /\ l_kwargs l = true) ->
  emit e args kwargs (subscribed subs) = Some (map (expected args kwargs) (listeners_of e subs)).
Proof.
  intros subs e args kwargs H. unfold emit. rewrite subscribed_get. induction (listeners_of e subs) as [|l ls IH]; [easy|].
  cbn [calls_of map]. rewrite IH; [|destruct H as [H|H]; [auto | right; intros x I; apply H; now right]].
  assert (E : call_of l args kwargs = Some (expected args kwargs l)); [|now rewrite E].
  unfold call_of, expected, wanted. destruct H as [-> | H]; [|destruct (H l (or_introl eq_refl)) as [-> ->]; easy].
  destruct (l_async l), (l_kwargs l); reflexivity.
Qed.
Print Assumptions C101_emit_partial.
(** Listeners of other events are never called. *)
Theorem C101_only_its_own : forall subs e args kwargs cs c, emit e args kwargs (subscribed subs) = Some cs -> In c cs ->
  exists l, In (e, l) subs /\ by_id c = l_id l /\ with_args c = args.
Proof.
  intros subs e args kwargs cs c. unfold emit. rewrite subscribed_get.
  assert (G : forall ls cs, calls_of ls args kwargs = Some cs -> In c cs -> exists l, In l ls /\ by_id c = l_id l /\ with_args c = args).
  { induction ls as [|l ls IH]; cbn; intros cs0 E I; [injection E as <-; destruct I|].
    destruct (call_of l args kwargs) as [c0|] eqn:C; [|discriminate]. destruct (calls_of ls args kwargs) as [cs1|]; [|discriminate].
    injection E as <-. destruct I as [-> | I].
    - exists l. split; [now left|]. unfold call_of in C. destruct (l_async l), (l_kwargs l); try (injection C as <-; now split).
      destruct (forallb _ kwargs); [injection C as <-; now split | discriminate].
    - destruct (IH _ eq_refl I) as (x & Ix & D). exists x. split; [now right | exact D]. }
  intros E I. destruct (G _ _ E I) as (l & Il & D). exists l. split; [|exact D].
  unfold listeners_of in Il. apply in_map_iff in Il. destruct Il as ([e' l'] & <- & F). apply filter_In in F. destruct F as [F Q].
  apply seqb_eq in Q. cbn in Q. subst e'. exact F.
Qed.
Print Assumptions C101_only_its_own.
Definition plain (n : nat) : listener := {| l_id := n; l_async := true; l_kwargs := false; l_names := [u "user"] |}.
Definition blocking (n : nat) : listener := {| l_id := n; l_async := false; l_kwargs := true; l_names := [] |}.
Example C101_case : emit (u "a") [7] [] (subscribed [(u "a", plain 1); (u "b", plain 2); (u "a", blocking 3)])
  = Some [{| by_id := 1; with_args := [7]; with_kwargs := [] |}; {| by_id := 3; with_args := [7]; with_kwargs := [] |}].
Proof. reflexivity. Qed.
(** A keyword argument a listener declares is not passed on. *)
Theorem C101_refuted : ~ C101_statement.
Proof. intros H. specialize (H [(u "a", plain 1)] (u "a") [] [(u "user", 7)]). discriminate. Qed.
Print Assumptions C101_refuted.
(** A function (not a coroutine function) with [**kwargs] makes [emit] raise. *)
Theorem C101_blocking_refuted : emit (u "a") [] [(u "user", 7)] (subscribed [(u "a", blocking 3)]) = None.
Proof. reflexivity. Qed.
Print Assumptions C101_blocking_refuted.
