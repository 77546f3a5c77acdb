(** C231 to C234: what is done when a request ends. *)
From Verif Require Import PyStr ExitModel.

(** A body that ends with [o], inside a with statement of the context manager [cb]. *)
Definition within (cb : callback) (o : option raised) : option raised :=
  match cb_act cb o with
  | Raises e => Some e
  | Suppresses => None
  | Passes => o
  end.
(** Nested with statements, the first the outermost: what each is told of, and how all end. *)
Fixpoint nested (cbs : list callback) (o : option raised) : list call * option raised :=
  match cbs with
  | [] => ([], o)
  | cb :: r => let (calls, o') := nested r o in (calls ++ [(cb_name cb, o')], within cb o')
  end.

Lemma unwind_names cbs : forall exc p, map fst (fst (unwind cbs exc p)) = map cb_name cbs.
Proof. induction cbs as [|cb r IH]; intros exc p; [reflexivity|]. cbn [unwind]. destruct (cb_act cb exc) as [| |e]; [specialize (IH exc p)|specialize (IH None false)|specialize (IH (Some e) true)]; destruct (unwind _ _ _); cbn in *; congruence. Qed.
Lemma nested_app a : forall b o, nested (a ++ b) o = (fst (nested b o) ++ fst (nested a (snd (nested b o))), snd (nested a (snd (nested b o)))).
Proof.
  induction a as [|cb a IH]; intros b o; [cbn; destruct (nested b o); rewrite app_nil_r; reflexivity|]. cbn [app nested]. rewrite IH. destruct (nested a (snd (nested b o))) as (c, o'). cbn [fst snd]. rewrite <- app_assoc. reflexivity.
Qed.
(** The loop is the nesting: an exception that is on its way is to be raised. *)
Lemma unwind_nested cbs : forall o, unwind cbs o (match o with Some _ => true | None => false end) = nested (rev cbs) o.
Proof.
  induction cbs as [|cb r IH]; intros o; [destruct o; reflexivity|]. cbn [rev unwind]. rewrite nested_app. cbn [nested fst snd app]. unfold within.
  destruct (cb_act cb o) as [| |e].
  - rewrite IH. destruct (nested (rev r) o). reflexivity.
  - rewrite (IH None). destruct (nested (rev r) None). reflexivity.
  - rewrite (IH (Some e)). destruct (nested (rev r) (Some e)). reflexivity.
Qed.
Lemma closes pushed : lazy_aclose pushed = nested pushed None.
Proof.
  unfold lazy_aclose, aclose. rewrite (unwind_nested (rev pushed) None), rev_involutive. destruct pushed; reflexivity.
Qed.
Lemma middleware_is pushed ended : exit_middleware pushed ended = (fst (nested pushed None), match snd (nested pushed None) with Some e => Some e | None => ended end).
Proof. unfold exit_middleware. rewrite closes. destruct (nested pushed None) as (calls, [e|]); [reflexivity|]. destruct ended as [[n|]|]; reflexivity. Qed.

(** * C231: each callback is called once, the last pushed first *)
Theorem C231_once : forall pushed ended, map fst (fst (exit_middleware pushed ended)) = rev (map cb_name pushed).
Proof.
  intros pushed ended. rewrite middleware_is. cbn [fst]. rewrite <- closes. unfold lazy_aclose, aclose. destruct pushed as [|c r]; [reflexivity|].
  rewrite unwind_names, map_rev. reflexivity.
Qed.
Print Assumptions C231_once.
Definition fails (n e : nat) : callback := {| cb_name := n; cb_act := fun _ => Raises (Ordinary e) |}.
Definition quiet (n : nat) : callback := {| cb_name := n; cb_act := fun _ => Passes |}.
Definition swallows (n : nat) : callback := {| cb_name := n; cb_act := fun _ => Suppresses |}.
Example C231_case : exit_middleware [quiet 1; swallows 2; fails 3 30; quiet 4] (Some Cancelled)
  = ([(4, None); (3, None); (2, Some (Ordinary 30)); (1, None)]%nat, Some Cancelled).
Proof. vm_compute. reflexivity. Qed.

(** * C232: the context managers entered in a request are told how it ended *)
Definition C232_statement : Prop := forall pushed ended, exit_middleware pushed ended = nested pushed ended.
(** A context manager entered in a request that failed is told that all went well. *)
Theorem C232_refuted : ~ C232_statement.
Proof. intros H. specialize (H [quiet 1] (Some (Ordinary 7))). vm_compute in H. discriminate H. Qed.
Print Assumptions C232_refuted.
(** It is so whatever the exception: no context manager learns of the failure of a request. *)
Theorem C232_unaware : forall pushed e, fst (exit_middleware pushed (Some e)) = fst (exit_middleware pushed None).
Proof. intros pushed e. rewrite !middleware_is. reflexivity. Qed.
Print Assumptions C232_unaware.
(** When the request went well, all is as with nested with statements, also when callbacks raise. *)
Theorem C232_partial : forall pushed, exit_middleware pushed None = nested pushed None.
Proof. intros pushed. rewrite middleware_is. destruct (nested pushed None) as (calls, [e|]); reflexivity. Qed.
Print Assumptions C232_partial.

(** * C233: a failure is not lost *)
(** The exception of the application, also a cancellation, goes on, unless closing raises one of its own. *)
Theorem C233_failure : forall pushed e,
  (forall cb x, In cb pushed -> match cb_act cb x with Raises _ => False | _ => True end) -> snd (exit_middleware pushed (Some e)) = Some e.
Proof.
  intros pushed e Q. rewrite middleware_is. cbn [snd]. enough (N : snd (nested pushed None) = None) by (rewrite N; reflexivity).
  induction pushed as [|cb r IH]; [reflexivity|]. cbn [nested]. specialize (IH (fun c x I => Q c x (or_intror I))). destruct (nested r None) as (calls, o). cbn [snd] in *. subst o.
  unfold within. specialize (Q cb None (or_introl eq_refl)). destruct (cb_act cb None); [reflexivity|reflexivity|contradiction].
Qed.
Print Assumptions C233_failure.
(** Whatever the callbacks do, a request that failed does not end well, and what it ends with was raised by
    the application or by a callback. *)
Theorem C233_never_lost : forall pushed e, exists x, snd (exit_middleware pushed (Some e)) = Some x
  /\ (x = e \/ exists cb o, In cb pushed /\ cb_act cb o = Raises x).
Proof.
  intros pushed e. rewrite middleware_is. cbn [snd].
  assert (H : forall x, snd (nested pushed None) = Some x -> exists cb o, In cb pushed /\ cb_act cb o = Raises x).
  { induction pushed as [|cb r IH]; intros x; [discriminate|]. cbn [nested]. destruct (nested r None) as (calls, o). cbn [snd] in *. unfold within. destruct (cb_act cb o) eqn:A.
    - intros ->. destruct (IH x eq_refl) as (c & y & I & E). exists c, y. split; [right; exact I|exact E].
    - discriminate.
    - intros E. injection E as ->. exists cb, o. split; [left; reflexivity|exact A]. }
  destruct (snd (nested pushed None)) as [x|]; [exists x; split; [reflexivity|right; apply H; reflexivity]|exists e; auto].
Qed.
Print Assumptions C233_never_lost.
Example C233_case : snd (exit_middleware [swallows 1; quiet 2] (Some (Ordinary 7))) = Some (Ordinary 7) /\ snd (exit_middleware [fails 1 5; quiet 2] (Some (Ordinary 7))) = Some (Ordinary 5).
Proof. split; vm_compute; reflexivity. Qed.

(** * C234: the current request is the one that is served *)
(** The task an event is about. *)
Definition about (e : event) : nat := match e with Enter t _ => t | Leave t => t | Spawn _ t => t end.
(** Events during which a task finishes what it enters. *)
Inductive balanced (t : nat) : list event -> Prop :=
| b_nil : balanced t []
| b_other e es : about e <> t -> balanced t es -> balanced t (e :: es)
| b_inner r es es' : balanced t es -> balanced t es' -> balanced t (Enter t r :: es ++ Leave t :: es').
(** A task serves a request: the innermost that reached the middleware in it and is not done, or the one
    that the task which started it served then. *)
Inductive serves : list event -> nat -> nat -> Prop :=
| s_entered pre t r post : balanced t post -> serves (pre ++ Enter t r :: post) t r
| s_inherited pre p t r post : serves pre p r -> balanced t post -> serves (pre ++ Spawn p t :: post) t r.
(** A call of the middleware ends only after it began, in the same task. *)
Definition proper_history (es : list event) : Prop := forall pre t post, es = pre ++ Leave t :: post ->
  exists before r during, pre = before ++ Enter t r :: during /\ balanced t during.
Lemma put_same {A} (f : nat -> A) t x : put f t x t = x.
Proof. unfold put. rewrite Nat.eqb_refl. reflexivity. Qed.
Lemma put_other {A} (f : nat -> A) t x i : i <> t -> put f t x i = f i.
Proof. unfold put. intros N. destruct (Nat.eqb_spec i t); [contradiction|reflexivity]. Qed.
Lemma happens_other c e t : about e <> t -> var (happens c e) t = var c t /\ tokens (happens c e) t = tokens c t.
Proof.
  intros N. assert (N' : t <> about e) by congruence. destruct e as [a r|a|p a]; cbn [happens about] in *.
  - cbn. rewrite !put_other by exact N'. auto.
  - destruct (tokens c a); [auto|]. cbn. rewrite !put_other by exact N'. auto.
  - cbn. rewrite !put_other by exact N'. auto.
Qed.
Lemma balanced_keeps t es : balanced t es -> forall c, var (fold_left happens es c) t = var c t /\ tokens (fold_left happens es c) t = tokens c t.
Proof.
  induction 1 as [|e es N B IH|r es es' B IH B' IH']; intros c; [auto| |].
  - cbn [fold_left]. destruct (IH (happens c e)) as [-> ->]. apply happens_other, N.
  - cbn [fold_left]. rewrite fold_left_app. cbn [fold_left]. set (c1 := happens c (Enter t r)). destruct (IH c1) as [V T]. set (c2 := fold_left happens es c1) in *.
    destruct (IH' (happens c2 (Leave t))) as [-> ->]. unfold happens. rewrite T. cbn [c1 happens tokens]. rewrite put_same. cbn [var tokens]. rewrite !put_same. auto.
Qed.
Lemma balanced_app t a b : balanced t a -> balanced t b -> balanced t (a ++ b).
Proof.
  intros A H. induction A as [|e es N B IH|r es es' B IH B' IH']; [exact H|constructor; auto|]. cbn [app]. rewrite <- app_assoc. cbn [app]. apply b_inner; auto.
Qed.
Lemma history_app a b : history (a ++ b) = fold_left happens b (history a).
Proof. unfold history. apply fold_left_app. Qed.
Lemma serves_more h t r b : serves h t r -> balanced t b -> serves (h ++ b) t r.
Proof.
  intros S B. destruct S as [pre t r post B0|pre p t r post S B0]; rewrite <- app_assoc; cbn [app]; constructor; trivial; apply balanced_app; assumption.
Qed.
(** In every interleaving of tasks, the current request of a task is the one it serves. *)
Theorem C234_current : forall es t r, proper_history es -> get_request (history es) t = Some r <-> serves es t r.
Proof.
  unfold get_request. intros es t r P. split.
  - revert t r P. assert (H : forall n es, (length es <= n)%nat -> proper_history es -> forall t r, var (history es) t = Some r -> serves es t r).
    2: { intros t r P. apply (H (length es) es (le_n _) P). }
    induction n as [|n IH]; intros h L P t r V.
    + destruct h; [discriminate V|cbn in L; lia].
    + destruct h as [|e h _] using rev_ind; [discriminate V|]. rewrite app_length in L. cbn in L. rewrite history_app in V. cbn [fold_left] in V.
      assert (P1 : forall a b, h = a ++ b -> proper_history a).
      { intros a b -> pre t0 post ->. apply (P pre t0 (post ++ b ++ [e])). rewrite <- !app_assoc. cbn [app]. reflexivity. }
      destruct (Nat.eq_dec (about e) t) as [A|A].
      * destruct e as [a r'|a|p a]; cbn [about] in A; subst a.
        -- cbn in V. rewrite put_same in V. injection V as <-. apply s_entered. constructor.
        -- destruct (P h t [] eq_refl) as (before & r0 & during & E & B). subst h. rewrite history_app in V. cbn [fold_left] in V.
           set (c := history before) in *. set (c1 := happens c (Enter t r0)) in *. destruct (balanced_keeps t during B c1) as [_ T]. set (c2 := fold_left happens during c1) in *.
           assert (V' : var c t = Some r). { unfold happens in V. rewrite T in V. cbn [c1 happens tokens] in V. rewrite put_same in V. cbn [var] in V. rewrite put_same in V. exact V. }
           rewrite app_length in L. cbn in L. rewrite <- app_assoc. cbn [app]. apply serves_more.
           ++ apply IH; [lia|apply (P1 before (Enter t r0 :: during)); reflexivity|exact V'].
           ++ apply b_inner; [exact B|constructor].
        -- cbn in V. rewrite put_same in V. apply s_inherited; [|constructor]. apply IH; [lia|apply (P1 h []); rewrite app_nil_r; reflexivity|exact V].
      * destruct (happens_other (history h) e t A) as [E _]. rewrite E in V. apply serves_more; [|constructor; [exact A|constructor]]. apply IH; [lia|apply (P1 h []); rewrite app_nil_r; reflexivity|exact V].
  - intros S. clear P. induction S as [pre t r post B|pre p t r post S IH B]; rewrite history_app; cbn [fold_left]; rewrite (proj1 (balanced_keeps t post B _)); cbn; rewrite put_same; [reflexivity|exact IH].
Qed.
Print Assumptions C234_current.
(** Two requests at once, one of them with a task of its own that outlives it, and a nested middleware. *)
Example C234_case : let es := [Enter 1 10; Enter 2 20; Spawn 1 3; Enter 1 11; Leave 1; Leave 2; Leave 1]%nat in
  get_request (history es) 3 = Some 10%nat /\ get_request (history es) 2 = None /\ get_request (history es) 1 = None
  /\ get_request (history (firstn 5 es)) 1 = Some 10%nat /\ serves (firstn 4 es) 1 11.
Proof. cbn zeta. repeat split; try (vm_compute; reflexivity). apply (s_entered [Enter 1 10; Enter 2 20; Spawn 1 3]%nat 1 11 []). constructor. Qed.

(** * C235: with the request context every connection reaches the application *)
Definition C235_statement : Prop := forall t app, exists w, request_context t app = Called w app.
(** A websocket does not: the middleware makes a [Request] of it, which asserts http. *)
Theorem C235_refuted : ~ C235_statement.
Proof. intros H. destruct (H Websocket None) as (w & E). discriminate E. Qed.
Print Assumptions C235_refuted.
Theorem C235_partial : forall t app, t <> Websocket -> request_context t app = Called (match t with Http => true | _ => false end) app.
Proof. intros [| |] app N; [reflexivity|contradiction N; reflexivity|reflexivity]. Qed.
Print Assumptions C235_partial.
