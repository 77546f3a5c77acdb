(** C373-C376: an event stream and the end of its client. *)
From Verif Require Import PyStr PyStrFacts SsedModel.

Section Spec.
Context {V : Type}.
(** The message says that the client is gone. *)
Definition gone (m : message V) : Prop := fst m = Some (u "http.disconnect").
(** Neither the end of the client nor anything that follows from it. *)
Definition quiet (x : seen V) : Prop := match x with Sent _ => True | Got m => ~ gone m | _ => False end.
Definition event (x : seen V) : Prop := exists e, x = Sent e.
Definition events (l : list (seen V)) : list str := flat_map (fun x => match x with Sent e => [e] | _ => [] end) l.

Lemma gone_iff m : is_disconnect m = true <-> gone m.
Proof.
  unfold is_disconnect, gone. destruct (fst m) as [t|]; [|split; intros E; discriminate E].
  rewrite seqb_eq. split; [intros ->; reflexivity|intros E; injection E as ->; reflexivity].
Qed.

(** The logs there are. *)
Inductive story (handler : bool) : state V -> Prop :=
| st_open : forall t o a p q, p <> LHandle -> Forall quiet q -> story handler (mkst t o a p false q)
| st_handle : forall t o a q m e, handler = true -> Forall quiet q -> gone m -> Forall event e ->
    story handler (mkst t o a LHandle false (q ++ Got m :: Called m :: e))
| st_over : forall t o a p q, Forall quiet q -> story handler (mkst t o a p true (q ++ [Cancelled]))
| st_plain : forall t o a p q m, handler = false -> Forall quiet q -> gone m -> story handler (mkst t o a p true (q ++ [Got m; Cancelled]))
| st_broken : forall t o a p q m e, handler = true -> Forall quiet q -> gone m -> Forall event e ->
    story handler (mkst t o a p true (q ++ Got m :: Called m :: e ++ [Cancelled]))
| st_ended : forall t o a p q m e ok, handler = true -> Forall quiet q -> gone m -> Forall event e ->
    story handler (mkst t o a p true (q ++ Got m :: Called m :: e ++ [Ended ok; Cancelled])).
Lemma quiet_snoc q x : Forall quiet q -> quiet x -> Forall quiet (q ++ [x]).
Proof. intros A B. apply Forall_app. auto. Qed.
Lemma event_snoc q e : Forall event q -> Forall event (q ++ [Sent e]).
Proof. intros A. apply Forall_app. split; [exact A|]. constructor; [exists e; reflexivity|constructor]. Qed.
Lemma story_step handler s a : story handler s -> story handler (step handler s a).
Proof.
  intros S. unfold step. destruct S as [t o a0 p q P Q|t o a0 q m e H Q D F|t o a0 p q Q|t o a0 p q m H Q D|t o a0 p q m e H Q D F|t o a0 p q m e ok H Q D F];
    cbn [cancelled]; try (econstructor; eassumption).
  - destruct a as [| | |m|ok]; cbn [listener].
    + unfold stream_step. cbn [todo over active listener cancelled log]. destruct t as [|x r].
      * destruct o; [apply st_over; exact Q|]. apply st_open; [exact P|exact Q].
      * apply st_open; [exact P|]. apply quiet_snoc; [exact Q|exact I].
    + cbn [over]. destruct o; [apply st_open; assumption|]. apply st_over. exact Q.
    + destruct p; try (apply st_open; assumption). cbn [todo over active cancelled log]. apply st_open; [destruct a0; discriminate|exact Q].
    + destruct p; try (apply st_open; assumption). unfold receive_step. cbn [todo over active listener cancelled log].
      destruct (is_disconnect m) eqn:E.
      * apply gone_iff in E. destruct handler.
        -- rewrite <- app_assoc. cbn [app]. apply st_handle; auto.
        -- unfold cancel. cbn [todo over active listener cancelled log]. rewrite <- app_assoc. cbn [app]. apply st_plain; auto.
      * apply st_open; [destruct a0; discriminate|]. apply quiet_snoc; [exact Q|]. intros G. apply gone_iff in G. congruence.
    + destruct p; try (apply st_open; assumption). contradiction P; reflexivity.
  - destruct a as [| | |m'|ok]; cbn [listener]; try (apply st_handle; assumption).
    + unfold stream_step. cbn [todo over active listener cancelled log]. destruct t as [|x r].
      * destruct o; [|apply st_handle; assumption]. unfold cancel. cbn [todo over active log]. rewrite <- app_assoc. cbn [app]. apply st_broken; assumption.
      * rewrite <- app_assoc. cbn [app]. apply st_handle; try assumption. apply event_snoc. exact F.
    + cbn [over]. destruct o; [apply st_handle; assumption|]. unfold cancel. cbn [todo over active log]. rewrite <- app_assoc. cbn [app]. apply st_broken; assumption.
    + unfold cancel. cbn [todo over active log]. rewrite <- !app_assoc. cbn [app]. apply st_ended; assumption.
Qed.
Lemma story_run handler sched : forall s, story handler s -> story handler (fold_left (step handler) sched s).
Proof. induction sched as [|a r IH]; intros s S; cbn [fold_left]; [exact S|]. apply IH, story_step, S. Qed.
Lemma story_all handler evs sched : exists s, story handler s /\ log s = run handler evs sched.
Proof. exists (fold_left (step handler) sched (mkst evs false true LBegin false [])). split; [|reflexivity]. apply story_run, st_open; [discriminate|constructor]. Qed.

(** Where a thing of a log may be: not among quiet things, and once. *)
Lemma split_quiet (x : seen V) : ~ quiet x -> forall q t pre post, Forall quiet q -> q ++ t = pre ++ x :: post ->
  exists k, pre = q ++ k /\ t = k ++ x :: post.
Proof.
  intros N q. induction q as [|y q IH]; intros t pre post Q E; cbn [app] in E.
  - exists pre. auto.
  - inversion Q as [|y' q' QY QQ]; subst. destruct pre as [|z pre]; cbn [app] in E; injection E as E1 E2.
    + subst y. contradiction.
    + subst z. destruct (IH t pre post QQ E2) as (k & -> & ->). exists k. auto.
Qed.
Lemma split_event (x : seen V) : ~ event x -> forall q t pre post, Forall event q -> q ++ t = pre ++ x :: post ->
  exists k, pre = q ++ k /\ t = k ++ x :: post.
Proof.
  intros N q. induction q as [|y q IH]; intros t pre post Q E; cbn [app] in E.
  - exists pre. auto.
  - inversion Q as [|y' q' QY QQ]; subst. destruct pre as [|z pre]; cbn [app] in E; injection E as E1 E2.
    + subst y. contradiction.
    + subst z. destruct (IH t pre post QQ E2) as (k & -> & ->). exists k. auto.
Qed.
Lemma one (x y : seen V) k post : x <> y -> [y] = k ++ x :: post -> False.
Proof. intros N E. destruct k as [|a [|b k]]; cbn [app] in E; injection E as E1 E2; try congruence; discriminate. Qed.
End Spec.

(** ** C373 *)
(** The handler is called with the message that the client is gone, when it comes, and at most once. *)
Theorem C373_handler : forall V (handler : bool) (evs : list str) (sched : list (action V)),
  let log := run handler evs sched in
  (forall m, In (Called m) log -> handler = true /\ gone m
     /\ exists pre post, log = pre ++ Got m :: Called m :: post /\ forall m', ~ In (Called m') pre /\ ~ In (Called m') post)
  /\ (forall m, In (Got m) log -> gone m -> handler = true -> In (Called m) log).
Proof.
  intros V handler evs sched log. destruct (story_all handler evs sched) as (s & S & L). fold log in L. rewrite <- L. clear L log.
  assert (QC : forall q m, Forall quiet q -> ~ In (@Called V m) q) by (intros q m Q I; rewrite Forall_forall in Q; exact (Q _ I)).
  assert (QG : forall q m, Forall quiet q -> gone m -> ~ In (@Got V m) q) by (intros q m Q D I; rewrite Forall_forall in Q; exact (Q _ I D)).
  assert (EC : forall q m, Forall event q -> ~ In (@Called V m) q) by (intros q m Q I; rewrite Forall_forall in Q; destruct (Q _ I) as (e & E); discriminate E).
  assert (EG : forall q m, Forall event q -> ~ In (@Got V m) q) by (intros q m Q I; rewrite Forall_forall in Q; destruct (Q _ I) as (e & E); discriminate E).
  assert (K : forall q m e tl, handler = true -> Forall quiet q -> gone m -> Forall event e -> (forall m', ~ In (Called m') tl) -> (forall m', ~ In (Got m') tl) ->
    (forall m0, In (@Called V m0) (q ++ Got m :: Called m :: e ++ tl) -> handler = true /\ gone m0
     /\ exists pre post, q ++ Got m :: Called m :: e ++ tl = pre ++ Got m0 :: Called m0 :: post /\ forall m', ~ In (Called m') pre /\ ~ In (Called m') post)
    /\ (forall m0, In (Got m0) (q ++ Got m :: Called m :: e ++ tl) -> gone m0 -> handler = true -> In (Called m0) (q ++ Got m :: Called m :: e ++ tl))).
  { intros q m e tl H Q D F T1 T2.
    assert (P : forall m', ~ In (@Called V m') (e ++ tl)) by (intros m' I; apply in_app_or in I as [I|I]; [apply (EC e m' F I)|apply (T1 m' I)]).
    split.
    - intros m0 I. apply in_app_or in I as [I|[I|[I|I]]]; [destruct (QC q m0 Q I)|discriminate I| |destruct (P m0 I)].
      injection I as <-. split; [exact H|]. split; [exact D|]. exists q, (e ++ tl). split; [reflexivity|]. intros m'. split; [apply QC; exact Q|apply P].
    - intros m0 I G _. apply in_app_or in I as [I|[I|[I|I]]]; [destruct (QG q m0 Q G I)| |discriminate I|].
      + injection I as <-. apply in_or_app. right. right. left. reflexivity.
      + apply in_app_or in I as [I|I]; [destruct (EG e m0 F I)|destruct (T2 m0 I)]. }
  destruct S as [t o a0 p q P Q|t o a0 q m e H Q D F|t o a0 p q Q|t o a0 p q m H Q D|t o a0 p q m e H Q D F|t o a0 p q m e ok H Q D F]; cbn [SsedModel.log].
  - split; [intros m I; destruct (QC q m Q I)|]. intros m I G. destruct (QG q m Q G I).
  - rewrite <- (app_nil_r e). apply K; auto.
  - split.
    + intros m I. apply in_app_or in I as [I|[I|[]]]; [destruct (QC q m Q I)|discriminate I].
    + intros m I G. apply in_app_or in I as [I|[I|[]]]; [destruct (QG q m Q G I)|discriminate I].
  - split.
    + intros m0 I. apply in_app_or in I as [I|[I|[I|[]]]]; [destruct (QC q m0 Q I)|discriminate I|discriminate I].
    + intros m0 I G E. congruence.
  - apply K; auto; intros m' [I|[]]; discriminate I.
  - apply K; auto; intros m' [I|[I|[]]]; discriminate I.
Qed.
Print Assumptions C373_handler.
Example C373_case :
  run true [u "a"; u "b"; u "c"] [ABegin; AStream; AReceive (Some (u "http.request"), 0); AReceive (Some (u "http.disconnect"), 1); AReceive (Some (u "http.disconnect"), 2); AEnd false; AStream]
  = [Sent (u "a"); Got (Some (u "http.request"), 0); Got (Some (u "http.disconnect"), 1); Called (Some (u "http.disconnect"), 1); Ended false; Cancelled].
Proof. vm_compute. reflexivity. Qed.

(** ** C374 *)
(** When the handler is done, even by an exception, or at once if there is no handler, the tasks are
    cancelled, and a cancelled response does nothing more. *)
Theorem C374_cancelled : forall V (handler : bool) (evs : list str) (sched : list (action V)) pre x post,
  run handler evs sched = pre ++ x :: post ->
  (x = Cancelled -> post = []) /\ (forall ok, x = Ended ok -> post = [Cancelled])
  /\ (forall m, x = Got m -> gone m -> handler = false -> post = [Cancelled]).
Proof.
  intros V handler evs sched pre x post E. destruct (story_all handler evs sched) as (s & S & L). rewrite <- L in E. clear L.
  assert (NE : forall y : seen V, (y = Cancelled \/ exists ok, y = Ended ok) -> ~ quiet y /\ ~ event y).
  { intros y [-> | (ok & ->)]; (split; [intros []|intros (e & X); discriminate X]). }
  destruct S as [t o a0 p q P Q|t o a0 q m e H Q D F|t o a0 p q Q|t o a0 p q m H Q D|t o a0 p q m e H Q D F|t o a0 p q m e ok H Q D F]; cbn [SsedModel.log] in E.
  - assert (QX : quiet x) by (rewrite E in Q; apply Forall_app in Q as [_ Q]; inversion Q; assumption).
    split; [intros ->; destruct QX|]. split; [intros ok ->; destruct QX|]. intros m -> G. destruct (QX G).
  - assert (R : x = Cancelled \/ (exists ok, x = Ended ok) -> False).
    { intros R. destruct (NE x R) as (A & B). destruct (split_quiet x A q _ pre post Q E) as (k & -> & E2).
      destruct k as [|k1 [|k2 k]]; cbn [app] in E2.
      - injection E2 as E3 E4. destruct R as [-> | (o' & ->)]; discriminate.
      - injection E2 as E3 E5 E6. destruct R as [-> | (o' & ->)]; discriminate.
      - injection E2 as E3 E5 E6. rewrite <- (app_nil_r e) in E6. destruct (split_event x B e [] k post F E6) as (k' & _ & E7). destruct k'; discriminate E7. }
    split; [intros X; destruct (R (or_introl X))|]. split; [intros ok X; destruct (R (or_intror (ex_intro _ ok X)))|]. intros; congruence.
  - split; [|split].
    + intros ->. destruct (NE Cancelled (or_introl eq_refl)) as (A & B). destruct (split_quiet _ A q _ pre post Q E) as (k & -> & E2).
      destruct k as [|k1 k]; cbn [app] in E2; injection E2; [auto|]. intros E3 _. destruct k; discriminate E3.
    + intros ok ->. destruct (NE (Ended ok) (or_intror (ex_intro _ ok eq_refl))) as (A & B). destruct (split_quiet _ A q _ pre post Q E) as (k & -> & E2).
      exfalso. apply (one (Ended ok) Cancelled k post); [discriminate|exact E2].
    + intros m -> G _. assert (A : ~ quiet (Got m)) by (intros X; exact (X G)). destruct (split_quiet _ A q _ pre post Q E) as (k & -> & E2).
      exfalso. apply (one (Got m) Cancelled k post); [discriminate|exact E2].
  - assert (T : ~ quiet x -> exists k, [Got m; Cancelled] = k ++ x :: post) by (intros A; destruct (split_quiet x A q _ pre post Q E) as (k & -> & E2); exists k; exact E2).
    assert (U : ~ quiet x -> (x = Got m /\ post = [Cancelled]) \/ (x = Cancelled /\ post = [])).
    { intros A. destruct (T A) as (k & E2). destruct k as [|k1 [|k2 k]]; cbn [app] in E2; injection E2; intros; subst; auto. destruct k; discriminate. }
    split; [|split].
    + intros ->. destruct (U (proj1 (NE _ (or_introl eq_refl)))) as [[X _]|[_ X]]; [discriminate X|exact X].
    + intros ok ->. destruct (U (proj1 (NE _ (or_intror (ex_intro _ ok eq_refl))))) as [[X _]|[X _]]; discriminate X.
    + intros m0 -> G _. destruct (U (fun X => X G)) as [[_ X]|[X _]]; [exact X|discriminate X].
  - assert (R : x = Cancelled \/ (exists ok, x = Ended ok) -> x = Cancelled /\ post = []).
    { intros R. destruct (NE x R) as (A & B). destruct (split_quiet x A q _ pre post Q E) as (k & -> & E2).
      destruct k as [|k1 [|k2 k]]; cbn [app] in E2.
      - injection E2 as E3 E4. destruct R as [-> | (o' & ->)]; discriminate.
      - injection E2 as E3 E5 E6. destruct R as [-> | (o' & ->)]; discriminate.
      - injection E2 as E3 E5 E6. destruct (split_event x B e _ k post F E6) as (k' & _ & E7). destruct k' as [|z k']; cbn [app] in E7; injection E7; [auto|]. intros E8 _. destruct k'; discriminate E8. }
    split; [intros X; apply (R (or_introl X))|]. split; [intros ok X; destruct (R (or_intror (ex_intro _ ok X))); congruence|]. intros; congruence.
  - assert (R : x = Cancelled \/ (exists ok, x = Ended ok) -> (x = Cancelled /\ post = []) \/ (x = Ended ok /\ post = [Cancelled])).
    { intros R. destruct (NE x R) as (A & B). destruct (split_quiet x A q _ pre post Q E) as (k & -> & E2).
      destruct k as [|k1 [|k2 k]]; cbn [app] in E2.
      - injection E2 as E3 E4. destruct R as [-> | (o' & ->)]; discriminate.
      - injection E2 as E3 E5 E6. destruct R as [-> | (o' & ->)]; discriminate.
      - injection E2 as E3 E5 E6. destruct (split_event x B e _ k post F E6) as (k' & _ & E7).
        destruct k' as [|z [|z2 k']]; cbn [app] in E7; injection E7; intros; subst; auto. destruct k'; discriminate. }
    split; [intros X; destruct (R (or_introl X)) as [[_ Y]|[Y _]]; [exact Y|congruence]|].
    split; [intros ok' X; destruct (R (or_intror (ex_intro _ ok' X))) as [[Y _]|[_ Y]]; [congruence|exact Y]|]. intros; congruence.
Qed.
Print Assumptions C374_cancelled.
Example C374_case :
  run false [u "a"; u "b"] [AStream; ABegin; AReceive (Some (u "http.disconnect"), 1); AStream; AStream]
  = [Sent (u "a"); Got (Some (u "http.disconnect"), 1); Cancelled].
Proof. vm_compute. reflexivity. Qed.

(** ** C375 *)
(** No event is sent after the response has learnt that the client is gone. *)
Definition C375_statement : Prop := forall V (handler : bool) (evs : list str) (sched : list (action V)) pre m post e,
  run handler evs sched = pre ++ Got m :: post -> gone m -> ~ In (Sent e) post.
Theorem C375_no_handler_partial : forall V (evs : list str) (sched : list (action V)) pre m post e,
  run false evs sched = pre ++ Got m :: post -> gone m -> ~ In (Sent e) post.
Proof.
  intros V evs sched pre m post e E G I. destruct (C374_cancelled V false evs sched pre (Got m) post E) as (_ & _ & K).
  rewrite (K m eq_refl G eq_refl) in I. destruct I as [I|[]]. discriminate I.
Qed.
Print Assumptions C375_no_handler_partial.
(** While the handler waits, the stream goes on: it never looks whether it is active. *)
Theorem C375_refuted : ~ C375_statement.
Proof.
  intros H. apply (H nat true [u "a"] [ABegin; AReceive (Some (u "http.disconnect"), 1); AStream]
    [] (Some (u "http.disconnect"), 1) [Called (Some (u "http.disconnect"), 1); Sent (u "a")] (u "a")).
  - vm_compute. reflexivity.
  - reflexivity.
  - right. left. reflexivity.
Qed.
Print Assumptions C375_refuted.

(** ** C376 *)
(** Under every schedule the events sent are the first events of the source, in their order; and all of
    them if the tasks were not cancelled by the client or an exception. *)
Lemma events_snoc V (l : list (seen V)) x : events (l ++ [x]) = events l ++ match x with Sent e => [e] | _ => [] end.
Proof. unfold events. rewrite flat_map_app. cbn [flat_map]. rewrite app_nil_r. reflexivity. Qed.
(** Nothing cut the stream. *)
Definition uncut {V} (a : action V) : Prop := match a with AFail => False | AReceive m => ~ gone m | _ => True end.
Lemma keep_step V handler evs (s : state V) a : (exists r, evs = events (log s) ++ r /\ (cancelled s = false -> over s = false -> r = todo s) /\ (over s = true -> todo s = [])) ->
  exists r, evs = events (log (step handler s a)) ++ r /\ (cancelled (step handler s a) = false -> over (step handler s a) = false -> r = todo (step handler s a)) /\ (over (step handler s a) = true -> todo (step handler s a) = []).
Proof.
  destruct s as [t o a0 p c l]. cbn [log cancelled over todo]. intros (r & E & R & O). unfold step. cbn [cancelled].
  destruct c; [exists r; cbn [log cancelled over todo]; auto|]. destruct a as [| | |m|ok]; cbn [listener over].
  - unfold stream_step. cbn [todo over active listener cancelled log]. destruct t as [|x t].
    + destruct o; unfold cancel; cbn [todo over active listener cancelled log].
      * exists r. rewrite events_snoc, app_nil_r. split; [exact E|]. split; [discriminate|auto].
      * exists r. split; [exact E|]. split; [discriminate|auto].
    + destruct o; [discriminate (O eq_refl)|]. rewrite (R eq_refl eq_refl) in E. exists t. cbn [todo over active listener cancelled log]. rewrite events_snoc, <- app_assoc. cbn [app]. split; [exact E|]. split; [auto|discriminate].
  - destruct o; [exists r; cbn [log cancelled over todo]; auto|]. unfold cancel. cbn [todo over active listener cancelled log]. exists r. rewrite events_snoc, app_nil_r. split; [exact E|]. split; [discriminate|auto].
  - destruct p; exists r; cbn [log cancelled over todo]; auto.
  - destruct p; try (exists r; cbn [log cancelled over todo]; auto; fail). unfold receive_step. cbn [todo over active listener cancelled log].
    destruct (is_disconnect m); [destruct handler|]; unfold cancel; cbn [todo over active listener cancelled log]; exists r; rewrite !events_snoc, ?app_nil_r; split; auto; split; auto; discriminate.
  - destruct p; try (exists r; cbn [log cancelled over todo]; auto; fail). unfold cancel. cbn [todo over active listener cancelled log].
    exists r. rewrite !events_snoc, ?app_nil_r. split; [exact E|]. split; [discriminate|exact O].
Qed.
Lemma all_step V handler evs (s : state V) a : uncut a -> listener s <> LHandle ->
  (evs = events (log s) ++ todo s /\ (over s = true -> todo s = []) /\ (cancelled s = true -> todo s = [])) ->
  listener (step handler s a) <> LHandle /\ evs = events (log (step handler s a)) ++ todo (step handler s a)
  /\ (over (step handler s a) = true -> todo (step handler s a) = []) /\ (cancelled (step handler s a) = true -> todo (step handler s a) = []).
Proof.
  destruct s as [t o a0 p c l]. cbn [log cancelled over todo listener]. intros U P (E & O & C). unfold step. cbn [cancelled].
  destruct c; [cbn [log cancelled over todo listener]; auto|]. destruct a as [| | |m|ok]; cbn [listener over].
  - unfold stream_step. cbn [todo over active listener cancelled log]. destruct t as [|x t].
    + destruct o; unfold cancel; cbn [todo over active listener cancelled log].
      * rewrite events_snoc, app_nil_r. split; [discriminate|]. auto.
      * auto.
    + destruct o; [discriminate (O eq_refl)|]. cbn [todo over active listener cancelled log]. rewrite events_snoc, <- app_assoc. cbn [app]. split; [exact P|]. split; [exact E|]. split; discriminate.
  - destruct U.
  - destruct p; cbn [log cancelled over todo listener]; try (split; [exact P|auto]). split; [destruct a0; discriminate|auto].
  - destruct p; cbn [log cancelled over todo listener]; try (split; [exact P|auto]). unfold receive_step. cbn [todo over active listener cancelled log].
    destruct (is_disconnect m) eqn:D; [apply gone_iff in D; destruct (U D)|]. cbn [todo over active listener cancelled log]. rewrite events_snoc, app_nil_r. split; [destruct a0; discriminate|auto].
  - destruct p; cbn [log cancelled over todo listener]; try (split; [exact P|auto]). contradiction P; reflexivity.
Qed.
Theorem C376_events : forall V (handler : bool) (evs : list str) (sched : list (action V)),
  (exists rest, evs = events (run handler evs sched) ++ rest)
  /\ (Forall uncut sched -> In Cancelled (run handler evs sched) -> events (run handler evs sched) = evs).
Proof.
  intros V handler evs sched. split.
  - enough (H : forall sched (s : state V), (exists r, evs = events (log s) ++ r /\ (cancelled s = false -> over s = false -> r = todo s) /\ (over s = true -> todo s = [])) ->
      exists r, evs = events (log (fold_left (step handler) sched s)) ++ r).
    { unfold run. apply H. exists evs. split; [reflexivity|]. split; [reflexivity|discriminate]. }
    clear sched. induction sched as [|a r IH]; intros s S; cbn [fold_left]; [destruct S as (x & E & _); exists x; exact E|]. apply IH, keep_step, S.
  - intros U I. unfold run in *.
    enough (H : forall sched (s : state V), Forall uncut sched -> listener s <> LHandle ->
      (evs = events (log s) ++ todo s /\ (over s = true -> todo s = []) /\ (cancelled s = true -> todo s = [])) -> (In Cancelled (log s) -> cancelled s = true) ->
      In Cancelled (log (fold_left (step handler) sched s)) -> events (log (fold_left (step handler) sched s)) = evs).
    { apply H; [exact U|cbn; discriminate|cbn [log todo over cancelled]; split; [reflexivity|split; discriminate]|intros []|exact I]. }
    clear sched U I. induction sched as [|a r IH]; intros s U P S K I; cbn [fold_left] in *.
    + destruct S as (E & _ & C). rewrite (C (K I)), app_nil_r in E. symmetry. exact E.
    + inversion U as [|a' r' UA UR]; subst a' r'. destruct (all_step V handler evs s a UA P S) as (P2 & S2). apply IH; auto.
      clear I IH. intros I. destruct s as [t o a0 p c l]. cbn [log cancelled listener] in *. unfold step in *. cbn [cancelled] in *.
      destruct c; [reflexivity|]. assert (KL : ~ In Cancelled l) by (intros X; discriminate (K X)).
      destruct a as [| | |m|ok]; cbn [listener over] in *.
      * unfold stream_step in *. cbn [todo over active listener cancelled log] in *. destruct t as [|x t]; [destruct o|]; cbn [cancelled log cancel] in *; try reflexivity; [contradiction|].
        apply in_app_or in I as [I|[I|[]]]; [contradiction|discriminate I].
      * destruct UA.
      * destruct p; cbn [log] in I; contradiction.
      * destruct p; cbn [log] in I; try contradiction. unfold receive_step in *. destruct (is_disconnect m) eqn:D; [apply gone_iff in D; destruct (UA D)|]. cbn [log] in I.
        apply in_app_or in I as [I|[I|[]]]; [contradiction|discriminate I].
      * destruct p; cbn [log] in I; try contradiction.
Qed.
Print Assumptions C376_events.
Example C376_case :
  run true [u "a"; u "b"] [AStream; ABegin; AReceive (Some (u "http.request"), 0); AStream; AStream; AStream; AStream]
  = [Sent (u "a"); Got (Some (u "http.request"), 0); Sent (u "b"); Cancelled].
Proof. vm_compute. reflexivity. Qed.
