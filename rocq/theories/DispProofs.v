(** Proofs about DispModel. *)
From Verif Require Import PyStr Asgi ExcModel DispModel DispSpec.

Section W.
  Variable w : world.
  Variable q : req.

  Definition no_run (tr : list event) : Prop := forall h ov, ~ In (Ran h ov) tr.
  Lemma no_run_app a b : no_run a -> no_run b -> no_run (a ++ b).
  Proof. intros A B h ov [H|H]%in_app_iff; firstorder. Qed.
  Lemma run_split a b t1 h ov t2 : no_run a -> a ++ b = t1 ++ Ran h ov :: t2 -> exists t, t1 = a ++ t /\ b = t ++ Ran h ov :: t2.
  Proof.
    revert t1. induction a as [|x a IH]; cbn; intros t1 A E; [eauto|].
    destruct t1 as [|y t1]; cbn in E; injection E as -> E.
    - exfalso. apply (A h ov). now left.
    - destruct (IH t1) as (t & -> & ->); [firstorder | exact E |]. exists t. auto.
  Qed.

  Lemma asked_nil k ids : asked w q k ids [].
  Proof. intros [|] t2 h ov E; discriminate. Qed.
  Lemma asked_no_run k ids tr : no_run tr -> asked w q k ids tr.
  Proof. intros A t1 t2 h ov -> n I. exfalso. apply (A h ov), in_app_iff. right. now left. Qed.
  Lemma asked_before k ids a b : no_run a -> asked w q k ids b -> asked w q k ids (a ++ b).
  Proof.
    intros A B t1 t2 h ov E n I. destruct (run_split _ _ _ _ _ _ A E) as (t & -> & E').
    destruct (B _ _ _ _ E' n I) as [P J]. split; [exact P | apply in_app_iff; auto].
  Qed.
  Lemma split_case (a b t1 : list event) x t2 : a ++ b = t1 ++ x :: t2 ->
    (exists t, a = t1 ++ x :: t) \/ (exists t, t1 = a ++ t /\ b = t ++ x :: t2).
  Proof.
    revert t1. induction a as [|y a IH]; cbn; intros t1 E; [right; eauto|].
    destruct t1 as [|z t1]; cbn in E; injection E as -> E; [left; cbn; eauto|].
    destruct (IH _ E) as [(t & ->) | (t & -> & ->)]; [left; cbn; eauto | right; eauto].
  Qed.
  Lemma asked_after k ids a b : asked w q k ids a -> no_run b -> asked w q k ids (a ++ b).
  Proof.
    intros A B t1 t2 h ov E n I. destruct (split_case _ _ _ _ _ E) as [(t & ->) | (t & -> & ->)]; [eapply A; eauto |].
    exfalso. apply (B h ov), in_app_iff. right. now left.
  Qed.

  Lemma asked_app k ids a b : asked w q k ids a -> asked w q k ids b -> asked w q k ids (a ++ b).
  Proof.
    intros A B t1 t2 h ov E n I. destruct (split_case _ _ _ _ _ E) as [(t & ->) | (t & -> & E')]; [eapply A; eauto |].
    destruct (B _ _ _ _ E' n I) as [P J]. split; [exact P | apply in_app_iff; auto].
  Qed.

  Lemma route_asked_no_run rs tr : no_run tr -> route_asked w q rs tr.
  Proof. intros A t1 t2 h ov ->. exfalso. apply (A h ov), in_app_iff. right. now left. Qed.
  Lemma route_asked_app rs a b : route_asked w q rs a -> route_asked w q rs b -> route_asked w q rs (a ++ b).
  Proof.
    intros A B t1 t2 h ov E. destruct (split_case _ _ _ _ _ E) as [(t & ->) | (t & -> & E')]; [eapply A; eauto |].
    destruct (B _ _ _ _ E') as (r & I & Eh & P & M). exists r. repeat split; auto; try (apply P; assumption); try (apply M; assumption).
    - apply in_app_iff. right. apply P; assumption.
    - apply in_app_iff. right. apply M; assumption.
  Qed.

  Definition plain_event (k : nat -> event) : Prop := forall n h ov, k n <> Ran h ov.
  Lemma calls_no_run k ids : plain_event k -> no_run (events (calls w k ids q)).
  Proof.
    intros K. induction ids as [|n ids IH]; cbn; [intros h ov []|].
    destruct (callback w n q); cbn; intros h ov [E|I]; [now apply (K n h ov) | easy | now apply (K n h ov) | now apply (IH h ov)].
  Qed.

  Lemma bind_events a b : exists t, events (bind a b) = events a ++ t /\ (t = [] \/ t = events b).
  Proof. unfold bind. destruct (ends a); cbn; eauto; exists []; rewrite app_nil_r; auto. Qed.
  Lemma on_errors_events f r : events (on_errors f r) = events r.
  Proof. unfold on_errors. destruct (ends r); auto. destruct (f _) as [ms [e'|]]; auto. Qed.

  (** A guard in front: if a handler runs behind it, it has been asked. *)
  Lemma guards_events k ids inner : plain_event k ->
    exists pre t, events (guards w k ids q inner) = pre ++ t /\ no_run pre /\
      (t = [] \/ t = events inner /\ (forall n, In n ids -> guard w n q = Pass /\ In (k n) pre)).
  Proof.
    intros K. induction ids as [|n ids IH]; cbn.
    - exists [], (events inner). split; [easy|]. split; [intros h ov [] | right; split; [easy | intros n []]].
    - destruct (guard w n q) eqn:G; cbn.
      + destruct IH as (pre & t & E & N & D). exists (k n :: pre), t. cbn. rewrite E. split; [easy|]. split.
        * intros h ov [X|X]; [now apply (K n h ov) | now apply (N h ov)].
        * destruct D as [D|[-> D]]; [auto|]. right. split; [easy|]. intros m [<-|I]; [cbn; auto|]. destruct (D m I). cbn. auto.
      + exists [k n], []. split; [easy|]. split; [|auto]. intros h ov [X|[]]. now apply (K n h ov).
      + exists [k n], []. split; [easy|]. split; [|auto]. intros h ov [X|[]]. now apply (K n h ov).
  Qed.
  Lemma asked_guards k ids inner : plain_event k -> asked w q k ids (events (guards w k ids q inner)).
  Proof.
    intros K t1 t2 h ov E n I. destruct (guards_events k ids inner K) as (pre & t & Ev & N & D). rewrite Ev in E.
    destruct (run_split _ _ _ _ _ _ N E) as (t' & -> & Et). destruct D as [D|[-> D]]; [rewrite D in Et; destruct t'; discriminate|].
    destruct (D n I). split; [easy | apply in_app_iff; auto].
  Qed.
  Lemma asked_through k k' ids ids' inner : plain_event k -> asked w q k' ids' (events inner) ->
    asked w q k' ids' (events (guards w k ids q inner)).
  Proof.
    intros K A. destruct (guards_events k ids inner K) as (pre & t & -> & N & D). apply asked_before; [exact N|].
    destruct D as [->|[-> _]]; [apply asked_nil | exact A].
  Qed.
  Lemma route_asked_through k ids rs inner : plain_event k -> route_asked w q rs (events inner) ->
    route_asked w q rs (events (guards w k ids q inner)).
  Proof.
    intros K A. destruct (guards_events k ids inner K) as (pre & t & -> & N & D).
    apply route_asked_app; [now apply route_asked_no_run|]. destruct D as [->|[-> _]]; [apply route_asked_no_run; intros h ov [] | exact A].
  Qed.
  Lemma plain_Mid : plain_event Mid. Proof. intros n h ov; discriminate. Qed.
  Lemma plain_Perm : plain_event Perm. Proof. intros n h ov; discriminate. Qed.
  Lemma plain_Before : plain_event Before. Proof. intros n h ov; discriminate. Qed.
  Lemma plain_After : plain_event After. Proof. intros n h ov; discriminate. Qed.

  Lemma wrapper_events t r : events (wrapper w t r) = events r.
  Proof. unfold wrapper. destruct t as [[t eh]|]; auto. apply on_errors_events. Qed.

  (** A path runs its handler behind its permissions and middlewares. *)
  Lemma dispatch_asked t ov r rs : In r rs -> route_asked w q rs (events (handle_dispatch w t ov r q)).
  Proof.
    intros Ir. unfold handle_dispatch. destruct (wrong_method r q); [apply route_asked_no_run; intros ? ? []|].
    destruct (endpoint w (r_handler r) q ov) as [ms o]. rewrite on_errors_events.
    set (h := if r_wrapped r then _ else _).
    assert (Eh : events h = [Ran (r_handler r) ov]) by (unfold h; destruct (r_wrapped r); [apply wrapper_events | easy]).
    clearbody h.
    destruct (bind_events (calls w Before (r_before r) q) (bind (guards w Mid (r_mids r) q (guards w Perm (r_perms r) q h)) (calls w After (r_after r) q))) as (x & -> & Dx).
    apply route_asked_app; [apply route_asked_no_run, calls_no_run, plain_Before|].
    destruct Dx as [->| ->]; [apply route_asked_no_run; intros ? ? []|].
    destruct (bind_events (guards w Mid (r_mids r) q (guards w Perm (r_perms r) q h)) (calls w After (r_after r) q)) as (y & -> & Dy).
    apply route_asked_app; [|destruct Dy as [->| ->]; [apply route_asked_no_run; intros ? ? [] | apply route_asked_no_run, calls_no_run, plain_After]].
    destruct (guards_events Mid (r_mids r) (guards w Perm (r_perms r) q h) plain_Mid) as (p1 & z1 & E1 & N1 & D1).
    destruct (guards_events Perm (r_perms r) h plain_Perm) as (p2 & z2 & E2 & N2 & D2).
    intros t1 t2 h' ov' E. rewrite E1 in E. destruct (run_split _ _ _ _ _ _ N1 E) as (u1 & -> & E3).
    destruct D1 as [->|[-> D1]]; [destruct u1; discriminate|]. rewrite E2 in E3.
    destruct (run_split _ _ _ _ _ _ N2 E3) as (u2 & -> & E4).
    destruct D2 as [->|[-> D2]]; [destruct u2; discriminate|]. rewrite Eh in E4.
    exists r. destruct u2 as [|y' u2]; [|destruct u2; discriminate]. cbn in E4. injection E4 as <- <- <-.
    split; [exact Ir|]. split; [easy|]. split; intros n I.
    - destruct (D2 n I). split; [easy|]. apply in_app_iff. right. apply in_app_iff. auto.
    - destruct (D1 n I). split; [easy|]. apply in_app_iff. auto.
  Qed.

  Lemma router_app_asked on t ov rs : route_asked w q rs (events (router_app w on t ov rs q)).
  Proof.
    assert (Nil : forall rs, route_asked w q rs []) by (intros; apply route_asked_no_run; intros ? ? []).
    assert (Full_ : forall all k rs, (forall r, In r rs -> In r all) -> route_asked w q all (events k) -> route_asked w q all (events (try_full w t ov rs q k))).
    { intros all k. induction rs0 as [|r rs0 IH]; cbn; intros Sub K; [exact K|].
      assert (Ir : In r all) by (apply Sub; now left).
      assert (IH' : route_asked w q all (events (try_full w t ov rs0 q k))) by (apply IH; auto; intros; apply Sub; now right).
      destruct (search r q); auto.
      pose proof (dispatch_asked t ov r all Ir) as D.
      destruct (ends (handle_dispatch w t ov r q)), (messages (handle_dispatch w t ov r q)); cbn; auto; now apply route_asked_app. }
    assert (Part : forall all rs, (forall r, In r rs -> In r all) -> route_asked w q all (events (try_partial w t rs q))).
    { intros all. induction rs0 as [|r rs0 IH]; cbn; intros Sub; [apply Nil|].
      destruct (search r q); try (apply IH; intros; apply Sub; now right). apply dispatch_asked, Sub. now left. }
    assert (Many : forall rs, route_asked w q rs (events (app_many w on t ov rs q))).
    { intros rs0. unfold app_many. apply Full_; [auto|]. match goal with |- context[match ?x with Some _ => _ | None => _ end] => destruct x end; [apply Nil | now apply Part]. }
    unfold router_app. destruct rs as [|r [|r' rs]]; auto.
    unfold app_one. destruct (search r q); [destruct (redirects on [r] q); apply Nil | |];
      (pose proof (dispatch_asked t ov r [r] (or_introl eq_refl)) as D; destruct (ends (handle_dispatch w t ov r q)); cbn; auto; now apply route_asked_app).
  Qed.

  Lemma router_call_route a t : route_asked w q (routes a) (events (router_call w a t q)).
  Proof.
    unfold router_call.
    destruct (bind_events (calls w Before (before a) q) (bind (guards w Perm (perms a) q (router_app w (slashes a) t (overrides a) (routes a) q)) (calls w After (after a) q))) as (x & -> & Dx).
    apply route_asked_app; [apply route_asked_no_run, calls_no_run, plain_Before|].
    destruct Dx as [->| ->]; [apply route_asked_no_run; intros ? ? []|].
    destruct (bind_events (guards w Perm (perms a) q (router_app w (slashes a) t (overrides a) (routes a) q)) (calls w After (after a) q)) as (y & -> & Dy).
    apply route_asked_app; [|destruct Dy as [->| ->]; [apply route_asked_no_run; intros ? ? [] | apply route_asked_no_run, calls_no_run, plain_After]].
    apply route_asked_through; [apply plain_Perm | apply router_app_asked].
  Qed.
  Lemma router_call_perms a t : asked w q Perm (perms a) (events (router_call w a t q)).
  Proof.
    unfold router_call.
    destruct (bind_events (calls w Before (before a) q) (bind (guards w Perm (perms a) q (router_app w (slashes a) t (overrides a) (routes a) q)) (calls w After (after a) q))) as (x & -> & Dx).
    apply asked_before; [apply calls_no_run, plain_Before|].
    destruct Dx as [->| ->]; [apply asked_nil|].
    destruct (bind_events (guards w Perm (perms a) q (router_app w (slashes a) t (overrides a) (routes a) q)) (calls w After (after a) q)) as (y & -> & Dy).
    apply asked_after; [apply asked_guards, plain_Perm|].
    destruct Dy as [->| ->]; [intros ? ? [] | apply calls_no_run, plain_After].
  Qed.
  Lemma general_events a m t : exists r, events (general w a m t q) = events (guards w Mid m q r) /\ exists ts, events r = events (router_call w a ts q).
  Proof.
    unfold general. rewrite on_errors_events.
    set (r := on_errors (exception_middleware _ _) _). exists r. split.
    - destruct (intercept a); [apply on_errors_events | easy].
    - exists (Some (other_handlers t, error_handler (handlers a))). unfold r. apply on_errors_events.
  Qed.
  Lemma asked_events k ids (a b : list event) : a = b -> asked w q k ids b -> asked w q k ids a.
  Proof. now intros ->. Qed.
  Lemma general_perms a m t : asked w q Perm (perms a) (events (general w a m t q)).
  Proof. destruct (general_events a m t) as (r & -> & ts & E). apply asked_through; [apply plain_Mid|]. rewrite E. apply router_call_perms. Qed.
  Lemma general_mids a m t : asked w q Mid m (events (general w a m t q)).
  Proof. destruct (general_events a m t) as (r & -> & ts & E). apply asked_guards, plain_Mid. Qed.
  Lemma general_route a m t : route_asked w q (routes a) (events (general w a m t q)).
  Proof. destruct (general_events a m t) as (r & -> & ts & E). apply route_asked_through; [apply plain_Mid|]. rewrite E. apply router_call_route. Qed.
  Lemma fast_route_asked a r : In r (routes a) -> route_asked w q (routes a) (events (fast w a r q)).
  Proof. intros I. unfold fast. rewrite on_errors_events. destruct (seqb _ _); [now apply dispatch_asked | apply router_call_route]. Qed.
End W.
