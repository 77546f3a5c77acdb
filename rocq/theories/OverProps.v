(** Property theorems for overlapping resolutions: C298, C299. *)
From Verif Require Import PyStr PyStrFacts OverModel.
Open Scope nat_scope.

(** ** C298 *)
(** Full statement: whatever the schedule, a factory that does not fail is called at most once. *)
Definition C298_statement : Prop := forall gives ts, (forall t, gives t <> None) -> length (made (run gives ts start)) <= 1.
(** False: two requests that arrive together both find the cache empty. *)
Theorem C298_refuted : ~ C298_statement.
Proof. intros H. specialize (H (fun t => Some t) [0; 1; 0; 1; 0; 1] ltac:(discriminate)). vm_compute in H. lia. Qed.
Print Assumptions C298_refuted.

Lemma run_app gives a b st : run gives (a ++ b) st = run gives b (run gives a st).
Proof. unfold run. apply fold_left_app. Qed.
Lemma set_same t p f : set t p f t = p.
Proof. unfold set. now rewrite Nat.eqb_refl. Qed.
Lemma set_other t s p f : s <> t -> set t p f s = f s.
Proof. intros H. unfold set. apply Nat.eqb_neq in H. now rewrite H. Qed.

(** What is known all along. *)
Definition inv (gives : nat -> option nat) (ts : list nat) (st : state) : Prop :=
  (forall t, calls st t <> Idle -> In t ts) /\
  NoDup (made st) /\
  (forall t, In t (made st) <-> calls st t = Calling \/ (In t (made st) /\ (calls st t = Failed \/ exists v, calls st t = Got v))) /\
  (forall t, calls st t = Failed -> In t (made st) /\ gives t = None) /\
  (forall t v, calls st t = Got v -> cached st <> None /\ exists s, In s (made st) /\ gives s = Some v /\ calls st s = Got v) /\
  (forall v, cached st = Some v -> exists s, In s (made st) /\ gives s = Some v /\ calls st s = Got v).

Lemma step_inv gives ts st t : inv gives ts st -> inv gives (ts ++ [t]) (step gives st t).
Proof.
  intros (A & B & C & D & E & F).
  assert (S1 : forall s (f : nat -> phase) p, (forall s, f s <> Idle -> In s ts) -> set t p f s <> Idle -> In s (ts ++ [t])).
  { intros s f p H K. apply in_app_iff. destruct (Nat.eq_dec s t) as [->|N]; [right; now left|]. rewrite set_other in K by assumption. left. auto. }
  unfold step. destruct (calls st t) eqn:Ct.
  - destruct (cached st) as [v|] eqn:Cc; (split; [intros s; cbn [calls]; now apply S1|]); cbn [cached calls made].
    + assert (NM : ~ In t (made st)).
      { intros I. apply C in I. destruct I as [I|[_ [I|[w I]]]]; congruence. }
      split; [exact B|]. split; [|split; [|split]].
      * intros s. destruct (Nat.eq_dec s t) as [->|N]; [rewrite set_same|rewrite set_other by assumption; apply C].
        split; [intros I; now apply NM in I|intros [I|[I _]]; [discriminate|exact I]].
      * intros s. destruct (Nat.eq_dec s t) as [->|N]; [rewrite set_same; discriminate|rewrite set_other by assumption; apply D].
      * intros s w H. split; [discriminate|]. assert (X : exists s0, In s0 (made st) /\ gives s0 = Some w /\ calls st s0 = Got w).
        { destruct (Nat.eq_dec s t) as [->|N]; [rewrite set_same in H; injection H as <-; now apply F|rewrite set_other in H by assumption; now apply (E s)]. }
        destruct X as (s0 & I & G & K). exists s0. split; [exact I|split; [exact G|]]. rewrite set_other; [exact K|]. intros ->. congruence.
      * intros w [= <-]. destruct (F v eq_refl) as (s0 & I & G & K). exists s0. split; [exact I|split; [exact G|]]. rewrite set_other; [exact K|]. intros ->. congruence.
    + assert (NM : ~ In t (made st)).
      { intros I. apply C in I. destruct I as [I|[_ [I|[w I]]]]; congruence. }
      split; [exact B|]. split; [|split; [|split; [|discriminate]]].
      * intros s. destruct (Nat.eq_dec s t) as [->|N]; [rewrite set_same|rewrite set_other by assumption; apply C].
        split; [intros I; now apply NM in I|intros [I|[I _]]; [discriminate|exact I]].
      * intros s. destruct (Nat.eq_dec s t) as [->|N]; [rewrite set_same; discriminate|rewrite set_other by assumption; apply D].
      * intros s w. destruct (Nat.eq_dec s t) as [->|N]; [rewrite set_same; discriminate|rewrite set_other by assumption].
        intros H. destruct (E s w H) as [X _]. congruence.
  - assert (NM : ~ In t (made st)).
    { intros I. apply C in I. destruct I as [I|[_ [I|[w I]]]]; congruence. }
    split; [intros s; cbn [calls]; now apply S1|]. cbn [cached calls made]. split; [|split; [|split; [|split]]].
    + rewrite <- (rev_involutive (made st ++ [t])). apply NoDup_rev. rewrite rev_app_distr. cbn [rev app]. constructor; [now rewrite <- in_rev|now apply NoDup_rev].
    + intros s. destruct (Nat.eq_dec s t) as [->|N].
      * rewrite set_same. split; [now left|intros _; apply in_app_iff; right; now left].
      * rewrite set_other by assumption. rewrite in_app_iff. specialize (C s). split.
        -- intros [I|[->|[]]]; [|congruence]. apply C in I as H. destruct H as [H|[_ H]]; [now left|]. right. split; [now left|exact H].
        -- intros [H|[H _]]; [|exact H]. left. apply C. now left.
    + intros s. destruct (Nat.eq_dec s t) as [->|N]; [rewrite set_same; discriminate|rewrite set_other by assumption]. intros H. destruct (D s H) as [I G]. split; [apply in_app_iff; now left|exact G].
    + intros s w. destruct (Nat.eq_dec s t) as [->|N]; [rewrite set_same; discriminate|rewrite set_other by assumption].
      intros H. destruct (E s w H) as [X (s0 & I & G & K)]. split; [exact X|]. exists s0. split; [apply in_app_iff; now left|split; [exact G|]]. rewrite set_other; [exact K|]. intros ->. congruence.
    + intros w H. destruct (F w H) as (s0 & I & G & K). exists s0. split; [apply in_app_iff; now left|split; [exact G|]]. rewrite set_other; [exact K|]. intros ->. congruence.
  - assert (IM : In t (made st)) by (apply C; now left).
    destruct (gives t) as [v|] eqn:G; (split; [intros s; cbn [calls]; now apply S1|]); cbn [cached calls made]; (split; [exact B|]).
    + split; [|split; [|split]].
      * intros s. destruct (Nat.eq_dec s t) as [->|N]; [rewrite set_same|rewrite set_other by assumption; apply C].
        split; [intros _; right; split; [exact IM|right; eauto]|intros _; exact IM].
      * intros s. destruct (Nat.eq_dec s t) as [->|N]; [rewrite set_same; discriminate|rewrite set_other by assumption; apply D].
      * intros s w H. split; [discriminate|]. destruct (Nat.eq_dec s t) as [->|N].
        -- rewrite set_same in H. injection H as <-. exists t. rewrite set_same. auto.
        -- rewrite set_other in H by assumption. destruct (E s w H) as [_ (s0 & I & G' & K)]. exists s0. split; [exact I|split; [exact G'|]].
           rewrite set_other; [exact K|]. intros ->. congruence.
      * intros w [= <-]. exists t. rewrite set_same. auto.
    + split; [|split; [|split]].
      * intros s. destruct (Nat.eq_dec s t) as [->|N]; [rewrite set_same|rewrite set_other by assumption; apply C].
        split; [intros _; right; split; [exact IM|now left]|intros _; exact IM].
      * intros s. destruct (Nat.eq_dec s t) as [->|N]; [rewrite set_same; auto|rewrite set_other by assumption; apply D].
      * intros s w. destruct (Nat.eq_dec s t) as [->|N]; [rewrite set_same; discriminate|rewrite set_other by assumption].
        intros H. destruct (E s w H) as [X (s0 & I & G' & K)]. split; [exact X|]. exists s0. split; [exact I|split; [exact G'|]]. rewrite set_other; [exact K|]. intros ->. congruence.
      * intros w H. destruct (F w H) as (s0 & I & G' & K). exists s0. split; [exact I|split; [exact G'|]]. rewrite set_other; [exact K|]. intros ->. congruence.
  - split; [intros s H; apply in_app_iff; left; auto|]. auto.
  - split; [intros s H; apply in_app_iff; left; auto|]. auto.
Qed.
Lemma run_inv gives ts : inv gives ts (run gives ts start).
Proof.
  induction ts as [|t ts IH] using rev_ind.
  - split; [intros t H; now contradict H|]. split; [constructor|]. cbn. split; [|split; [|split]]; intros; try discriminate. split; [intros []|intros [X|[[] _]]; discriminate].
  - rewrite run_app. cbn [run fold_left]. now apply step_inv.
Qed.

(** What holds: every call of [resolve] calls the factory at most once ... *)
Theorem C298_each_once gives ts : NoDup (made (run gives ts start)).
Proof. apply run_inv. Qed.
Print Assumptions C298_each_once.

(** ... and only calls that began before any had stored its value do at all: whoever comes later gets a value without a
    call. *)
Theorem C298_late_partial gives before t after :
  cached (run gives before start) <> None -> ~ In t before -> ~ In t (made (run gives (before ++ after) start)).
Proof.
  intros C NB. pose proof (run_inv gives before) as (A & _ & M & _).
  assert (It : calls (run gives before start) t = Idle).
  { destruct (calls (run gives before start) t) eqn:E; [reflexivity|..]; exfalso; apply NB, A; rewrite E; discriminate. }
  assert (K : forall after st, cached st <> None -> (calls st t = Idle \/ exists v, calls st t = Got v) -> ~ In t (made st) ->
    ~ In t (made (run gives after st))).
  { clear. induction after as [|s after IH]; intros st C K N; [exact N|]. unfold run. cbn [fold_left]. fold (run gives after (step gives st s)).
    destruct (Nat.eq_dec t s) as [<-|D].
    - destruct K as [K|[v K]]; unfold step; rewrite K.
      + destruct (cached st) as [v|] eqn:Cv; [|congruence]. apply IH; cbn [cached calls made]; [discriminate| |exact N]. right. exists v. now rewrite set_same.
      + apply IH; eauto.
    - unfold step. destruct (calls st s).
      + destruct (cached st) as [w|] eqn:Cv; [|congruence]. apply IH; cbn [cached calls made]; [discriminate|now rewrite set_other|exact N].
      + apply IH; cbn [cached calls made]; [exact C|now rewrite set_other|]. intros I. apply in_app_iff in I as [I|[I|[]]]; [auto|congruence].
      + destruct (gives s); apply IH; cbn [cached calls made]; [discriminate|now rewrite set_other|exact N|exact C|now rewrite set_other|exact N].
      + now apply IH.
      + now apply IH. }
  rewrite run_app. apply K; [exact C|now left|]. intros I. apply M in I. destruct I as [I|[_ [I|[v I]]]]; congruence.
Qed.
Print Assumptions C298_late_partial.

(** One after another: no call begins while another one is under way.  Then the factory returns at most once. *)
Definition busy (st : state) : Prop := exists t, calls st t = Reading \/ calls st t = Calling.
Definition no_overlap (gives : nat -> option nat) (ts : list nat) : Prop :=
  forall p t q, ts = p ++ t :: q -> calls (run gives p start) t = Idle -> ~ busy (run gives p start).
Theorem C298_once_partial gives ts : no_overlap gives ts ->
  forall s t v w, In s (made (run gives ts start)) -> In t (made (run gives ts start)) -> gives s = Some v -> gives t = Some w -> s = t.
Proof.
  intros NO.
  assert (Q : let st := run gives ts start in
    (forall s t, (calls st s = Reading \/ calls st s = Calling) -> (calls st t = Reading \/ calls st t = Calling) -> s = t) /\
    (cached st <> None -> ~ busy st) /\
    (cached st = None -> forall s, In s (made st) -> calls st s = Calling \/ gives s = None) /\
    (forall s t v w, In s (made st) -> In t (made st) -> gives s = Some v -> gives t = Some w -> s = t)).
  { cbv zeta. induction ts as [|x ts IH] using rev_ind.
    - cbn. split; [intros s t [H|H]; discriminate|]. split; [congruence|]. split; [intros _ s []|intros s t v w []].
    - destruct IH as (U & Bz & Nn & On).
      { intros p t q E. apply (NO p t (q ++ [x])). rewrite E, <- app_assoc. reflexivity. }
      specialize (NO ts x [] eq_refl). rewrite run_app. cbn [run fold_left].
      change (fold_left (step gives) ts start) with (run gives ts start).
      pose proof (run_inv gives ts) as (IA & IB & IC & ID & IE & IF).
      set (st := run gives ts start) in *. clearbody st. unfold step. destruct (calls st x) eqn:Cx.
      + specialize (NO eq_refl). destruct (cached st) as [c|] eqn:Cc; cbn [cached calls made].
        * split; [|split; [|split; [discriminate|exact On]]].
          -- intros s t Hs Ht. exfalso. apply (Bz ltac:(discriminate)). exists s.
             destruct (Nat.eq_dec s x) as [->|Ds]; [rewrite set_same in Hs; destruct Hs; discriminate|]. now rewrite set_other in Hs.
          -- intros _ (s & Hs). cbn [calls] in Hs. apply (Bz ltac:(discriminate)). exists s.
             destruct (Nat.eq_dec s x) as [->|Ds]; [rewrite set_same in Hs; destruct Hs; discriminate|]. now rewrite set_other in Hs.
        * split; [|split; [congruence|split; [|exact On]]].
          -- assert (K : forall s, set x Reading (calls st) s = Reading \/ set x Reading (calls st) s = Calling -> s = x).
             { intros s Hs. destruct (Nat.eq_dec s x) as [->|Ds]; [reflexivity|]. rewrite set_other in Hs by assumption. exfalso. apply NO. now exists s. }
             intros s t Hs Ht. rewrite (K s Hs), (K t Ht). reflexivity.
          -- intros _ s I. destruct (Nn eq_refl s I) as [K|K]; [|now right]. exfalso. apply NO. exists s. now right.
      + cbn [cached calls made]. assert (CN : cached st = None).
        { destruct (cached st) eqn:E; [|reflexivity]. exfalso. apply (Bz ltac:(discriminate)). exists x. now left. }
        split; [|split; [congruence|split]].
        * intros s t Hs Ht.
          assert (K : forall s, set x Calling (calls st) s = Reading \/ set x Calling (calls st) s = Calling -> s = x).
          { intros y Hy. destruct (Nat.eq_dec y x) as [->|Ds]; [reflexivity|]. rewrite set_other in Hy by assumption. apply U; auto. }
          rewrite (K s Hs), (K t Ht). reflexivity.
        * intros _ s I. apply in_app_iff in I as [I|[<-|[]]]; [|left; apply set_same].
          destruct (Nn CN s I) as [K|K]; [|now right]. assert (s = x) by (apply U; auto). subst s. congruence.
        * assert (K : forall s v, In s (made st) -> gives s = Some v -> False).
          { intros s v I G. destruct (Nn CN s I) as [K|K]; [|congruence]. assert (s = x) by (apply U; auto). subst s. congruence. }
          intros s t v w I J G H. apply in_app_iff in I as [I|[<-|[]]]; [destruct (K s v I G)|]. apply in_app_iff in J as [J|[<-|[]]]; [destruct (K t w J H)|reflexivity].
      + assert (K : forall p s, p <> Reading -> p <> Calling -> set x p (calls st) s = Reading \/ set x p (calls st) s = Calling -> False).
        { intros p s P1 P2 Hs. destruct (Nat.eq_dec s x) as [->|Ds]; [rewrite set_same in Hs; destruct Hs; congruence|].
          rewrite set_other in Hs by assumption. apply Ds. apply U; auto. }
        destruct (gives x) as [v|] eqn:G; cbn [cached calls made].
        * split; [|split; [|split; [discriminate|exact On]]].
          -- intros s t Hs. destruct (K (Got v) _ ltac:(discriminate) ltac:(discriminate) Hs).
          -- intros _ (s & Hs). cbn [calls] in Hs. exact (K (Got v) _ ltac:(discriminate) ltac:(discriminate) Hs).
        * split; [|split; [|split; [|exact On]]].
          -- intros s t Hs. destruct (K Failed _ ltac:(discriminate) ltac:(discriminate) Hs).
          -- intros _ (s & Hs). cbn [calls] in Hs. exact (K Failed _ ltac:(discriminate) ltac:(discriminate) Hs).
          -- intros CN s I. destruct (Nn CN s I) as [H|H]; [|now right]. assert (s = x) by (apply U; auto). subst s. now right.
      + auto.
      + auto. }
  apply Q.
Qed.
Print Assumptions C298_once_partial.
Example C298_case : no_overlap (fun t => if t =? 0 then None else Some t) [0; 0; 0; 1; 1; 1; 2] /\ made (run (fun t => if t =? 0 then None else Some t) [0; 0; 0; 1; 1; 1; 2] start) = [0; 1] /\
  cached (run (fun t => if t =? 0 then None else Some t) [0; 0; 0; 1; 1; 1] start) <> None.
Proof.
  split; [|split; [reflexivity|discriminate]]. intros p t q E I (s & B).
  repeat (destruct p as [|x p]; [injection E as <- <-; cbn in I; try discriminate I; cbn in B; unfold set in B; cbn in B;
    repeat match type of B with context [if ?c then _ else _] => destruct c end; destruct B; discriminate |cbn [app] in E; injection E as <- E]).
  destruct p; discriminate E.
Qed.

(** ** C299 *)
(** Full statement: all calls that get a value get the same one. *)
Definition C299_statement : Prop := forall gives ts s t v w,
  calls (run gives ts start) s = Got v -> calls (run gives ts start) t = Got w -> v = w.
(** False: of two overlapping calls each gets its own value, and the cached value changes under those who come later. *)
Theorem C299_refuted : ~ C299_statement.
Proof. intros H. discriminate (H (fun t => Some t) [0; 1; 0; 1; 0; 2; 1; 3] 2 3 0 1 eq_refl eq_refl). Qed.
Print Assumptions C299_refuted.
(** What holds: every value a call gets is one the factory gave, to a call that has ended; ... *)
Theorem C299_origin gives ts t v : calls (run gives ts start) t = Got v ->
  exists s, In s (made (run gives ts start)) /\ gives s = Some v /\ calls (run gives ts start) s = Got v.
Proof. intros H. pose proof (run_inv gives ts) as (_ & _ & _ & _ & E & _). now apply (E t v H). Qed.
Print Assumptions C299_origin.
(** ... and once a value is stored and no call is under way, it stays, and all later calls get it. *)
Theorem C299_settled_partial gives before after v t w :
  cached (run gives before start) = Some v -> ~ busy (run gives before start) -> ~ In t before ->
  calls (run gives (before ++ after) start) t = Got w -> w = v.
Proof.
  intros C NB NI. pose proof (run_inv gives before) as (A & _).
  assert (It : calls (run gives before start) t = Idle).
  { destruct (calls (run gives before start) t) eqn:E; [reflexivity|..]; exfalso; apply NI, A; rewrite E; discriminate. }
  rewrite run_app.
  assert (K : forall after st, cached st = Some v -> ~ busy st -> (calls st t = Idle \/ calls st t = Got v) ->
    calls (run gives after st) t = Got w -> w = v).
  { clear. induction after as [|s after IH]; intros st C NB K H.
    - cbn in H. destruct K as [K|K]; congruence.
    - unfold run in H. cbn [fold_left] in H. fold (run gives after (step gives st s)) in H. unfold step in H. destruct (calls st s) eqn:Cs.
      + rewrite C in H. refine (IH _ _ _ _ H); cbn [cached calls].
        * reflexivity.
        * intros (y & Hy). apply NB. exists y. cbn [calls] in Hy. destruct (Nat.eq_dec y s) as [->|D]; [rewrite set_same in Hy; destruct Hy; discriminate|now rewrite set_other in Hy].
        * destruct (Nat.eq_dec t s) as [->|D]; [right; now rewrite set_same|now rewrite set_other].
      + exfalso. apply NB. exists s. now left.
      + exfalso. apply NB. exists s. now right.
      + now apply (IH st).
      + now apply (IH st). }
  intros H. apply (K after _ C NB); [now left|exact H].
Qed.
Print Assumptions C299_settled_partial.
Example C299_case : let before := [0; 1; 0; 1; 0; 1] in
  cached (run (fun t => Some t) before start) = Some 1 /\ ~ busy (run (fun t => Some t) before start) /\ calls (run (fun t => Some t) (before ++ [2]) start) 2 = Got 1.
Proof.
  cbv zeta. split; [reflexivity|split; [|reflexivity]]. intros (s & B). cbn in B. unfold set in B.
  repeat match type of B with context [if ?c then _ else _] => destruct c end; destruct B; discriminate.
Qed.
