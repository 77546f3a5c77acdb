(** Property theorems for overlapping calls of the event dispatcher: C300, C301, C302. *)
From Verif Require Import PyStr PyStrFacts EmitModel EmitSpec EmitProofs.
Open Scope nat_scope.

(** Each noted emission is a call of [emit], and its tasks are in its group; each call of [emit] behind a task is noted. *)
Definition noted_ok (body : nat -> list action) (st : state) : Prop :=
  (forall t n e ids, In (t, n, e, ids) (emitted st) ->
     (exists k, nth_error (tasks st) t = Some k /\ nth_error (body (fn k)) n = Some (Emit e)) /\
     forall i, In i ids -> exists k, nth_error (tasks st) i = Some k /\ up k = Some t) /\
  (forall t k n e, nth_error (tasks st) t = Some k -> nth_error (body (fn k)) n = Some (Emit e) -> n < pc k \/ (n = pc k /\ exists cs, ph k = Group cs) ->
     exists ids, In (t, n, e, ids) (emitted st)).
Lemma emitted_stays body st s st' x : move body st s st' -> In x (emitted st) -> In x (emitted st').
Proof. intros M I. destruct M; cbn [emitted put release]; auto. apply in_app_iff. now left. Qed.
Lemma noted_run body fs ts : noted_ok body (run body ts (start fs)).
Proof.
  apply always.
  - split; [intros t n e ids []|]. intros t k n e H _ W. apply nth_error_In in H. cbn [tasks start] in H. apply in_map_iff in H as (f & <- & _). cbn in W. destruct W as [W|[_ (cs & W)]]; [lia|discriminate].
  - intros st s st' (A & B) M. split.
    + intros t n e ids I. destruct (emitted_origin _ _ _ _ _ M I) as [J|(k & e' & Hs & W & [= -> -> -> ->] & Fn & Hs' & Li & Rg & Em)].
      * destruct (A t n e ids J) as [(k & Hk & Nk) U]. split.
        -- destruct (grow _ _ _ _ _ _ M Hk) as (k' & E' & F & _). exists k'. split; [exact E'|now rewrite F].
        -- intros i Hi. destruct (U i Hi) as (ki & Ei & Ui). destruct (grow _ _ _ _ _ _ M Ei) as (k' & E' & _ & Uk & _). exists k'. split; [exact E'|congruence].
      * split; [eexists; split; [exact Hs'|exact W]|]. intros i Hi. specialize (Rg i Hi). apply nth_error_Some in Rg. destruct (nth_error (tasks st') i) as [ki|] eqn:Ei; [|congruence].
        destruct (newcomer _ _ _ _ _ _ M Ei) as [(k0 & H0)|(_ & _ & _ & U)]; [|eauto]. apply nth_lt in H0. apply in_seq in Hi. lia.
    + intros t k' n e H E L. destruct (newcomer _ _ _ _ _ _ M H) as [(k & Hk)|(_ & R & P0 & _)].
      2:{ destruct L as [L|[_ (cs & L)]]; [lia|congruence]. }
      destruct (grow _ _ _ _ _ _ M Hk) as (k2 & E' & F & _ & Pc & Ov & Ot). assert (k2 = k') by congruence. subst k2. rewrite F in E.
      assert (Old : (n < pc k \/ (n = pc k /\ exists cs, ph k = Group cs)) -> exists ids, In (t, n, e, ids) (emitted st')).
      { intros L0. destruct (B t k n e Hk E L0) as (ids & I). exists ids. eapply emitted_stays; eauto. }
      destruct (Nat.eq_dec t s) as [->|D]; [|rewrite (Ot D) in L; auto].
      destruct M as [|k0 H0 P0 S0|k0 H0 P0 W|k0 H0 P0 W|k0 H0 P0 W|k0 cs0 k2 H0 P0 F0 ->|k0 H0 P0 W Ow Qu|k0 H0 P0 W OQ|k0 H0 P0 Ow S0|k0 H0 P0 Ow S0|k0 e0 f0 H0 P0 W|k0 e0 ids0 H0 P0 W ->];
        [apply Old; assert (k' = k) by congruence; now subst|rewrite Hk in H0; injection H0 as <-; cbn [tasks put release] in H..].
      all: try (rewrite nth_upd_same in H by (eapply nth_lt; eauto); injection H as <-; cbn [pc ph at_phase next] in L; destruct L as [L|[_ (cs & L)]]; [|discriminate L]; apply Old; left; exact L).
      * rewrite nth_upd_same in H by (eapply nth_lt; eauto). injection H as <-. cbn [pc ph next] in L. destruct L as [L|[_ (cs & L)]]; [|discriminate L].
        assert (n <> pc k) by (intros ->; unfold now in W; congruence). apply Old. left. lia.
      * rewrite nth_upd_same in H by (eapply nth_lt; eauto). injection H as <-. destruct (existsb (failed st) cs0); [|destruct (stop st s)]; cbn [pc ph next at_phase] in L; (destruct L as [L|[_ (cs & L)]]; [|discriminate L]); apply Old.
        -- now left.
        -- now left.
        -- destruct (Nat.eq_dec n (pc k)) as [->|Dn]; [right; eauto|left; lia].
      * rewrite nth_upd_same in H by (eapply nth_lt; eauto). injection H as <-. cbn [pc ph next] in L. destruct L as [L|[_ (cs & L)]]; [|discriminate L].
        assert (n <> pc k) by (intros ->; unfold now in W; congruence). apply Old. left. lia.
      * rewrite nth_error_app1 in H by (rewrite upd_length; eapply nth_lt; eauto). rewrite nth_upd_same in H by (eapply nth_lt; eauto). injection H as <-. cbn [pc ph at_phase] in L.
        destruct L as [L|[-> _]]; [apply Old; now left|]. unfold now in W. assert (e0 = e) by congruence. subst e0. eexists. cbn [emitted]. apply in_app_iff. right. left. reflexivity.
Qed.

(** ** C300 *)
(** An emission starts each function at least as often as its subscription had returned before [emit] was called, ... *)
Theorem C300_reached body fs a b t n e ids f :
  not_called (run body a (start fs)) t n -> In (t, n, e, ids) (emitted (run body (a ++ b) (start fs))) ->
  returned body (run body a (start fs)) e f <= times f (functions (run body (a ++ b) (start fs)) ids).
Proof.
  intros NC. assert (NI : ~ In (t, n, e, ids) (emitted (run body a (start fs)))).
  { intros I. apply entries_run in I. cbn [entry_ok] in I. destruct I as (_ & _ & k & Hk & D). unfold not_called in NC. rewrite Hk in NC.
    destruct D as [[L _]|[Ep [P|(o & P)]]]; destruct NC as [NC|[NC R]]; try lia; congruence. }
  induction b as [|s b IH] using rev_ind.
  - rewrite app_nil_r. intros I. contradiction.
  - rewrite app_assoc, run_snoc. pose proof (step_move body (run body (a ++ b) (start fs)) s) as M. intros I.
    destruct (emitted_origin _ _ _ _ _ M I) as [J|(k & e' & Hs & W & [= -> -> -> ->] & Fn & _)].
    + rewrite (functions_stay _ _ _ _ _ M); [auto|]. apply entries_run in J. apply J.
    + rewrite Fn. pose proof (count_run body fs (a ++ b) e' f) as C. rewrite C.
      assert (G : forall b, returned body (run body a (start fs)) e' f <= returned body (run body (a ++ b) (start fs)) e' f).
      { clear. intros b. induction b as [|s b IH] using rev_ind; [rewrite app_nil_r; lia|]. rewrite app_assoc, run_snoc.
        pose proof (returned_grows body _ s _ e' f (tree_run body fs (a ++ b)) (step_move body _ s)). lia. }
      apply G.
Qed.
Print Assumptions C300_reached.
(** ... and no oftener than it had when it had started them. *)
Theorem C300_only body fs a b t n e ids f : In (t, n, e, ids) (emitted (run body a (start fs))) ->
  times f (functions (run body (a ++ b) (start fs)) ids) <= returned body (run body a (start fs)) e f.
Proof.
  intros I. assert (E : functions (run body (a ++ b) (start fs)) ids = functions (run body a (start fs)) ids /\ In (t, n, e, ids) (emitted (run body (a ++ b) (start fs)))).
  { induction b as [|s b (IH & J)] using rev_ind; [rewrite app_nil_r; auto|]. rewrite app_assoc, run_snoc. pose proof (step_move body (run body (a ++ b) (start fs)) s) as M.
    split; [|eapply emitted_stays; eauto]. rewrite (functions_stay _ _ _ _ _ M); [exact IH|]. apply entries_run in J. apply J. }
  destruct E as [-> _]. apply entries_run in I. cbn [entry_ok] in I. destruct I as (_ & (c & Pf) & _). rewrite <- (count_run body fs a e f). rewrite Pf. unfold times. rewrite count_occ_app. lia.
Qed.
Print Assumptions C300_only.
Lemma FOP_impl {X} (R Q : X -> X -> Prop) l : (forall x y, In x l -> In y l -> R x y -> Q x y) -> ForallOrdPairs R l -> ForallOrdPairs Q l.
Proof.
  intros H F. induction F as [|x l A F IH]; [constructor|]. constructor.
  - apply Forall_forall. intros y I. rewrite Forall_forall in A. apply H; [now left|now right|auto].
  - apply IH. intros y z I J. apply H; now right.
Qed.
Lemma FOP_snoc {X} (R : X -> X -> Prop) l x : ForallOrdPairs R l -> Forall (fun y => R y x) l -> ForallOrdPairs R (l ++ [x]).
Proof.
  intros F. induction F as [|y l A F IH]; intros G; [repeat constructor|]. inversion G as [|? ? G1 G2]; subst. cbn [app]. constructor; [|auto].
  apply Forall_app. auto.
Qed.
Lemma FOP_split {X} (R : X -> X -> Prop) l1 x l2 y l3 : ForallOrdPairs R (l1 ++ x :: l2 ++ y :: l3) -> R x y.
Proof.
  induction l1 as [|z l1 IH]; cbn [app]; intros F; inversion F as [|? ? A B]; subst; [|auto]. rewrite Forall_forall in A. apply A, in_app_iff. right. now left.
Qed.
Definition event_of (x : nat * nat * str * list nat) : str := snd (fst x).
Definition order_ok (st : state) : Prop :=
  ForallOrdPairs (fun x y => event_of x = event_of y -> prefix (functions st (snd x)) (functions st (snd y))) (emitted st).
Lemma order_run body fs ts : order_ok (run body ts (start fs)).
Proof.
  induction ts as [|s ts IH] using rev_ind; [constructor|]. rewrite run_snoc.
  pose proof (step_move body (run body ts (start fs)) s) as M. set (st' := step body (run body ts (start fs)) s) in *. clearbody st'.
  assert (K : order_ok (run body ts (start fs)) -> ForallOrdPairs (fun x y => event_of x = event_of y -> prefix (functions st' (snd x)) (functions st' (snd y))) (emitted (run body ts (start fs)))).
  { apply FOP_impl. intros x y I J H E. apply entries_run in I, J. destruct x as [[[t n] e] ids], y as [[[t' n'] e'] ids']. destruct I as (I & _), J as (J & _).
    cbn [snd]. rewrite (functions_stay _ _ _ _ _ M I), (functions_stay _ _ _ _ _ M J). now apply H. }
  assert (Same : emitted st' = emitted (run body ts (start fs)) \/ exists x, emitted st' = emitted (run body ts (start fs)) ++ [x] /\ functions st' (snd x) = get (event_of x) (listeners (run body ts (start fs)))).
  { destruct M as [|k0 H0 P0 S0|k0 H0 P0 W|k0 H0 P0 W|k0 H0 P0 W|k0 cs0 k2 H0 P0 F0 ->|k0 H0 P0 W Ow Qu|k0 H0 P0 W OQ|k0 H0 P0 Ow S0|k0 H0 P0 Ow S0|k0 e0 f0 H0 P0 W|k0 e0 ids H0 P0 W ->]; cbn [emitted put release]; auto.
    right. eexists. split; [reflexivity|]. cbn [snd event_of fst].
    exact (functions_emit body _ _ _ _ _ _ _ _). }
  unfold order_ok. destruct Same as [->|(x & -> & Fx)]; [auto|]. apply FOP_snoc; [auto|]. apply Forall_forall. intros y I E. rewrite Fx, <- E.
  apply entries_run in I. destruct y as [[[t n] e] ids]. destruct I as (R & Pf & _). cbn [snd event_of fst]. rewrite (functions_stay _ _ _ _ _ M R). exact Pf.
Qed.
(** Of two emissions of one event the later starts what the earlier did, in the same order, and then maybe more. *)
Theorem C300_order body fs ts t1 n1 t2 n2 e i1 i2 l1 l2 l3 : let st := run body ts (start fs) in
  emitted st = l1 ++ (t1, n1, e, i1) :: l2 ++ (t2, n2, e, i2) :: l3 -> exists more, functions st i2 = functions st i1 ++ more.
Proof. cbv zeta. intros E. pose proof (order_run body fs ts) as O. unfold order_ok in O. rewrite E in O. exact (FOP_split _ _ _ _ _ _ O eq_refl). Qed.
Print Assumptions C300_order.
(** Every call of [emit] that has returned is such an emission, and every emission is such a call; ... *)
Theorem C300_calls body fs ts : let st := run body ts (start fs) in
  (forall t k n e, nth_error (tasks st) t = Some k -> nth_error (body (fn k)) n = Some (Emit e) -> n < pc k -> exists ids, In (t, n, e, ids) (emitted st)) /\
  (forall t n e ids, In (t, n, e, ids) (emitted st) -> exists k, nth_error (tasks st) t = Some k /\ nth_error (body (fn k)) n = Some (Emit e)).
Proof.
  cbv zeta. destruct (noted_run body fs ts) as (A & B). split.
  - intros t k n e H E L. apply (B t k n e); auto.
  - intros t n e ids I. apply (A t n e ids I).
Qed.
Print Assumptions C300_calls.
(** ... and nothing else is started: each task but the first ones is a listener of one emission, started once. *)
Theorem C300_nothing_else body fs ts : let st := run body ts (start fs) in
  flat_map snd (emitted st) = seq (length fs) (length (tasks st) - length fs) /\
  forall t n e ids i, In (t, n, e, ids) (emitted st) -> In i ids -> exists k, nth_error (tasks st) i = Some k /\ up k = Some t.
Proof.
  cbv zeta. split; [apply (all_started body fs ts)|]. intros t n e ids i I. destruct (noted_run body fs ts) as (A & _). apply (A t n e ids I).
Qed.
Print Assumptions C300_nothing_else.
(** Two tasks: the first subscribes 2 and 3 to an event, the second emits it twice, in between. *)
Definition two (f : nat) : list action :=
  match f with 0 => [Subscribe (u "a") 2; Subscribe (u "a") 3; Pause] | 1 => [Emit (u "a"); Emit (u "a")] | 2 => [Pause] | _ => [] end.
Example C300_case : let st := run two [0; 1; 0; 0; 1; 0; 2; 1; 2; 2; 1; 1; 1] (start [0; 1]) in
  map (fun x => functions st (snd x)) (emitted st) = [[2]; [2; 3]] /\ returned two st (u "a") 3 = 1 /\ not_called (start [0; 1]) 1 0 /\
  not_called (run two [0; 1; 0; 0; 1] (start [0; 1])) 1 1 /\ returned two (run two [0; 1; 0; 0; 1] (start [0; 1])) (u "a") 2 = 1.
Proof. vm_compute. auto 7 with arith. Qed.

(** ** C301 *)
Definition ended (st : state) (t n : nat) : Prop := exists k, nth_error (tasks st) t = Some k /\ (n < pc k \/ exists o, ph k = Over o).
(** Full statement: when an emission has ended, each of its listeners has run to its end or has itself failed. *)
Definition C301_statement : Prop := forall body fs ts t n e ids i, let st := run body ts (start fs) in
  In (t, n, e, ids) (emitted st) -> ended st t n -> In i ids -> complete body st i \/ failed st i = true.
(** False: a listener that fails has the others cancelled, those that have not even begun included. *)
Definition failing (f : nat) : list action :=
  match f with 0 => [Subscribe (u "a") 2; Subscribe (u "a") 3; Emit (u "a")] | 2 => [Raise] | _ => [Pause] end.
Theorem C301_refuted : ~ C301_statement.
Proof.
  intros S0. specialize (S0 failing [0] [0; 0; 0; 0; 0; 0; 1; 2; 0] 0 2 (u "a") [1; 2] 2). cbv zeta in S0.
  assert (I : In (0, 2, u "a", [1; 2]) (emitted (run failing [0; 0; 0; 0; 0; 0; 1; 2; 0] (start [0])))) by (vm_compute; now left).
  assert (E : ended (run failing [0; 0; 0; 0; 0; 0; 1; 2; 0] (start [0])) 0 2) by (eexists; split; [vm_compute; reflexivity|right; eexists; reflexivity]).
  destruct (S0 I E (or_intror (or_introl eq_refl))) as [(k & H & P & _)|H]; [vm_compute in H; injection H as <-; discriminate P|vm_compute in H; discriminate H].
Qed.
Print Assumptions C301_refuted.
(** What holds: [emit] returns only when all its listeners have run to their end; ... *)
Theorem C301_returns body fs ts t n e ids : let st := run body ts (start fs) in
  In (t, n, e, ids) (emitted st) -> (exists k, nth_error (tasks st) t = Some k /\ n < pc k) -> forall i, In i ids -> complete body st i.
Proof.
  cbv zeta. intros I (k & Hk & L) i Hi. pose proof (entries_run body fs ts _ I) as E. cbn [entry_ok] in E. destruct E as (_ & _ & k' & Hk' & D).
  rewrite Hk in Hk'. injection Hk' as <-. destruct D as [[_ F]|[E _]]; [|lia]. rewrite Forall_forall in F. destruct (F i Hi) as (ki & Ei & Pi).
  exists ki. split; [exact Ei|split; [exact Pi|]]. eapply fine_run; eauto.
Qed.
Print Assumptions C301_returns.
(** ... and when no function raises, nothing is cut short. *)
Theorem C301_calm_partial body fs ts t n e ids i : (forall f, ~ In Raise (body f)) -> let st := run body ts (start fs) in
  In (t, n, e, ids) (emitted st) -> ended st t n -> In i ids -> complete body st i.
Proof.
  intros NR st I (k & Hk & D) Hi. destruct D as [L|(o & P)]; [eapply C301_returns; eauto|].
  assert (Calm : forall t k, nth_error (tasks st) t = Some k -> ph k <> Over Failed /\ ph k <> Over Cancelled).
  { unfold st. clear - NR. apply (always body (fun st => forall t k, nth_error (tasks st) t = Some k -> ph k <> Over Failed /\ ph k <> Over Cancelled)).
    - intros t k H. apply nth_error_In in H. cbn [tasks start] in H. apply in_map_iff in H as (f & <- & _). split; discriminate.
    - intros st s st' C M t k' H.
      assert (NF : forall i, failed st i = false).
      { intros i. unfold failed. destruct (nth_error (tasks st) i) as [ki|] eqn:Ei; [|reflexivity]. destruct (C i ki Ei) as [F _]. destruct (ph ki) as [| | | |[]]; congruence. }
      assert (NS : forall i, ~ doomed st i).
      { intros i Dm. induction Dm as [i ki p Ei U Br|i ki p Ei U Dm IH]; [|exact IH]. unfold broken in Br. destruct (nth_error (tasks st) p) as [kp|]; [|discriminate].
        destruct (ph kp) as [| | |cs|]; try discriminate. apply existsb_exists in Br as (c & _ & Fc). rewrite NF in Fc. discriminate. }
      destruct (newcomer _ _ _ _ _ _ M H) as [(k & Hk)|(_ & R & _)]; [|rewrite R; split; discriminate].
      split; intros P.
      2:{ destruct (newly_cancelled _ _ _ _ _ _ M H P) as [H0|[_ Dm]]; [destruct (C t k' H0); contradiction|exact (NS _ Dm)]. }
      destruct (Nat.eq_dec t s) as [->|Dt].
      2:{ destruct (grow _ _ _ _ _ _ M Hk) as (k2 & E' & _ & _ & _ & _ & K). rewrite (K Dt) in E'. destruct (C t k Hk). congruence. }
      destruct M as [|k0 H0 P0 S0|k0 H0 P0 W|k0 H0 P0 W|k0 H0 P0 W|k0 cs0 k2 H0 P0 F0 ->|k0 H0 P0 W Ow Qu|k0 H0 P0 W OQ|k0 H0 P0 Ow S0|k0 H0 P0 Ow S0|k0 e0 f0 H0 P0 W|k0 e0 ids0 H0 P0 W ->];
        [destruct (C s k' H); contradiction|rewrite Hk in H0; injection H0 as <-; cbn [tasks put release] in H..].
      all: try (rewrite nth_upd_same in H by (eapply nth_lt; eauto); injection H as <-; discriminate P).
      + apply (NR (fn k)). eapply nth_error_In. exact W.
      + rewrite nth_upd_same in H by (eapply nth_lt; eauto). injection H as <-. destruct (existsb (failed st) cs0) eqn:Ex; [|destruct (stop st s); discriminate P].
        apply existsb_exists in Ex as (c & _ & Fc). rewrite NF in Fc. discriminate.
      + rewrite nth_error_app1 in H by (rewrite upd_length; eapply nth_lt; eauto). rewrite nth_upd_same in H by (eapply nth_lt; eauto). injection H as <-. discriminate P. }
  destruct (Calm t k Hk) as [C1 C2]. assert (o = Fine) by (destruct o; congruence). subst o.
  pose proof (fine_run body fs ts t k Hk P) as Ln. destruct (noted_run body fs ts) as (A & _). destruct (A t n e ids I) as [(k2 & H2 & W2) _].
  assert (k2 = k) by (unfold st in Hk; congruence). subst k2.
  assert (n < length (body (fn k))) by (apply nth_error_Some; congruence). eapply C301_returns; [exact I|exists k; split; [exact Hk|lia]|exact Hi].
Qed.
Print Assumptions C301_calm_partial.
Example C301_case : (forall f, ~ In Raise (two f)) /\ let st := run two [0; 1; 0; 0; 1; 0; 2; 1; 2; 2; 1] (start [0; 1]) in ended st 1 0 /\ In (1, 0, u "a", [2]) (emitted st).
Proof.
  split; [intros [|[|[|f]]]; cbn; intuition discriminate|]. cbv zeta. split; [|vm_compute; now left]. eexists. split; [vm_compute; reflexivity|left; vm_compute; lia].
Qed.

(** ** C302 *)
(** Calls of [subscribe] and [emit], made by listeners too, never block each other for good: as long as a task is not at
    its end there is one that can go on. *)
Theorem C302 body fs ts t : let st := run body ts (start fs) in unfinished st t -> exists s, step body st s <> st.
Proof.
  cbv zeta. pose proof (lock_run body fs ts) as (L1 & L2 & L3 & L4 & _). pose proof (tree_run body fs ts) as (T & _).
  set (st := run body ts (start fs)) in *. clearbody st.
  assert (Df : forall s k k', nth_error (tasks st) s = Some k -> nth_error (tasks (step body st s)) s = Some k' -> k' <> k -> step body st s <> st) by (intros s k k' A B C E; rewrite E in B; congruence).
  assert (Owner : forall o, owner st = Some o -> step body st o <> st).
  { intros o Ow. destruct (L2 o (or_introl Ow)) as (k & Hk & P & Lk). pose proof (nth_lt _ _ _ Hk) as Lt.
    assert (En : nth_error (tasks (enter body o k st)) o <> Some k).
    { unfold enter. destruct Lk as [(e & f & W)|(e & W)]; rewrite W; cbn [tasks release put].
      - rewrite nth_upd_same by assumption. destruct k; cbn. intros [= X _]. lia.
      - rewrite nth_error_app1 by (now rewrite upd_length). rewrite nth_upd_same by assumption. intros [= X]. rewrite <- X in P. destruct P; discriminate. }
    intros E. unfold step in E. rewrite Hk in E. destruct P as [P|P]; rewrite P in E.
    - rewrite Ow, Nat.eqb_refl in E. destruct (cancelled (length (tasks st)) st o).
      + assert (X : nth_error (tasks (release (put o (at_phase (Over Cancelled) k) st))) o = Some k) by (rewrite E; exact Hk).
        cbn [tasks release put] in X. rewrite nth_upd_same in X by assumption. injection X as X. rewrite <- X in P. discriminate.
      + rewrite E in En. contradiction.
    - rewrite E in En. contradiction. }
  remember (length (tasks st) - t) as d eqn:Ed. revert t Ed. induction d as [d IH] using lt_wf_ind. intros t Ed (k & Hk & NO). pose proof (nth_lt _ _ _ Hk) as Lt.
  destruct (ph k) as [| | |cs|o] eqn:P.
  - exists t. intros E. assert (X : nth_error (tasks (step body st t)) t = Some k) by (rewrite E; exact Hk). unfold step in X. rewrite Hk, P in X.
    assert (At : forall p, p <> Run -> at_phase p k <> k) by (intros p Np Eq; apply Np; rewrite <- P, <- Eq; reflexivity).
    assert (Nx : next k <> k) by (destruct k; cbn; intros [= Y _]; lia).
    assert (G : forall k', k' <> k -> nth_error (upd t k' (tasks st)) t <> Some k) by (intros k' Nk; rewrite nth_upd_same by assumption; congruence).
    destruct (cancelled (length (tasks st)) st t && (pc k =? 0)); [apply (G _ (At (Over Cancelled) ltac:(discriminate)) X)|].
    destruct (now body k) as [[e f|e| |]|].
    + destruct (cancelled (length (tasks st)) st t); [apply (G _ (At (Over Cancelled) ltac:(discriminate)) X)|].
      destruct (owner st); [|destruct (queue st)]; cbn [tasks] in X; [apply (G _ (At Wait ltac:(discriminate)) X)|apply (G _ (At Hold ltac:(discriminate)) X)|apply (G _ (At Wait ltac:(discriminate)) X)].
    + destruct (cancelled (length (tasks st)) st t); [apply (G _ (At (Over Cancelled) ltac:(discriminate)) X)|].
      destruct (owner st); [|destruct (queue st)]; cbn [tasks] in X; [apply (G _ (At Wait ltac:(discriminate)) X)|apply (G _ (At Hold ltac:(discriminate)) X)|apply (G _ (At Wait ltac:(discriminate)) X)].
    + destruct (cancelled (length (tasks st)) st t); [apply (G _ (At (Over Cancelled) ltac:(discriminate)) X)|apply (G _ Nx X)].
    + apply (G _ (At (Over Failed) ltac:(discriminate)) X).
    + apply (G _ (At (Over Fine) ltac:(discriminate)) X).
  - destruct (owner st) as [o|] eqn:Ow; [exists o; auto|]. destruct (L3 t k Hk P) as [Z|Z]; [discriminate|]. rewrite (L1 eq_refl) in Z. destruct Z.
  - exists t. apply Owner. eapply L4; eauto.
  - destruct (forallb (over st) cs) eqn:F.
    + exists t. intros E. assert (X : nth_error (tasks (step body st t)) t = Some k) by (rewrite E; exact Hk). unfold step in X. rewrite Hk, P, F in X. cbn [tasks put] in X.
      rewrite nth_upd_same in X by assumption. destruct (existsb (failed st) cs); [|destruct (cancelled (length (tasks st)) st t)]; injection X as X.
      * rewrite <- X in P. discriminate.
      * rewrite <- X in P. discriminate.
      * destruct k; cbn in X. injection X as Y _. lia.
    + assert (Ex : exists c, In c cs /\ over st c = false).
      { clear - F. induction cs as [|c cs IH]; [discriminate|]. cbn [forallb] in F. apply andb_false_iff in F as [F|F]; [exists c; split; [now left|exact F]|]. destruct (IH F) as (x & I & O). exists x. split; [now right|exact O]. }
      destruct Ex as (c & I & O). destruct (T t k cs Hk P) as [_ G]. destruct (G c I) as [Lc (kc & Hc & _)].
      refine (IH (length (tasks st) - c) _ c eq_refl _); [lia|]. exists kc. split; [exact Hc|]. intros o Po. unfold over in O. rewrite Hc, Po in O. discriminate.
  - now destruct (NO o).
Qed.
Print Assumptions C302.
(** A listener that subscribes and emits the event it listens to. *)
Definition loops (f : nat) : list action := match f with 0 => [Subscribe (u "a") 1; Emit (u "a")] | _ => [Subscribe (u "a") 1; Emit (u "a")] end.
Example C302_case : let st := run loops [0; 0; 0; 0; 1; 1; 1; 1; 2; 3] (start [0]) in
  unfinished st 0 /\ length (tasks st) = 4 /\ queue st = [3] /\ step loops st 2 <> st.
Proof.
  cbv zeta. refine (conj _ (conj _ (conj _ _))); [eexists; split; [vm_compute; reflexivity|discriminate]|vm_compute; reflexivity|vm_compute; reflexivity|].
  intros E. apply (f_equal queue) in E. vm_compute in E. discriminate E.
Qed.
