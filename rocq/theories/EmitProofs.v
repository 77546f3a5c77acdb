(** Invariants of all schedules of the event dispatcher. *)
From Verif Require Import PyStr PyStrFacts EmitModel EmitSpec.
Open Scope nat_scope.

Lemma upd_length t k l : length (upd t k l) = length l.
Proof. revert t. induction l as [|x l IH]; intros [|t]; cbn; auto. Qed.
Lemma nth_upd_same t k l : t < length l -> nth_error (upd t k l) t = Some k.
Proof. revert t. induction l as [|x l IH]; intros [|t] H; cbn in *; try lia; auto. apply IH. lia. Qed.
Lemma nth_upd_other t s k l : s <> t -> nth_error (upd t k l) s = nth_error l s.
Proof. revert t s. induction l as [|x l IH]; intros [|t] [|s] H; cbn; auto; try lia. Qed.
Lemma nth_lt {X} (l : list X) i x : nth_error l i = Some x -> i < length l.
Proof. intros H. apply nth_error_Some. congruence. Qed.
(** What is at a place after an update. *)
Lemma nth_upd t k0 k l s x : nth_error l t = Some k0 -> nth_error (upd t k l) s = Some x -> (s = t /\ x = k) \/ (s <> t /\ nth_error l s = Some x).
Proof.
  intros H0 H. destruct (Nat.eq_dec s t) as [->|D].
  - left. rewrite nth_upd_same in H by (eapply nth_lt; eauto). split; congruence.
  - right. rewrite nth_upd_other in H by assumption. auto.
Qed.

Section Body.
  Variable body : nat -> list action.
  Notation now := (now body).
  Notation step := (step body).
  Notation run := (run body).

  Definition locks (a : option action) : Prop := (exists e f, a = Some (Subscribe e f)) \/ (exists e, a = Some (Emit e)).
  Definition stop (st : state) (t : nat) : bool := cancelled (length (tasks st)) st t.

  (** All the ways in which one piece changes the state. *)
  Inductive move (st : state) (t : nat) : state -> Prop :=
  | m_stay : move st t st
  | m_cancel k : nth_error (tasks st) t = Some k -> ph k = Run -> stop st t = true -> move st t (put t (at_phase (Over Cancelled) k) st)
  | m_fine k : nth_error (tasks st) t = Some k -> ph k = Run -> now k = None -> move st t (put t (at_phase (Over Fine) k) st)
  | m_raise k : nth_error (tasks st) t = Some k -> ph k = Run -> now k = Some Raise -> move st t (put t (at_phase (Over Failed) k) st)
  | m_pause k : nth_error (tasks st) t = Some k -> ph k = Run -> now k = Some Pause -> move st t (put t (next k) st)
  | m_group k cs k' : nth_error (tasks st) t = Some k -> ph k = Group cs -> forallb (over st) cs = true ->
      k' = (if existsb (failed st) cs then at_phase (Over Failed) k else if stop st t then at_phase (Over Cancelled) k else next k) ->
      move st t (put t k' st)
  | m_hold k : nth_error (tasks st) t = Some k -> ph k = Run -> locks (now k) -> owner st = None -> queue st = [] ->
      move st t {| tasks := upd t (at_phase Hold k) (tasks st); owner := Some t; queue := []; listeners := listeners st; emitted := emitted st |}
  | m_wait k : nth_error (tasks st) t = Some k -> ph k = Run -> locks (now k) -> (owner st = None -> queue st <> []) ->
      move st t {| tasks := upd t (at_phase Wait k) (tasks st); owner := owner st; queue := queue st ++ [t]; listeners := listeners st; emitted := emitted st |}
  | m_leave k : nth_error (tasks st) t = Some k -> ph k = Wait -> owner st = Some t -> stop st t = true ->
      move st t (release (put t (at_phase (Over Cancelled) k) st))
  | m_quit k : nth_error (tasks st) t = Some k -> ph k = Wait -> owner st <> Some t -> stop st t = true ->
      move st t {| tasks := upd t (at_phase (Over Cancelled) k) (tasks st); owner := owner st; queue := filter (fun w => negb (w =? t)) (queue st);
                   listeners := listeners st; emitted := emitted st |}
  | m_subscribe k e f : nth_error (tasks st) t = Some k -> ph k = Hold \/ (ph k = Wait /\ owner st = Some t) -> now k = Some (Subscribe e f) ->
      move st t {| tasks := upd t (next k) (tasks st); owner := match queue st with [] => None | w :: _ => Some w end; queue := tl (queue st);
                   listeners := dset e (get e (listeners st) ++ [f]) (listeners st); emitted := emitted st |}
  | m_emit k e ids : nth_error (tasks st) t = Some k -> ph k = Hold \/ (ph k = Wait /\ owner st = Some t) -> now k = Some (Emit e) ->
      ids = seq (length (tasks st)) (length (get e (listeners st))) ->
      move st t {| tasks := upd t (at_phase (Group ids) k) (tasks st) ++ map (fun f => {| fn := f; pc := 0; ph := Run; up := Some t |}) (get e (listeners st));
                   owner := match queue st with [] => None | w :: _ => Some w end; queue := tl (queue st);
                   listeners := listeners st; emitted := emitted st ++ [(t, pc k, e, ids)] |}.

  Lemma enter_move st t k : nth_error (tasks st) t = Some k -> ph k = Hold \/ (ph k = Wait /\ owner st = Some t) -> move st t (enter body t k st).
  Proof.
    intros H P. unfold enter. destruct (now k) as [[e f|e| |]|] eqn:E; try apply m_stay.
    - exact (m_subscribe st t k e f H P E).
    - exact (m_emit st t k e _ H P E eq_refl).
  Qed.
  Lemma step_move st t : move st t (step st t).
  Proof.
    unfold EmitModel.step. destruct (nth_error (tasks st) t) as [k|] eqn:H; [|apply m_stay].
    fold (stop st t). destruct (ph k) as [| | |cs|o] eqn:P.
    - destruct (stop st t && (pc k =? 0)) eqn:S0.
      + apply andb_true_iff in S0 as [S0 _]. now apply m_cancel.
      + destruct (now k) as [a|] eqn:W; [|now apply m_fine].
        assert (L : forall o q, locks (Some a) -> owner st = o -> queue st = q ->
          move st t (if stop st t then put t (at_phase (Over Cancelled) k) st else
            match o, q with
            | None, [] => {| tasks := upd t (at_phase Hold k) (tasks st); owner := Some t; queue := []; listeners := listeners st; emitted := emitted st |}
            | Some o', q => {| tasks := upd t (at_phase Wait k) (tasks st); owner := Some o'; queue := q ++ [t]; listeners := listeners st; emitted := emitted st |}
            | None, w :: q => {| tasks := upd t (at_phase Wait k) (tasks st); owner := None; queue := (w :: q) ++ [t]; listeners := listeners st; emitted := emitted st |}
            end)).
        { intros o q L Eo Eq. destruct (stop st t) eqn:S1; [now apply m_cancel|].
          destruct o as [o|]; [|destruct q as [|w q]].
          - rewrite <- Eo, <- Eq. apply m_wait; [assumption..|rewrite W; exact L|congruence].
          - apply m_hold; try assumption; rewrite W; exact L.
          - rewrite <- Eo, <- Eq. apply m_wait; [assumption..|rewrite W; exact L|congruence]. }
        destruct a as [e f|e| |].
        * exact (L _ _ (or_introl (ex_intro _ e (ex_intro _ f eq_refl))) eq_refl eq_refl).
        * exact (L _ _ (or_intror (ex_intro _ e eq_refl)) eq_refl eq_refl).
        * destruct (stop st t) eqn:S1; [now apply m_cancel|now apply m_pause].
        * now apply m_raise.
    - destruct (match owner st with Some o => o =? t | None => false end) eqn:O.
      + assert (Ow : owner st = Some t) by (destruct (owner st) as [o|]; [apply Nat.eqb_eq in O; congruence|discriminate]).
        destruct (stop st t) eqn:S1; [now apply m_leave|]. apply enter_move; auto.
      + assert (Ow : owner st <> Some t) by (intros X; rewrite X, Nat.eqb_refl in O; discriminate).
        destruct (stop st t) eqn:S1; [now apply m_quit|apply m_stay].
    - apply enter_move; auto.
    - destruct (forallb (over st) cs) eqn:A; [|apply m_stay]. eapply m_group; eauto.
    - apply m_stay.
  Qed.

  Lemma run_app a b st : run (a ++ b) st = run b (run a st).
  Proof. unfold EmitModel.run. apply fold_left_app. Qed.
  Lemma run_snoc a t st : run (a ++ [t]) st = step (run a st) t.
  Proof. now rewrite run_app. Qed.
  (** What holds at first and after every piece holds always. *)
  Lemma always (P : state -> Prop) fs : P (start fs) -> (forall st t st', P st -> move st t st' -> P st') -> forall ts, P (run ts (start fs)).
  Proof. intros H0 H ts. induction ts as [|t ts IH] using rev_ind; [exact H0|]. rewrite run_snoc. exact (H _ t _ IH (step_move _ t)). Qed.

  (** The lock: who holds it is inside, who is inside holds it or waits. *)
  Definition inside (st : state) (t : nat) : Prop := exists k, nth_error (tasks st) t = Some k /\ (ph k = Wait \/ ph k = Hold) /\ locks (now k).
  Definition lock_ok (st : state) : Prop :=
    (owner st = None -> queue st = []) /\
    (forall t, owner st = Some t \/ In t (queue st) -> inside st t) /\
    (forall t k, nth_error (tasks st) t = Some k -> ph k = Wait -> owner st = Some t \/ In t (queue st)) /\
    (forall t k, nth_error (tasks st) t = Some k -> ph k = Hold -> owner st = Some t) /\
    NoDup (match owner st with Some o => [o] | None => [] end ++ queue st).

  Lemma inside_upd st t k k' s o q d m extra : nth_error (tasks st) t = Some k -> (s = t -> (ph k' = Wait \/ ph k' = Hold) /\ locks (now k')) -> (s <> t -> inside st s) ->
    inside {| tasks := upd t k' (tasks st) ++ extra; owner := o; queue := q; listeners := d; emitted := m |} s.
  Proof.
    intros H K I. destruct (Nat.eq_dec s t) as [->|D].
    - exists k'. cbn [tasks]. rewrite nth_error_app1 by (rewrite upd_length; eapply nth_lt; eauto). rewrite nth_upd_same by (eapply nth_lt; eauto). split; [reflexivity|apply K; reflexivity].
    - destruct (I D) as (x & Hx & R). exists x. cbn [tasks]. rewrite nth_error_app1 by (rewrite upd_length; eapply nth_lt; eauto). rewrite nth_upd_other by assumption. auto.
  Qed.
  Lemma nodup_head (x : nat) l : NoDup (x :: l) -> NoDup (match l with [] => [] | w :: _ => [w] end ++ tl l).
  Proof. intros H. inversion H; subst. destruct l; [constructor|]. assumption. Qed.
  Lemma out_of st t k : lock_ok st -> nth_error (tasks st) t = Some k -> ph k <> Wait -> ph k <> Hold -> owner st <> Some t /\ ~ In t (queue st).
  Proof.
    intros (_ & I & _) H W D. split; intros X; (destruct (I t ltac:(auto)) as (x & Hx & [P|P] & _); rewrite H in Hx; injection Hx as <-; auto).
  Qed.
  (** The one who leaves hands the lock over. *)
  Lemma hand_over st t k k' extra d m : lock_ok st -> nth_error (tasks st) t = Some k -> owner st = Some t -> ph k' <> Wait -> ph k' <> Hold ->
    Forall (fun x => ph x <> Wait /\ ph x <> Hold) extra ->
    lock_ok {| tasks := upd t k' (tasks st) ++ extra; owner := match queue st with [] => None | w :: _ => Some w end; queue := tl (queue st); listeners := d; emitted := m |}.
  Proof.
    intros (N & I & W & D & U) H O P1 P2 X. rewrite O in U. cbn [app] in U. inversion U as [|? ? NI UQ]; subst.
    assert (G : forall s x, nth_error (upd t k' (tasks st) ++ extra) s = Some x -> ph x = Wait \/ ph x = Hold -> s <> t /\ nth_error (tasks st) s = Some x).
    { intros s x Hs Px. destruct (Nat.lt_ge_cases s (length (upd t k' (tasks st)))) as [L|L].
      - rewrite nth_error_app1 in Hs by assumption. destruct (nth_upd _ _ _ _ _ _ H Hs) as [[-> ->]|R]; [tauto|exact R].
      - rewrite nth_error_app2 in Hs by assumption. apply nth_error_In in Hs. rewrite Forall_forall in X. destruct (X x Hs). tauto. }
    refine (conj _ (conj _ (conj _ (conj _ _)))); cbn [owner queue].
    - destruct (queue st); [reflexivity|discriminate].
    - intros s Hs. assert (Q : In s (queue st)).
      { destruct (queue st) as [|w q]; [destruct Hs as [Hs|[]]; discriminate|]. destruct Hs as [[= <-]|Hs]; [now left|now right]. }
      eapply inside_upd; [exact H| |intros _; apply I; now right]. intros ->. contradiction.
    - intros s x Hs Px. destruct (G s x Hs (or_introl Px)) as [Ds Hs']. destruct (W s x Hs' Px) as [Z|Z]; [congruence|].
      destruct (queue st) as [|w q]; [destruct Z|]. destruct Z as [<-|Z]; [now left|now right].
    - intros s x Hs Px. destruct (G s x Hs (or_intror Px)) as [Ds Hs']. apply (D s x Hs') in Px. congruence.
    - destruct (queue st) as [|w q]; [constructor|exact UQ].
  Qed.
  (** A piece of one outside changes nothing for the lock. *)
  Lemma elsewhere st t k k' : lock_ok st -> nth_error (tasks st) t = Some k -> ph k <> Wait -> ph k <> Hold -> ph k' <> Wait -> ph k' <> Hold ->
    lock_ok (put t k' st).
  Proof.
    intros L H A B C E. destruct (out_of st t k L H A B) as [O1 O2]. destruct L as (N & I & W & D & U).
    refine (conj _ (conj _ (conj _ (conj _ _)))); cbn [owner queue put]; auto.
    - intros s Hs. unfold put. rewrite <- (app_nil_r (upd t k' (tasks st))). eapply inside_upd; [exact H| |auto]. intros ->. destruct Hs; contradiction.
    - intros s x Hs Px. destruct (nth_upd _ _ _ _ _ _ H Hs) as [[-> ->]|[_ Hs']]; [contradiction|eauto].
    - intros s x Hs Px. destruct (nth_upd _ _ _ _ _ _ H Hs) as [[-> ->]|[_ Hs']]; [contradiction|eauto].
  Qed.
  Lemma lock_start fs : lock_ok (start fs).
  Proof.
    assert (R : forall t k, nth_error (tasks (start fs)) t = Some k -> ph k = Run).
    { intros t k H. apply nth_error_In in H. cbn [tasks start] in H. apply in_map_iff in H as (f & <- & _). reflexivity. }
    refine (conj _ (conj _ (conj _ (conj _ _)))); cbn [owner queue start]; [reflexivity| | | |constructor].
    - intros t [H|[]]. discriminate.
    - intros t k H P. rewrite (R t k H) in P. discriminate.
    - intros t k H P. rewrite (R t k H) in P. discriminate.
  Qed.
  Lemma lock_move st t st' : lock_ok st -> move st t st' -> lock_ok st'.
  Proof.
    intros L M. destruct M as [|k H P S0|k H P W|k H P W|k H P W|k cs k' H P F ->|k H P W Ow Qu|k H P W OQ|k H P Ow S0|k H P Ow S0|k e f H P W|k e ids H P W ->].
    - exact L.
    - eapply elsewhere; eauto; try rewrite P; cbn; discriminate.
    - eapply elsewhere; eauto; try rewrite P; cbn; discriminate.
    - eapply elsewhere; eauto; try rewrite P; cbn; discriminate.
    - eapply elsewhere; eauto; try rewrite P; cbn; discriminate.
    - eapply elsewhere; eauto; try rewrite P; try discriminate; destruct (existsb (failed st) cs); [discriminate|destruct (stop st t); discriminate|discriminate|destruct (stop st t); discriminate].
    - destruct L as (_ & I & Wt & D & U). refine (conj _ (conj _ (conj _ (conj _ _)))); cbn [owner queue].
      + discriminate.
      + intros s [[= <-]|[]]. rewrite <- (app_nil_r (upd t _ (tasks st))). eapply inside_upd; [exact H|intros _; split; [now right|exact W]|congruence].
      + intros s x Hs Px. destruct (nth_upd _ _ _ _ _ _ H Hs) as [[-> ->]|[_ Hs']]; [discriminate Px|]. destruct (Wt s x Hs' Px) as [Z|Z]; [congruence|]. rewrite Qu in Z. destruct Z.
      + intros s x Hs Px. destruct (nth_upd _ _ _ _ _ _ H Hs) as [[-> ->]|[_ Hs']]; [reflexivity|]. apply (D s x Hs') in Px. congruence.
      + constructor; [intros []|constructor].
    - assert (L' := L). destruct (out_of st t k L H ltac:(congruence) ltac:(congruence)) as [O1 O2]. destruct L as (N & I & Wt & D & U).
      refine (conj _ (conj _ (conj _ (conj _ _)))); cbn [owner queue].
      + intros Z. specialize (OQ Z). specialize (N Z). contradiction.
      + intros s Hs. rewrite <- (app_nil_r (upd t _ (tasks st))). eapply inside_upd; [exact H|intros _; split; [now left|exact W]|]. intros Ds. apply I.
        destruct Hs as [Hs|Hs]; [now left|]. apply in_app_iff in Hs as [Hs|[Hs|[]]]; [now right|congruence].
      + intros s x Hs Px. destruct (nth_upd _ _ _ _ _ _ H Hs) as [[-> ->]|[_ Hs']]; [right; apply in_app_iff; right; now left|].
        destruct (Wt s x Hs' Px) as [Z|Z]; [now left|right; apply in_app_iff; now left].
      + intros s x Hs Px. destruct (nth_upd _ _ _ _ _ _ H Hs) as [[-> ->]|[_ Hs']]; [discriminate Px|eauto].
      + rewrite app_assoc. rewrite <- (rev_involutive (_ ++ [t])). apply NoDup_rev. rewrite rev_app_distr. cbn [rev app].
        constructor; [|now apply NoDup_rev]. rewrite <- in_rev. intros Z. apply in_app_iff in Z as [Z|Z]; [|contradiction].
        destruct (owner st) as [o|]; [destruct Z as [Z|[]]; congruence|destruct Z].
    - unfold release. cbn [put tasks owner queue listeners emitted]. rewrite <- (app_nil_r (upd t _ (tasks st))). eapply hand_over; eauto; discriminate.
    - destruct L as (N & I & Wt & D & U).
      refine (conj _ (conj _ (conj _ (conj _ _)))); cbn [owner queue].
      + intros Z. rewrite (N Z). reflexivity.
      + intros s Hs. rewrite <- (app_nil_r (upd t _ (tasks st))). eapply inside_upd; [exact H| |].
        * intros ->. exfalso. destruct Hs as [Hs|Hs]; [contradiction|]. apply filter_In in Hs as [_ Hs]. rewrite Nat.eqb_refl in Hs. discriminate.
        * intros _. apply I. destruct Hs as [Hs|Hs]; [now left|]. apply filter_In in Hs as [Hs _]. now right.
      + intros s x Hs Px. destruct (nth_upd _ _ _ _ _ _ H Hs) as [[-> ->]|[Ds Hs']]; [discriminate Px|].
        destruct (Wt s x Hs' Px) as [Z|Z]; [now left|]. right. apply filter_In. split; [exact Z|]. apply negb_true_iff, Nat.eqb_neq. exact Ds.
      + intros s x Hs Px. destruct (nth_upd _ _ _ _ _ _ H Hs) as [[-> ->]|[_ Hs']]; [discriminate Px|eauto].
      + destruct (owner st) as [o|]; cbn [app] in *; [|now apply NoDup_filter]. inversion U as [|? ? NI UQ]; subst. constructor; [|now apply NoDup_filter].
        intros Z. apply filter_In in Z as [Z _]. contradiction.
    - rewrite <- (app_nil_r (upd t _ (tasks st))). eapply hand_over; eauto; try discriminate.
      destruct P as [P|[_ P]]; [|exact P]. destruct L as (_ & _ & _ & D & _). eauto.
    - eapply hand_over; eauto; try discriminate.
      + destruct P as [P|[_ P]]; [|exact P]. destruct L as (_ & _ & _ & D & _). eauto.
      + apply Forall_forall. intros x Hx. apply in_map_iff in Hx as (f & <- & _). split; discriminate.
  Qed.
  Lemma lock_run fs ts : lock_ok (run ts (start fs)).
  Proof. apply always; [apply lock_start|apply lock_move]. Qed.

  (** Tasks stay, keep their function and their group, and go forward. *)
  Lemma grow st s st' i k : move st s st' -> nth_error (tasks st) i = Some k ->
    exists k', nth_error (tasks st') i = Some k' /\ fn k' = fn k /\ up k' = up k /\ pc k <= pc k' /\ ((exists o, ph k = Over o) -> k' = k) /\ (i <> s -> k' = k).
  Proof.
    intros M Hi.
    assert (G : forall k0 k1 extra, nth_error (tasks st) s = Some k0 -> (forall o, ph k0 <> Over o) -> fn k1 = fn k0 -> up k1 = up k0 -> pc k0 <= pc k1 ->
      exists k', nth_error (upd s k1 (tasks st) ++ extra) i = Some k' /\ fn k' = fn k /\ up k' = up k /\ pc k <= pc k' /\ ((exists o, ph k = Over o) -> k' = k) /\ (i <> s -> k' = k)).
    { intros k0 k1 extra H0 NO A B C. rewrite nth_error_app1 by (rewrite upd_length; eapply nth_lt; eauto).
      destruct (Nat.eq_dec i s) as [->|D].
      - rewrite Hi in H0. injection H0 as <-. exists k1. rewrite nth_upd_same by (eapply nth_lt; eauto). split; [reflexivity|]. split; [exact A|split; [exact B|split; [exact C|split; [|congruence]]]]. intros (o & Ho). destruct (NO o Ho).
      - exists k. rewrite nth_upd_other by assumption. auto 7. }
    assert (G0 : forall k0 k1, nth_error (tasks st) s = Some k0 -> (forall o, ph k0 <> Over o) -> fn k1 = fn k0 -> up k1 = up k0 -> pc k0 <= pc k1 ->
      exists k', nth_error (upd s k1 (tasks st)) i = Some k' /\ fn k' = fn k /\ up k' = up k /\ pc k <= pc k' /\ ((exists o, ph k = Over o) -> k' = k) /\ (i <> s -> k' = k)).
    { intros k0 k1. rewrite <- (app_nil_r (upd s k1 (tasks st))). apply G. }
    destruct M as [|k0 H P S0|k0 H P W|k0 H P W|k0 H P W|k0 cs k' H P F ->|k0 H P W Ow Qu|k0 H P W OQ|k0 H P Ow S0|k0 H P Ow S0|k0 e f H P W|k0 e ids H P W ->]; cbn [tasks put release].
    - exists k. auto 7.
    - apply (G0 k0); auto; rewrite P; discriminate.
    - apply (G0 k0); auto; rewrite P; discriminate.
    - apply (G0 k0); auto; rewrite P; discriminate.
    - apply (G0 k0); cbn; auto; rewrite P; discriminate.
    - apply (G0 k0); [auto|rewrite P; discriminate|..]; (destruct (existsb (failed st) cs); [|destruct (stop st s)]); cbn; auto.
    - apply (G0 k0); auto; rewrite P; discriminate.
    - apply (G0 k0); auto; rewrite P; discriminate.
    - apply (G0 k0); auto; rewrite P; discriminate.
    - apply (G0 k0); auto; rewrite P; discriminate.
    - apply (G0 k0); cbn; auto. intros o. destruct P as [P|[P _]]; rewrite P; discriminate.
    - apply (G k0); cbn; auto. intros o. destruct P as [P|[P _]]; rewrite P; discriminate.
  Qed.
  (** New tasks are listeners just started. *)
  Lemma newcomer st s st' i k' : move st s st' -> nth_error (tasks st') i = Some k' ->
    (exists k, nth_error (tasks st) i = Some k) \/ (length (tasks st) <= i /\ ph k' = Run /\ pc k' = 0 /\ up k' = Some s).
  Proof.
    intros M Hi. assert (G : forall x, nth_error (upd s x (tasks st)) i = Some k' -> exists k, nth_error (tasks st) i = Some k).
    { intros x Hx. apply nth_lt in Hx. rewrite upd_length in Hx. apply nth_error_Some in Hx. destruct (nth_error (tasks st) i); [eauto|congruence]. }
    destruct M; cbn [tasks put release] in Hi; try (left; now apply (G _ Hi)); [left; eauto|].
    destruct (Nat.lt_ge_cases i (length (tasks st))) as [L|L].
    - left. apply nth_error_Some in L. destruct (nth_error (tasks st) i); [eauto|congruence].
    - right. rewrite nth_error_app2 in Hi by (now rewrite upd_length). apply nth_error_In, in_map_iff in Hi as (f & <- & _). auto.
  Qed.
  Lemma tasks_length st s st' : move st s st' -> length (tasks st) <= length (tasks st').
  Proof. intros M. destruct M; cbn [tasks put release]; rewrite ?app_length, ?upd_length; lia. Qed.
  Lemma over_stays st s st' i : move st s st' -> i < length (tasks st) -> over st i = true -> over st' i = true.
  Proof.
    intros M L O. unfold over in *. destruct (nth_error (tasks st) i) as [k|] eqn:E; [|apply nth_error_None in E; lia].
    destruct (grow _ _ _ _ _ M E) as (k' & E' & _ & _ & _ & K & _). rewrite E'. destruct (ph k) eqn:P; try discriminate. rewrite K by eauto. now rewrite P.
  Qed.
  Lemma failed_stays st s st' i : move st s st' -> failed st i = true -> failed st' i = true.
  Proof.
    intros M O. unfold failed in *. destruct (nth_error (tasks st) i) as [k|] eqn:E; [|discriminate].
    destruct (grow _ _ _ _ _ M E) as (k' & E' & _ & _ & _ & K & _). rewrite E'. destruct (ph k) eqn:P; try discriminate. rewrite K by eauto. now rewrite P.
  Qed.

  (** Groups: whose tasks are in which, and that one in a group is in [emit]. *)
  Definition tree_ok (st : state) : Prop :=
    (forall t k cs, nth_error (tasks st) t = Some k -> ph k = Group cs ->
       (exists e, now k = Some (Emit e)) /\ forall c, In c cs -> t < c < length (tasks st) /\ exists kc, nth_error (tasks st) c = Some kc /\ up kc = Some t) /\
    (forall c kc p, nth_error (tasks st) c = Some kc -> up kc = Some p ->
       p < c /\ ((forall o, ph kc <> Over o) -> exists kp cs, nth_error (tasks st) p = Some kp /\ ph kp = Group cs /\ In c cs)).
  Lemma tree_start fs : tree_ok (start fs).
  Proof.
    assert (R : forall t k, nth_error (tasks (start fs)) t = Some k -> ph k = Run /\ up k = None).
    { intros t k H. apply nth_error_In in H. cbn [tasks start] in H. apply in_map_iff in H as (f & <- & _). auto. }
    split.
    - intros t k cs H P. destruct (R t k H). congruence.
    - intros c kc p H P. destruct (R c kc H). congruence.
  Qed.
  (** A group stays as it is while one of its tasks is not at its end. *)
  Lemma group_stays st s st' p kp cs c kc : move st s st' -> nth_error (tasks st) p = Some kp -> ph kp = Group cs -> In c cs ->
    nth_error (tasks st) c = Some kc -> (forall o, ph kc <> Over o) -> nth_error (tasks st') p = Some kp.
  Proof.
    intros M H P I Hc NO. destruct (Nat.eq_dec p s) as [->|D].
    - assert (F : forallb (over st) cs = true -> False).
      { intros F. rewrite forallb_forall in F. specialize (F c I). unfold over in F. rewrite Hc in F. destruct (ph kc) eqn:X; try discriminate. now apply (NO o). }
      destruct M as [|k0 H0 P0 S0|k0 H0 P0 W|k0 H0 P0 W|k0 H0 P0 W|k0 cs0 k' H0 P0 F0 ->|k0 H0 P0 W Ow Qu|k0 H0 P0 W OQ|k0 H0 P0 Ow S0|k0 H0 P0 Ow S0|k0 e f H0 P0 W|k0 e ids H0 P0 W ->];
        [exact H|rewrite H in H0; injection H0 as <-..].
      all: try congruence.
      + destruct P0 as [P0|[P0 _]]; congruence.
      + destruct P0 as [P0|[P0 _]]; congruence.
    - destruct (grow _ _ _ _ _ M H) as (k' & E' & _ & _ & _ & _ & K). now rewrite (K D) in E'.
  Qed.
  (** A task in a group: it was, or it has just called [emit]. *)
  Lemma group_origin st s st' t k' cs : move st s st' -> nth_error (tasks st') t = Some k' -> ph k' = Group cs ->
    nth_error (tasks st) t = Some k' \/
    (t = s /\ exists k e, nth_error (tasks st) t = Some k /\ k' = at_phase (Group cs) k /\ now k = Some (Emit e) /\ cs = seq (length (tasks st)) (length (get e (listeners st))) /\
       tasks st' = upd t k' (tasks st) ++ map (fun f => {| fn := f; pc := 0; ph := Run; up := Some t |}) (get e (listeners st))).
  Proof.
    intros M H P. destruct (newcomer _ _ _ _ _ M H) as [(k & Hk)|(_ & R & _)]; [|congruence].
    destruct (Nat.eq_dec t s) as [->|D].
    2:{ destruct (grow _ _ _ _ _ M Hk) as (k2 & E' & _ & _ & _ & _ & K). rewrite (K D) in E'. left. congruence. }
    destruct M as [|k0 H0 P0 S0|k0 H0 P0 W|k0 H0 P0 W|k0 H0 P0 W|k0 cs0 k2 H0 P0 F0 ->|k0 H0 P0 W Ow Qu|k0 H0 P0 W OQ|k0 H0 P0 Ow S0|k0 H0 P0 Ow S0|k0 e f H0 P0 W|k0 e ids H0 P0 W ->];
      [now left|..]; rewrite Hk in H0; injection H0 as <-; cbn [tasks put release] in H.
    all: try (rewrite nth_upd_same in H by (eapply nth_lt; eauto); injection H as <-; discriminate P).
    - rewrite nth_upd_same in H by (eapply nth_lt; eauto). injection H as <-. destruct (existsb (failed st) cs0); [discriminate P|destruct (stop st s); discriminate P].
    - right. split; [reflexivity|]. exists k, e. rewrite nth_error_app1 in H by (rewrite upd_length; eapply nth_lt; eauto). rewrite nth_upd_same in H by (eapply nth_lt; eauto).
      injection H as <-. injection P as <-. auto 7.
  Qed.
  Lemma tree_move st s st' : tree_ok st -> move st s st' -> tree_ok st'.
  Proof.
    intros (A & B) M. split.
    - intros t k' cs H P. destruct (group_origin _ _ _ _ _ _ M H P) as [H0|(-> & k & e & Hk & -> & W & -> & Et)].
      + destruct (A t k' cs H0 P) as [E C]. split; [exact E|]. intros c I. destruct (C c I) as [L (kc & Hc & U)].
        destruct (grow _ _ _ _ _ M Hc) as (kc' & Hc' & _ & U' & _). split; [pose proof (tasks_length _ _ _ M); lia|]. exists kc'. split; [exact Hc'|congruence].
      + split; [exists e; exact W|]. intros c I. apply in_seq in I. pose proof (nth_lt _ _ _ Hk) as Ls. rewrite Et, app_length, map_length, upd_length.
        split; [lia|]. rewrite nth_error_app2 by (rewrite upd_length; lia). rewrite upd_length.
        assert (X : c - length (tasks st) < length (get e (listeners st))) by lia. apply nth_error_Some in X.
        destruct (nth_error (get e (listeners st)) (c - length (tasks st))) as [f|] eqn:Y; [|congruence].
        exists {| fn := f; pc := 0; ph := Run; up := Some s |}. split; [|reflexivity].
        exact (map_nth_error (fun f => {| fn := f; pc := 0; ph := Run; up := Some s |}) _ _ Y).
    - intros c kc p H U. destruct (newcomer _ _ _ _ _ M H) as [(k & Hk)|(L & R & _ & U')].
      + destruct (grow _ _ _ _ _ M Hk) as (k2 & E' & _ & U2 & _ & Ov & _). assert (k2 = kc) by congruence. subst k2.
        destruct (B c k p Hk ltac:(congruence)) as [Lp G]. split; [exact Lp|]. intros NO.
        assert (NK : forall o, ph k <> Over o) by (intros o Ho; apply (NO o); rewrite Ov; [exact Ho|eauto]).
        destruct (G NK) as (kp & cs & Hp & Pp & I). exists kp, cs. split; [|auto]. eapply group_stays; eauto.
      + rewrite U in U'. injection U' as <-.
        destruct M as [|k0 H0 P0 S0|k0 H0 P0 W|k0 H0 P0 W|k0 H0 P0 W|k0 cs0 k2 H0 P0 F0 ->|k0 H0 P0 W Ow Qu|k0 H0 P0 W OQ|k0 H0 P0 Ow S0|k0 H0 P0 Ow S0|k0 e f H0 P0 W|k0 e ids H0 P0 W ->]; cbn [tasks put release] in H.
        all: try (apply nth_lt in H; rewrite ?upd_length in H; lia).
        split; [apply nth_lt in H0; lia|]. intros _. exists (at_phase (Group (seq (length (tasks st)) (length (get e (listeners st))))) k0).
        exists (seq (length (tasks st)) (length (get e (listeners st)))). cbn [tasks]. rewrite nth_error_app1 by (rewrite upd_length; eapply nth_lt; eauto).
        rewrite nth_upd_same by (eapply nth_lt; eauto). split; [reflexivity|]. split; [reflexivity|]. apply in_seq. apply nth_lt in H. rewrite app_length, map_length, upd_length in H. lia.
  Qed.
  Lemma tree_run fs ts : tree_ok (run ts (start fs)).
  Proof. apply always; [apply tree_start|apply tree_move]. Qed.

  (** Who must stop, without counting how deep it is. *)
  Inductive doomed (st : state) : nat -> Prop :=
  | dm_here t k p : nth_error (tasks st) t = Some k -> up k = Some p -> broken st p = true -> doomed st t
  | dm_up t k p : nth_error (tasks st) t = Some k -> up k = Some p -> doomed st p -> doomed st t.
  Lemma stop_doomed st t : stop st t = true -> doomed st t.
  Proof.
    unfold stop. generalize (length (tasks st)) as d. intros d. revert t. induction d as [|d IH]; intros t H; [discriminate|]. cbn [cancelled] in H.
    destruct (nth_error (tasks st) t) as [k|] eqn:E; [|discriminate]. destruct (up k) as [p|] eqn:U; [|discriminate].
    apply orb_true_iff in H as [H|H]; [eapply dm_here; eauto|eapply dm_up; eauto].
  Qed.
  Lemma doomed_stop st t : tree_ok st -> doomed st t -> t < length (tasks st) -> stop st t = true.
  Proof.
    intros (_ & B) D. unfold stop. generalize (length (tasks st)) as d. induction D as [t k p H U Br|t k p H U D IH]; intros d L.
    - destruct d as [|d]; [lia|]. cbn [cancelled]. rewrite H, U, Br. reflexivity.
    - destruct d as [|d]; [lia|]. cbn [cancelled]. rewrite H, U. rewrite IH; [apply orb_true_r|]. destruct (B t k p H U). lia.
  Qed.
  Lemma doomed_stays st s st' t k : tree_ok st -> move st s st' -> doomed st t -> nth_error (tasks st) t = Some k -> (forall o, ph k <> Over o) -> doomed st' t.
  Proof.
    intros (A & B) M D. revert k. induction D as [t k p H U Br|t k p H U D IH]; intros k2 H2 NO; rewrite H in H2; injection H2 as <-.
    - destruct (B t k p H U) as [_ G]. destruct (G NO) as (kp & cs & Hp & Pp & I). destruct (grow _ _ _ _ _ M H) as (k' & H' & _ & U' & _).
      eapply (dm_here _ _ _ p); [exact H'|congruence|]. unfold broken in *. rewrite Hp, Pp in Br. rewrite (group_stays _ _ _ _ _ _ _ _ M Hp Pp I H NO), Pp.
      apply existsb_exists in Br as (c & Ic & Fc). apply existsb_exists. exists c. split; [exact Ic|]. eapply failed_stays; eauto.
    - destruct (B t k p H U) as [_ G]. destruct (G NO) as (kp & cs & Hp & Pp & I). destruct (grow _ _ _ _ _ M H) as (k' & H' & _ & U' & _).
      eapply (dm_up _ _ _ p); [exact H'|congruence|]. apply (IH kp Hp). rewrite Pp. discriminate.
  Qed.
  (** A task is cancelled only for a failure in its own group, or because those above it are cancelled too. *)
  Definition cancels_ok (st : state) : Prop := forall t k cs c kc, nth_error (tasks st) t = Some k -> ph k = Group cs -> In c cs ->
    nth_error (tasks st) c = Some kc -> ph kc = Over Cancelled -> broken st t = true \/ doomed st t.
  Lemma newly_cancelled st s st' c kc : move st s st' -> nth_error (tasks st') c = Some kc -> ph kc = Over Cancelled ->
    nth_error (tasks st) c = Some kc \/ (c = s /\ doomed st c).
  Proof.
    intros M H P. destruct (newcomer _ _ _ _ _ M H) as [(k & Hk)|(_ & R & _)]; [|congruence].
    destruct (Nat.eq_dec c s) as [->|D].
    2:{ destruct (grow _ _ _ _ _ M Hk) as (k2 & E' & _ & _ & _ & _ & K). rewrite (K D) in E'. left. congruence. }
    destruct M as [|k0 H0 P0 S0|k0 H0 P0 W|k0 H0 P0 W|k0 H0 P0 W|k0 cs0 k2 H0 P0 F0 ->|k0 H0 P0 W Ow Qu|k0 H0 P0 W OQ|k0 H0 P0 Ow S0|k0 H0 P0 Ow S0|k0 e f H0 P0 W|k0 e ids H0 P0 W ->];
      [now left|..]; try (right; split; [reflexivity|now apply stop_doomed]); rewrite Hk in H0; injection H0 as <-; cbn [tasks put release] in H.
    all: try (rewrite nth_upd_same in H by (eapply nth_lt; eauto); injection H as <-; discriminate P).
    - rewrite nth_upd_same in H by (eapply nth_lt; eauto). injection H as <-. destruct (existsb (failed st) cs0); [discriminate P|].
      destruct (stop st s) eqn:S0; [|discriminate P]. right. split; [reflexivity|now apply stop_doomed].
    - rewrite nth_error_app1 in H by (rewrite upd_length; eapply nth_lt; eauto). rewrite nth_upd_same in H by (eapply nth_lt; eauto). injection H as <-. discriminate P.
  Qed.
  Lemma cancels_move st s st' : tree_ok st -> cancels_ok st -> move st s st' -> cancels_ok st'.
  Proof.
    intros T C M t k' cs c kc H P I Hc Pc. destruct (group_origin _ _ _ _ _ _ M H P) as [H0|(-> & k & e & Hk & -> & W & -> & Et)].
    - assert (Old : broken st t = true \/ doomed st t).
      { destruct (newly_cancelled _ _ _ _ _ M Hc Pc) as [Hc0|[-> D]]; [eapply C; eauto|].
        destruct T as (A & B). destruct (A t k' cs H0 P) as [_ G]. destruct (G s I) as [_ (k2 & H2 & U2)].
        destruct D as [? k3 p H3 U3 Br|? k3 p H3 U3 D]; rewrite H2 in H3; injection H3 as <-; assert (p = t) by congruence; subst p; auto. }
      destruct Old as [Br|D].
      + left. unfold broken in *. rewrite H0, P in Br. rewrite H, P. apply existsb_exists in Br as (x & Ix & Fx). apply existsb_exists. exists x. split; [exact Ix|]. eapply failed_stays; eauto.
      + right. eapply doomed_stays; eauto. rewrite P. discriminate.
    - exfalso. apply in_seq in I. rewrite Et in Hc. rewrite nth_error_app2 in Hc by (rewrite upd_length; lia). apply nth_error_In, in_map_iff in Hc as (f & <- & _). discriminate Pc.
  Qed.
  Lemma cancels_run fs ts : cancels_ok (run ts (start fs)).
  Proof.
    assert (H : tree_ok (run ts (start fs)) /\ cancels_ok (run ts (start fs))).
    { apply (always (fun st => tree_ok st /\ cancels_ok st)).
      - split; [apply tree_start|]. intros t k cs c kc H P. apply nth_error_In in H. cbn [tasks start] in H. apply in_map_iff in H as (f & <- & _). discriminate P.
      - intros st t st' [T C] M. split; [eapply tree_move; eauto|eapply cancels_move; eauto]. }
    apply H.
  Qed.
  (** One that ended well did all it had to. *)
  Definition fine (st : state) (i : nat) : Prop := exists k, nth_error (tasks st) i = Some k /\ ph k = Over Fine.
  Definition fine_ok (st : state) : Prop := forall t k, nth_error (tasks st) t = Some k -> ph k = Over Fine -> length (body (fn k)) <= pc k.
  Lemma fine_run fs ts : fine_ok (run ts (start fs)).
  Proof.
    apply always.
    - intros t k H P. apply nth_error_In in H. cbn [tasks start] in H. apply in_map_iff in H as (f & <- & _). discriminate P.
    - intros st s st' F M t k' H P. destruct (newcomer _ _ _ _ _ M H) as [(k & Hk)|(_ & R & _)]; [|congruence].
      destruct (Nat.eq_dec t s) as [->|D].
      2:{ destruct (grow _ _ _ _ _ M Hk) as (k2 & E' & _ & _ & _ & _ & K). rewrite (K D) in E'. apply (F t); congruence. }
      destruct M as [|k0 H0 P0 S0|k0 H0 P0 W|k0 H0 P0 W|k0 H0 P0 W|k0 cs0 k2 H0 P0 F0 ->|k0 H0 P0 W Ow Qu|k0 H0 P0 W OQ|k0 H0 P0 Ow S0|k0 H0 P0 Ow S0|k0 e f H0 P0 W|k0 e ids H0 P0 W ->];
        [eapply F; eauto|..]; rewrite Hk in H0; injection H0 as <-; cbn [tasks put release] in H.
      all: try (rewrite nth_upd_same in H by (eapply nth_lt; eauto); injection H as <-; discriminate P).
      + rewrite nth_upd_same in H by (eapply nth_lt; eauto). injection H as <-. cbn [fn pc at_phase]. now apply nth_error_None.
      + rewrite nth_upd_same in H by (eapply nth_lt; eauto). injection H as <-. destruct (existsb (failed st) cs0); [discriminate P|destruct (stop st s); discriminate P].
      + rewrite nth_error_app1 in H by (rewrite upd_length; eapply nth_lt; eauto). rewrite nth_upd_same in H by (eapply nth_lt; eauto). injection H as <-. discriminate P.
  Qed.

  (** The listeners are those whose subscriptions have returned. *)
  Lemma sum_upd (g : task -> nat) t k0 k l : nth_error l t = Some k0 -> list_sum (map g (upd t k l)) + g k0 = list_sum (map g l) + g k.
  Proof.
    revert t. induction l as [|x l IH]; intros [|t] H; try discriminate; cbn [upd map list_sum fold_right] in *.
    - injection H as ->. unfold list_sum. lia.
    - specialize (IH t H). unfold list_sum in *. lia.
  Qed.
  Definition cnt (e : str) (f : nat) (k : task) : nat := length (filter (is_subscription e f) (firstn (pc k) (body (fn k)))).
  Lemma firstn_next {X} (l : list X) n a : nth_error l n = Some a -> firstn (S n) l = firstn n l ++ [a].
  Proof. revert n. induction l as [|x l IH]; intros [|n] H; try discriminate; cbn in *; [now injection H as ->|]. f_equal. now apply IH. Qed.
  Lemma cnt_next e f k a : now k = Some a -> cnt e f (next k) = cnt e f k + (if is_subscription e f a then 1 else 0).
  Proof. intros H. unfold cnt. cbn [pc fn next]. rewrite (firstn_next _ _ _ H), filter_app, app_length. cbn [filter]. now destruct (is_subscription e f a). Qed.
  Lemma returned_upd st t k0 k e f : nth_error (tasks st) t = Some k0 -> fn k = fn k0 -> pc k = pc k0 ->
    list_sum (map (cnt e f) (upd t k (tasks st))) = list_sum (map (cnt e f) (tasks st)).
  Proof. intros H A B. pose proof (sum_upd (cnt e f) t k0 k _ H) as S0. assert (cnt e f k = cnt e f k0) by (unfold cnt; now rewrite A, B). lia. Qed.
  Lemma returned_next st t k e f a : nth_error (tasks st) t = Some k -> now k = Some a ->
    list_sum (map (cnt e f) (upd t (next k) (tasks st))) = list_sum (map (cnt e f) (tasks st)) + (if is_subscription e f a then 1 else 0).
  Proof. intros H A. pose proof (sum_upd (cnt e f) t k (next k) _ H) as S0. pose proof (cnt_next e f k a A). lia. Qed.
  Definition count_ok (st : state) : Prop := forall e f, times f (get e (listeners st)) = returned body st e f.
  Lemma returned_cnt st e f : returned body st e f = list_sum (map (cnt e f) (tasks st)).
  Proof. reflexivity. Qed.
  Lemma count_move st s st' : tree_ok st -> count_ok st -> move st s st' -> count_ok st'.
  Proof.
    intros (A & _) C M e f. specialize (C e f). rewrite returned_cnt in *.
    destruct M as [|k0 H0 P0 S0|k0 H0 P0 W|k0 H0 P0 W|k0 H0 P0 W|k0 cs0 k2 H0 P0 F0 ->|k0 H0 P0 W Ow Qu|k0 H0 P0 W OQ|k0 H0 P0 Ow S0|k0 H0 P0 Ow S0|k0 e0 f0 H0 P0 W|k0 e0 ids H0 P0 W ->];
      cbn [tasks put release listeners]; try (rewrite (returned_upd _ _ _ _ _ _ H0) by reflexivity; exact C).
    - exact C.
    - rewrite (returned_next _ _ _ _ _ _ H0 W). cbn [is_subscription]. lia.
    - destruct (existsb (failed st) cs0); [rewrite (returned_upd _ _ _ _ _ _ H0) by reflexivity; exact C|]. destruct (stop st s); [rewrite (returned_upd _ _ _ _ _ _ H0) by reflexivity; exact C|].
      destruct (A s k0 cs0 H0 P0) as [(e1 & W) _]. rewrite (returned_next _ _ _ _ _ _ H0 W). cbn [is_subscription]. lia.
    - rewrite (returned_next _ _ _ _ _ _ H0 W). cbn [is_subscription]. unfold get in *. destruct (seqb e e0) eqn:E.
      + apply seqb_eq in E as <-. rewrite dget_dset_same. cbn [andb]. unfold times in *. rewrite count_occ_app, C. cbn [count_occ]. destruct (Nat.eq_dec f0 f) as [->|D]; [now rewrite Nat.eqb_refl|].
        destruct (Nat.eqb_spec f f0); [congruence|reflexivity].
      + rewrite dget_dset_other by (intros ->; rewrite seqb_refl in E; discriminate). cbn [andb]. lia.
    - rewrite map_app, list_sum_app, (returned_upd _ _ _ _ _ _ H0) by reflexivity. rewrite map_map.
      assert (Z : list_sum (map (fun x : nat => cnt e f {| fn := x; pc := 0; ph := Run; up := Some s |}) (get e0 (listeners st))) = 0).
      { induction (get e0 (listeners st)); [reflexivity|]. cbn [map]. unfold list_sum in *. cbn [fold_right]. rewrite IHl. reflexivity. }
      lia.
  Qed.
  Lemma count_run fs ts : count_ok (run ts (start fs)).
  Proof.
    assert (H : tree_ok (run ts (start fs)) /\ count_ok (run ts (start fs))).
    { apply (always (fun st => tree_ok st /\ count_ok st)).
      - split; [apply tree_start|]. intros e f. rewrite returned_cnt. cbn [tasks start listeners]. rewrite map_map. induction fs as [|x fs IH]; [reflexivity|]. cbn [map]. unfold list_sum in *. cbn [fold_right]. rewrite <- IH. reflexivity.
      - intros st t st' [T C] M. split; [eapply tree_move; eauto|eapply count_move; eauto]. }
    apply H.
  Qed.
  (** Subscriptions that have returned stay so. *)
  Lemma returned_grows st s st' e f : tree_ok st -> move st s st' -> returned body st e f <= returned body st' e f.
  Proof.
    intros (A & _) M. rewrite !returned_cnt.
    destruct M as [|k0 H0 P0 S0|k0 H0 P0 W|k0 H0 P0 W|k0 H0 P0 W|k0 cs0 k2 H0 P0 F0 ->|k0 H0 P0 W Ow Qu|k0 H0 P0 W OQ|k0 H0 P0 Ow S0|k0 H0 P0 Ow S0|k0 e0 f0 H0 P0 W|k0 e0 ids H0 P0 W ->];
      cbn [tasks put release listeners]; try (rewrite (returned_upd _ _ _ _ _ _ H0) by reflexivity; lia).
    - lia.
    - rewrite (returned_next _ _ _ _ _ _ H0 W). lia.
    - destruct (existsb (failed st) cs0); [rewrite (returned_upd _ _ _ _ _ _ H0) by reflexivity; lia|]. destruct (stop st s); [rewrite (returned_upd _ _ _ _ _ _ H0) by reflexivity; lia|].
      destruct (A s k0 cs0 H0 P0) as [(e1 & W) _]. rewrite (returned_next _ _ _ _ _ _ H0 W). lia.
    - rewrite (returned_next _ _ _ _ _ _ H0 W). lia.
    - rewrite map_app, list_sum_app, (returned_upd _ _ _ _ _ _ H0) by reflexivity. lia.
  Qed.

  (** The emissions there have been. *)
  Lemma functions_stay st s st' ids : move st s st' -> (forall i, In i ids -> i < length (tasks st)) -> functions st' ids = functions st ids.
  Proof.
    intros M L. unfold functions. induction ids as [|i ids IH]; [reflexivity|]. cbn [flat_map]. rewrite IH by (intros j J; apply L; now right). f_equal.
    specialize (L i (or_introl eq_refl)). apply nth_error_Some in L. destruct (nth_error (tasks st) i) as [k|] eqn:E; [|congruence].
    destruct (grow _ _ _ _ _ M E) as (k' & -> & F & _). now rewrite F.
  Qed.
  Lemma functions_new l ls s : functions {| tasks := l ++ map (fun f => {| fn := f; pc := 0; ph := Run; up := Some s |}) ls; owner := None; queue := []; listeners := []; emitted := [] |}
    (seq (length l) (length ls)) = ls.
  Proof.
    revert l. induction ls as [|f ls IH]; intros l; [reflexivity|]. unfold functions in *. cbn [length seq flat_map tasks map].
    rewrite nth_error_app2, Nat.sub_diag by lia. cbn [nth_error fn app]. f_equal.
    specialize (IH (l ++ [{| fn := f; pc := 0; ph := Run; up := Some s |}])). cbn [tasks] in IH. rewrite app_length in IH. cbn [length] in IH. rewrite Nat.add_1_r in IH.
    rewrite <- app_assoc in IH. exact IH.
  Qed.
  Lemma functions_emit l ls s k o q d m : functions {| tasks := upd s k l ++ map (fun f => {| fn := f; pc := 0; ph := Run; up := Some s |}) ls; owner := o; queue := q; listeners := d; emitted := m |}
    (seq (length l) (length ls)) = ls.
  Proof. rewrite <- (upd_length s k l). exact (functions_new (upd s k l) ls s). Qed.
  (** An emission in the list was there, or has just been made. *)
  Lemma emitted_origin st s st' x : move st s st' -> In x (emitted st') -> In x (emitted st) \/
    (exists k e, nth_error (tasks st) s = Some k /\ now k = Some (Emit e) /\ x = (s, pc k, e, seq (length (tasks st)) (length (get e (listeners st)))) /\
      functions st' (seq (length (tasks st)) (length (get e (listeners st)))) = get e (listeners st) /\
      nth_error (tasks st') s = Some (at_phase (Group (seq (length (tasks st)) (length (get e (listeners st))))) k) /\ listeners st' = listeners st /\
      (forall i, In i (seq (length (tasks st)) (length (get e (listeners st)))) -> i < length (tasks st')) /\ emitted st' = emitted st ++ [x]).
  Proof.
    intros M I. destruct M as [|k0 H0 P0 S0|k0 H0 P0 W|k0 H0 P0 W|k0 H0 P0 W|k0 cs0 k2 H0 P0 F0 ->|k0 H0 P0 W Ow Qu|k0 H0 P0 W OQ|k0 H0 P0 Ow S0|k0 H0 P0 Ow S0|k0 e0 f0 H0 P0 W|k0 e0 ids H0 P0 W ->];
      try (left; exact I). cbn [emitted] in I. apply in_app_iff in I as [I|[<-|[]]]; [now left|]. right. exists k0, e0. split; [exact H0|split; [exact W|split; [reflexivity|]]].
    cbn [tasks]. split; [|split; [|split; [reflexivity|split; [|reflexivity]]]].
    - apply functions_emit.
    - rewrite nth_error_app1 by (rewrite upd_length; eapply nth_lt; eauto). apply nth_upd_same. eapply nth_lt; eauto.
    - intros i J. apply in_seq in J. rewrite app_length, map_length, upd_length. lia.
  Qed.
  Definition prefix (a b : list nat) : Prop := exists c, b = a ++ c.
  Definition entry_ok (st : state) (x : nat * nat * str * list nat) : Prop :=
    let '(t, n, e, ids) := x in
    (forall i, In i ids -> i < length (tasks st)) /\ prefix (functions st ids) (get e (listeners st)) /\
    exists k, nth_error (tasks st) t = Some k /\ ((n < pc k /\ Forall (fine st) ids) \/ (pc k = n /\ (ph k = Group ids \/ exists o, ph k = Over o))).
  Lemma get_grows st s st' e : move st s st' -> prefix (get e (listeners st)) (get e (listeners st')).
  Proof.
    intros M. destruct M as [|k0 H0 P0 S0|k0 H0 P0 W|k0 H0 P0 W|k0 H0 P0 W|k0 cs0 k2 H0 P0 F0 ->|k0 H0 P0 W Ow Qu|k0 H0 P0 W OQ|k0 H0 P0 Ow S0|k0 H0 P0 Ow S0|k0 e0 f0 H0 P0 W|k0 e0 ids H0 P0 W ->];
      try (exists []; now rewrite app_nil_r). cbn [listeners]. unfold get. destruct (seqb e e0) eqn:E.
    - apply seqb_eq in E as <-. rewrite dget_dset_same. now exists [f0].
    - rewrite dget_dset_other by (intros ->; rewrite seqb_refl in E; discriminate). exists []. now rewrite app_nil_r.
  Qed.
  Lemma prefix_trans a b c : prefix a b -> prefix b c -> prefix a c.
  Proof. intros (x & ->) (y & ->). exists (x ++ y). now rewrite app_assoc. Qed.
  Lemma fine_stays st s st' i : move st s st' -> fine st i -> fine st' i.
  Proof. intros M (k & H & P). destruct (grow _ _ _ _ _ M H) as (k' & E' & _ & _ & _ & K & _). exists k'. split; [exact E'|]. rewrite K by eauto. exact P. Qed.
  Lemma entries_move st s st' : tree_ok st -> cancels_ok st -> (forall x, In x (emitted st) -> entry_ok st x) -> move st s st' -> forall x, In x (emitted st') -> entry_ok st' x.
  Proof.
    intros T Cn H M x I. destruct (emitted_origin _ _ _ _ M I) as [J|(k & e & Hs & W & -> & Fn & Hs' & Li & Rg & _)].
    - specialize (H x J). destruct x as [[[t n] e] ids]. cbn [entry_ok] in *. destruct H as (R & Pf & k & Hk & D).
      split; [intros i Hi; pose proof (tasks_length _ _ _ M); specialize (R i Hi); lia|]. split; [rewrite (functions_stay _ _ _ _ M R); eapply prefix_trans; [exact Pf|eapply get_grows; eauto]|].
      destruct (grow _ _ _ _ _ M Hk) as (k' & E' & _ & _ & Pc & Ov & Ot). exists k'. split; [exact E'|].
      destruct D as [[L F]|[Ep Ph]].
      + left. split; [lia|]. eapply Forall_impl; [|exact F]. intros i. eapply fine_stays; eauto.
      + destruct Ph as [Pg|(o & Po)]; [|right; rewrite Ov by eauto; split; [exact Ep|right; eauto]].
        destruct (Nat.eq_dec t s) as [->|Dt]; [|right; rewrite (Ot Dt); auto].
        destruct M as [|k0 H0 P0 S0|k0 H0 P0 W|k0 H0 P0 W|k0 H0 P0 W|k0 cs0 k2 H0 P0 F0 ->|k0 H0 P0 W Ow Qu|k0 H0 P0 W OQ|k0 H0 P0 Ow S0|k0 H0 P0 Ow S0|k0 e0 f0 H0 P0 W|k0 e0 ids0 H0 P0 W ->];
          [right; assert (k' = k) by congruence; subst; auto|rewrite Hk in H0; injection H0 as <-..].
        all: try congruence.
        * rewrite Pg in P0. injection P0 as <-. cbn [tasks put] in E'. rewrite nth_upd_same in E' by (eapply nth_lt; eauto). injection E' as <-.
          destruct (existsb (failed st) ids) eqn:Fl; [right; cbn; eauto|]. destruct (stop st s) eqn:Sp; [right; cbn; eauto|]. left. cbn [pc next]. split; [lia|].
          apply Forall_forall. intros i Hi. eapply fine_stays; [eapply m_group; [exact Hk|exact Pg|exact F0|now rewrite Fl, Sp]|].
          rewrite forallb_forall in F0. specialize (F0 i Hi). unfold over in F0. destruct (nth_error (tasks st) i) as [ki|] eqn:Ei; [|specialize (R i Hi); apply nth_error_Some in R; congruence].
          exists ki. split; [exact Ei|]. destruct (ph ki) as [| | | |o] eqn:Pi; try discriminate F0. destruct o; [reflexivity|exfalso..].
          -- assert (X : existsb (failed st) ids = true) by (apply existsb_exists; exists i; split; [exact Hi|unfold failed; now rewrite Ei, Pi]). congruence.
          -- destruct (Cn s k ids i ki Hk Pg Hi Ei Pi) as [Br|Dm].
             ++ unfold broken in Br. rewrite Hk, Pg in Br. congruence.
             ++ rewrite (doomed_stop _ _ T Dm) in Sp by (eapply nth_lt; eauto). discriminate.
        * destruct P0 as [P0|[P0 _]]; congruence.
        * destruct P0 as [P0|[P0 _]]; congruence.
    - cbn [entry_ok]. split; [exact Rg|]. split; [rewrite Fn, Li; exists []; now rewrite app_nil_r|].
      eexists. split; [exact Hs'|]. right. split; [reflexivity|]. left. reflexivity.
  Qed.
  Lemma entries_run fs ts : forall x, In x (emitted (run ts (start fs))) -> entry_ok (run ts (start fs)) x.
  Proof.
    assert (H : (tree_ok (run ts (start fs)) /\ cancels_ok (run ts (start fs))) /\ (forall x, In x (emitted (run ts (start fs))) -> entry_ok (run ts (start fs)) x)).
    { apply (always (fun st => (tree_ok st /\ cancels_ok st) /\ forall x, In x (emitted st) -> entry_ok st x)).
      - split; [split; [apply (tree_run fs [])|apply (cancels_run fs [])]|]. intros x [].
      - intros st t st' [[T C] E] M. split; [split; [eapply tree_move; eauto|eapply cancels_move; eauto]|]. eapply entries_move; eauto. }
    apply H.
  Qed.
  (** All tasks but the first are listeners of these emissions, each of one. *)
  Definition ids_of (x : nat * nat * str * list nat) : list nat := snd x.
  Lemma all_started fs ts : let st := run ts (start fs) in flat_map ids_of (emitted st) = seq (length fs) (length (tasks st) - length fs) /\ length fs <= length (tasks st).
  Proof.
    cbv zeta. apply (always (fun st => flat_map ids_of (emitted st) = seq (length fs) (length (tasks st) - length fs) /\ length fs <= length (tasks st))).
    - cbn [start emitted tasks flat_map]. rewrite map_length, Nat.sub_diag. auto.
    - intros st s st' [E L] M. destruct M as [|k0 H0 P0 S0|k0 H0 P0 W|k0 H0 P0 W|k0 H0 P0 W|k0 cs0 k2 H0 P0 F0 ->|k0 H0 P0 W Ow Qu|k0 H0 P0 W OQ|k0 H0 P0 Ow S0|k0 H0 P0 Ow S0|k0 e0 f0 H0 P0 W|k0 e0 ids H0 P0 W ->];
        cbn [tasks emitted put release]; rewrite ?app_length, ?upd_length, ?map_length; auto.
      split; [|lia]. rewrite flat_map_app, E. cbn [flat_map ids_of snd]. rewrite app_nil_r.
      replace (length (tasks st) + length (get e0 (listeners st)) - length fs) with ((length (tasks st) - length fs) + length (get e0 (listeners st))) by lia.
      rewrite seq_app. f_equal. f_equal. lia.
  Qed.
End Body.
