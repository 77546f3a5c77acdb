(** C47 and C84: broadcast channels. *)
From Coq Require Import Sorted.
From Verif Require Import PyStr PyStrFacts ChanModel.

(** All broadcasts that ever got the lock, in that order. *)
Definition started {Msg} (c : chan Msg) : list (bcast (Msg := Msg)) := map fst (finished c) ++ match lock c with Some b => [b] | None => [] end.
Definition has {Msg} (c : chan Msg) (n i : nat) : Prop := In n (map fst (got (subs c i))).
(** What a channel is at an instant of a broadcast: of the subscribers it has dealt with, each has the message or
    was found closed; no other has it. *)
Definition told {Msg} (c : chan Msg) (b : bcast (Msg := Msg)) : Prop :=
  NoDup (order b) /\ (forall i, In i (order b) -> i < count c) /\ exists done, order b = done ++ todo b
  /\ (forall i, In i done -> (In i (dead b) /\ send_open (subs c i) = false /\ ~ has c (num b) i) \/ (~ In i (dead b) /\ In (num b, msg b) (got (subs c i))))
  /\ (forall i, ~ In i done -> ~ has c (num b) i /\ ~ In i (dead b)).
Definition quiet {Msg} (c c' : chan Msg) : Prop :=
  count c <= count c' /\ forall i, got (subs c' i) = got (subs c i) /\ (i < count c -> send_open (subs c i) = false -> send_open (subs c' i) = false).
(** The kinds of steps. *)
Inductive does {Msg} (c c' : chan Msg) : Prop :=
  | d_same : quiet c c' -> lock c' = lock c -> finished c' = finished c -> next c' = next c -> does c c'
  | d_end : forall b e, quiet c c' -> lock c = Some b -> lock c' = None -> finished c' = finished c ++ [(b, e)] -> next c' = next c -> (e = Ended -> todo b = []) -> does c c'
  | d_start : forall m o, quiet c c' -> lock c = None -> permutes o (members c) = true -> lock c' = Some {| num := next c; msg := m; order := o; todo := o; dead := []; blocked := false |} ->
      finished c' = finished c -> next c' = S (next c) -> does c c'
  | d_dead : forall b q r, quiet c c' -> lock c = Some b -> todo b = q :: r -> send_open (subs c q) = false ->
      lock c' = Some {| num := num b; msg := msg b; order := order b; todo := r; dead := dead b ++ [q]; blocked := false |} -> finished c' = finished c -> next c' = next c -> does c c'
  | d_block : forall b, quiet c c' -> lock c = Some b -> lock c' = Some {| num := num b; msg := msg b; order := order b; todo := todo b; dead := dead b; blocked := true |} -> finished c' = finished c -> next c' = next c -> does c c'
  | d_give : forall b q r, lock c = Some b -> todo b = q :: r -> c' = give b q r c -> does c c'.
Lemma quiet_refl {Msg} (c : chan Msg) : quiet c c.
Proof. split; [apply Nat.le_refl|auto]. Qed.
Ltac qr := first [apply quiet_refl | split; [cbn; apply Nat.le_refl|cbn; auto]].
Lemma upd_at {Msg} i (s : sub (Msg := Msg)) f : upd i s f i = s.
Proof. unfold upd. rewrite Nat.eqb_refl. reflexivity. Qed.
Lemma upd_off {Msg} i j (s : sub (Msg := Msg)) f : j <> i -> upd i s f j = f j.
Proof. intros H. unfold upd. destruct (Nat.eqb_spec j i); [contradiction|reflexivity]. Qed.
Lemma quiet_upd {Msg} (c : chan Msg) i s f : got s = got (subs c i) -> (send_open (subs c i) = false -> send_open s = false) ->
  subs f = upd i s (subs c) -> count f = count c -> quiet c f.
Proof.
  intros G O E K. split; [rewrite K; apply Nat.le_refl|]. intros j. rewrite E. destruct (Nat.eq_dec j i) as [->|NE]; [rewrite upd_at; auto|rewrite upd_off by exact NE; auto].
Qed.
Lemma step_does {Msg} (c : chan Msg) e : (forall i, count c <= i -> subs c i = fresh) -> does c (chan_step c e).
Proof.
  intros FR. destruct e as [|i|i|i|i|m o| |]; cbn [chan_step].
  - apply d_same; try reflexivity. split; [cbn; lia|]. intros i. cbn [subs]. destruct (Nat.eq_dec i (count c)) as [->|NE].
    + rewrite upd_at. split; [rewrite FR by lia; reflexivity|lia].
    + rewrite upd_off by exact NE. auto.
  - destruct (Nat.ltb i (count c) && recv_open (subs c i) && negb (waits (subs c i))); [|apply d_same; try reflexivity; qr].
    assert (W : does c (with_subs (upd i {| send_open := send_open (subs c i); recv_open := true; waits := true; got := got (subs c i) |} (subs c)) c)).
    { apply d_same; try reflexivity. apply (quiet_upd c i {| send_open := send_open (subs c i); recv_open := true; waits := true; got := got (subs c i) |}); try reflexivity; cbn; auto. }
    destruct (lock c) as [b|] eqn:L; [|exact W]. destruct (blocked b); [|exact W]. destruct (todo b) as [|q r] eqn:T; [exact W|]. destruct (Nat.eqb_spec q i) as [->|_]; [|exact W]. apply (d_give _ _ b i r); auto.
  - apply d_same; try reflexivity. eapply quiet_upd; [| |reflexivity|reflexivity]; cbn; auto.
  - destruct (Nat.ltb i (count c) && recv_open (subs c i)); [|apply d_same; try reflexivity; qr]. cbn zeta.
    set (c1 := with_subs _ c). assert (Q : quiet c c1) by (eapply quiet_upd; [| |reflexivity|reflexivity]; cbn; auto).
    assert (W : does c c1) by (apply d_same; try reflexivity; exact Q).
    destruct (lock c) as [b|] eqn:L; [|exact W]. destruct (blocked b); [|exact W]. destruct (todo b) as [|q r]; [exact W|]. destruct (Nat.eqb q i); [|exact W].
    apply (d_end _ _ b Broke); auto; discriminate.
  - destruct (Nat.ltb i (count c) && negb (recv_open (subs c i))); [|apply d_same; try reflexivity; qr].
    apply d_same; try reflexivity. eapply quiet_upd; [| |reflexivity|reflexivity]; cbn; auto.
  - destruct (lock c) as [b|] eqn:L; [apply d_same; try reflexivity; qr|]. destruct (permutes o (members c)) eqn:P; [|apply d_same; try reflexivity; qr].
    apply (d_start _ _ m o); try reflexivity; try assumption. split; cbn; auto.
  - destruct (lock c) as [b|] eqn:L; [|apply d_same; try reflexivity; qr]. destruct (blocked b) eqn:BL; [apply d_same; try reflexivity; qr|]. destruct (todo b) as [|q r] eqn:T.
    + apply (d_end _ _ b Ended); auto. split; cbn; auto.
    + cbn zeta. destruct (send_open (subs c q)) eqn:SO; cbn [negb].
      * destruct (recv_open (subs c q)); cbn [negb].
        -- destruct (waits (subs c q)); [apply (d_give _ _ b q r); auto|]. apply (d_block _ _ b); try reflexivity; try assumption; [qr|rewrite <- T; reflexivity].
        -- apply (d_end _ _ b Broke); auto; [qr|discriminate].
      * apply (d_dead _ _ b q r); auto. qr.
  - destruct (lock c) as [b|] eqn:L; [|apply d_same; try reflexivity; qr]. apply (d_end _ _ b Cancelled); auto; [qr|discriminate].
Qed.

Lemma nmem_In i l : nmem i l = true <-> In i l.
Proof. unfold nmem. rewrite existsb_exists. split; [intros (x & I & E); apply Nat.eqb_eq in E; subst; exact I|]. intros I. exists i. rewrite Nat.eqb_refl. auto. Qed.
Lemma remove_In ds l i : In i (remove_all ds l) <-> In i l /\ ~ In i ds.
Proof. unfold remove_all. rewrite filter_In, negb_true_iff, <- not_true_iff_false, nmem_In. tauto. Qed.
Lemma permutes_facts a b : permutes a b = true -> NoDup b -> NoDup a /\ forall i, In i a <-> In i b.
Proof.
  unfold permutes. rewrite !andb_true_iff, !forallb_forall. intros [[L A] B] ND. apply Nat.eqb_eq in L.
  assert (IA : incl a b) by (intros i I; apply nmem_In, A, I). assert (IB : incl b a) by (intros i I; apply nmem_In, B, I).
  split; [apply (NoDup_incl_NoDup (l := b) (l' := a)); [exact ND|lia|exact IB]|]. intros i. split; [apply IA|apply IB].
Qed.

Section Invariant.
Context {Msg : Type}.
Implicit Types c : chan Msg.
(** The parts of the invariant. *)
Definition inv_members c : Prop := NoDup (members c) /\ (forall i, In i (members c) <-> i < count c /\ send_open (subs c i) = true) /\ (forall i, count c <= i -> subs c i = fresh).
Definition inv_nums c : Prop := map num (started c) = seq 0 (next c).
Definition inv_got c : Prop := forall i, StronglySorted lt (map fst (got (subs c i))) /\ forall n m, In (n, m) (got (subs c i)) -> exists b, In b (started c) /\ num b = n /\ msg b = m.
Definition inv_told c : Prop := forall b, In b (started c) -> told c b.
Definition inv_ended c : Prop := forall b, In (b, Ended) (finished c) -> todo b = [].

Lemma step_members c e : inv_members c -> inv_nums c -> inv_told c -> inv_members (chan_step c e).
Proof.
  intros (ND & M & FR) NU TO.
  assert (SUB : forall i s (c' : chan Msg), i < count c -> subs c' = upd i s (subs c) -> send_open s = send_open (subs c i) -> members c' = members c -> count c' = count c -> inv_members c').
  { intros i s c' L E O EM EC. unfold inv_members. rewrite EM, EC. split; [exact ND|]. split; intros j; rewrite E; [rewrite M|]; (destruct (Nat.eq_dec j i) as [->|NE]; [rewrite upd_at|rewrite upd_off by exact NE]).
    - rewrite O. reflexivity.
    - reflexivity.
    - lia.
    - apply FR. }
  assert (SAME : forall c', subs c' = subs c -> members c' = members c -> count c' = count c -> inv_members c') by (intros c' E1 E2 E3; unfold inv_members; rewrite E1, E2, E3; auto).
  assert (GIV : forall b q r, lock c = Some b -> todo b = q :: r -> inv_members (give b q r c)).
  { intros b q r L T. destruct (TO b) as (_ & CO & done & E & _); [unfold started; rewrite L; apply in_or_app; right; left; reflexivity|].
    eapply (SUB q); try reflexivity. apply CO. rewrite E, T. apply in_or_app. right. left. reflexivity. }
  destruct e as [|i|i|i|i|m o| |]; cbn [chan_step].
  - unfold inv_members. cbn [members count subs]. split; [constructor; [|exact ND]; intros I; apply M in I; lia|]. split; intros j.
    + cbn [In]. rewrite M. destruct (Nat.eq_dec j (count c)) as [->|NE]; [rewrite upd_at|rewrite upd_off by exact NE].
      * cbn. split; [intros _; split; [lia|reflexivity]|auto].
      * split; [intros [E|[A B]]; [congruence|split; [lia|exact B]]|]. intros [A B]. right. split; [lia|exact B].
    + intros L. rewrite upd_off by lia. apply FR. lia.
  - destruct (Nat.ltb_spec i (count c)) as [LT|]; cbn [andb]; [|apply SAME; reflexivity]. destruct (recv_open (subs c i) && _); [|apply SAME; reflexivity].
    assert (W : inv_members (with_subs (upd i {| send_open := send_open (subs c i); recv_open := true; waits := true; got := got (subs c i) |} (subs c)) c)) by (eapply (SUB i); try reflexivity; exact LT).
    destruct (lock c) as [b|] eqn:L; [|exact W]. destruct (blocked b); [|exact W]. destruct (todo b) as [|q r] eqn:T; [exact W|]. destruct (Nat.eqb_spec q i) as [->|_]; [|exact W]. apply GIV; auto.
  - destruct (Nat.lt_ge_cases i (count c)) as [LT|GE]; [eapply (SUB i); try reflexivity; exact LT|]. unfold inv_members. cbn [members count subs with_subs]. split; [exact ND|]. rewrite FR by exact GE. split; intros j.
    + rewrite M. destruct (Nat.eq_dec j i) as [->|NE]; [|rewrite upd_off by exact NE; reflexivity]. split; intros [A _]; lia.
    + intros G. destruct (Nat.eq_dec j i) as [->|NE]; [rewrite upd_at; reflexivity|rewrite upd_off by exact NE; apply FR; exact G].
  - destruct (Nat.ltb_spec i (count c)) as [LT|]; cbn [andb]; [|apply SAME; reflexivity]. destruct (recv_open (subs c i)); [|apply SAME; reflexivity]. cbn zeta.
    set (c1 := with_subs _ c). assert (W : inv_members c1) by (eapply (SUB i); try reflexivity; exact LT).
    destruct (lock c) as [b|]; [|exact W]. destruct (blocked b); [|exact W]. destruct (todo b); [exact W|]. destruct (Nat.eqb _ i); [|exact W]. exact W.
  - destruct (Nat.ltb_spec i (count c)) as [LT|]; cbn [andb]; [|apply SAME; reflexivity]. destruct (negb _); [|apply SAME; reflexivity]. unfold inv_members. cbn [members count subs with_subs with_members].
    split; [apply NoDup_filter; exact ND|]. split; intros j.
    + rewrite remove_In, M. cbn [In]. destruct (Nat.eq_dec j i) as [->|NE]; [rewrite upd_at; cbn; split; [tauto|intros [_ H]; discriminate H]|rewrite upd_off by exact NE]. split; [tauto|]. intros H. split; [exact H|]. intros [E|[]]; congruence.
    + intros G. rewrite upd_off by lia. apply FR; exact G.
  - destruct (lock c); [apply SAME; reflexivity|]. destruct (permutes o (members c)); apply SAME; reflexivity.
  - destruct (lock c) as [b|] eqn:L; [|apply SAME; reflexivity]. destruct (blocked b); [apply SAME; reflexivity|]. destruct (todo b) as [|q r] eqn:T.
    + assert (D : forall i, In i (dead b) -> send_open (subs c i) = false).
      { destruct (TO b) as (_ & _ & done & E & A & B); [unfold started; rewrite L; apply in_or_app; right; left; reflexivity|]. intros i I.
        destruct (in_dec Nat.eq_dec i done) as [ID|ND']; [|destruct (B i ND') as [_ B2]; contradiction]. destruct (A i ID) as [(_ & H & _)|[H _]]; [exact H|contradiction]. }
      unfold inv_members. cbn [members count subs finish with_members]. split; [apply NoDup_filter; exact ND|]. split; [|exact FR]. intros j. rewrite remove_In, M. split; [tauto|]. intros H. split; [exact H|]. intros I. rewrite (D j I) in H. destruct H as [_ H]. discriminate H.
    + cbn zeta. destruct (negb (send_open _)); [apply SAME; reflexivity|]. destruct (negb (recv_open _)); [apply SAME; reflexivity|]. destruct (waits _); [apply GIV; auto|apply SAME; reflexivity].
  - destruct (lock c); apply SAME; reflexivity.
Qed.

Lemma give_got b q r c i : got (subs (give b q r c) i) = if Nat.eqb i q then got (subs c q) ++ [(num b, msg b)] else got (subs c i).
Proof. unfold give. cbn [subs with_lock with_subs]. unfold upd. destruct (Nat.eqb i q); reflexivity. Qed.
Lemma told_quiet c c' b : quiet c c' -> told c b -> told c' b.
Proof.
  intros (QC & Q) (ND & CO & done & E & A & B). split; [exact ND|]. split; [intros i I; specialize (CO i I); lia|]. exists done. split; [exact E|]. unfold has. split; intros i I; destruct (Q i) as [G S]; rewrite G.
  - destruct (A i I) as [(A1 & A2 & A3)|A1]; [left|right; exact A1]. split; [exact A1|]. split; [|exact A3]. apply S; [|exact A2]. apply CO. rewrite E. apply in_or_app. left. exact I.
  - apply B. exact I.
Qed.
Lemma nums_inj c b b' : inv_nums c -> In b (started c) -> In b' (started c) -> num b = num b' -> b = b'.
Proof.
  unfold inv_nums. intros H. assert (ND : NoDup (map num (started c))) by (rewrite H; apply seq_NoDup). clear H. induction (started c) as [|x l IH]; [intros []|]. cbn [map] in ND. inversion ND as [|? ? N1 N2]; subst.
  intros [E1|I1] [E2|I2] E; try congruence; [..|exact (IH N2 I1 I2 E)].
  - subst x. exfalso. apply N1. rewrite E. apply in_map. exact I2.
  - subst x. exfalso. apply N1. rewrite <- E. apply in_map. exact I1.
Qed.
Lemma num_lt c b : inv_nums c -> In b (started c) -> num b < next c.
Proof. intros H I. apply (in_map num) in I. rewrite H in I. apply in_seq in I. lia. Qed.

Record inv c : Prop := { i_members : inv_members c; i_nums : inv_nums c; i_got : inv_got c; i_told : inv_told c; i_ended : inv_ended c }.
Lemma started_replace c b : lock c = Some b -> started c = map fst (finished c) ++ [b].
Proof. intros H. unfold started. rewrite H. reflexivity. Qed.
Lemma got_lt c i n m : inv c -> In (n, m) (got (subs c i)) -> n < next c.
Proof. intros H I. destruct (proj2 (i_got c H i) n m I) as (b & B & <- & _). exact (num_lt c b (i_nums c H) B). Qed.
Lemma last_num c b : inv_nums c -> lock c = Some b -> S (num b) = next c.
Proof.
  unfold inv_nums. intros H L. rewrite (started_replace c b L), map_app in H. cbn [map] in H. destruct (next c) as [|n]; [destruct (map num _); discriminate H|]. rewrite seq_S in H. apply app_inj_tail in H as [_ H]. rewrite H. reflexivity.
Qed.
Lemma sorted_snoc l (n : nat) : StronglySorted lt l -> (forall x, In x l -> x < n) -> StronglySorted lt (l ++ [n]).
Proof.
  intros S H. induction S as [|x l S IH F]; cbn [app]; [repeat constructor|]. constructor; [apply IH; intros y I; apply H; right; exact I|]. rewrite Forall_app. split; [exact F|]. constructor; [|constructor]. apply H. left. reflexivity.
Qed.
Lemma step_inv c e : inv c -> inv (chan_step c e).
Proof.
  intros I. assert (IM := i_members c I). assert (NU := i_nums c I). assert (TO := i_told c I). assert (MS := step_members c e IM NU TO).
  destruct IM as (_ & IMM & FR). destruct (step_does c e FR) as [Q L F N|b e' Q L L' F N EE|m o Q L P L' F N|b q r Q L T SO L' F N|b Q L L' F N|b q r L T ->].
  - assert (ST : started (chan_step c e) = started c) by (unfold started; rewrite L, F; reflexivity). constructor; [exact MS| | | |].
    + unfold inv_nums. rewrite ST, N. exact NU.
    + intros i. destruct Q as [_ Q]. destruct (Q i) as [G _]. rewrite G, ST. apply (i_got c I).
    + intros b B. rewrite ST in B. apply (told_quiet c); [exact Q|apply TO; exact B].
    + intros b B. rewrite F in B. apply (i_ended c I). exact B.
  - assert (ST : started (chan_step c e) = started c) by (unfold started; rewrite L, L', F, map_app; cbn [map fst]; rewrite app_nil_r; reflexivity). constructor; [exact MS| | | |].
    + unfold inv_nums. rewrite ST, N. exact NU.
    + intros i. destruct Q as [_ Q]. destruct (Q i) as [G _]. rewrite G, ST. apply (i_got c I).
    + intros b' B. rewrite ST in B. apply (told_quiet c); [exact Q|apply TO; exact B].
    + intros b' B. rewrite F in B. apply in_app_or in B as [B|[B|[]]]; [apply (i_ended c I); exact B|]. injection B as <- ->. apply EE. reflexivity.
  - set (nb := {| num := next c; msg := m; order := o; todo := o; dead := []; blocked := false |}) in *.
    assert (ST : started (chan_step c e) = started c ++ [nb]) by (unfold started; rewrite L, L', F, app_nil_r; reflexivity). constructor; [exact MS| | | |].
    + unfold inv_nums. rewrite ST, N, map_app, NU, seq_S. reflexivity.
    + intros i. destruct Q as [_ Q]. destruct (Q i) as [G _]. rewrite G. destruct (i_got c I i) as [A B]. split; [exact A|]. intros n m' J. destruct (B n m' J) as (b & B1 & B2). exists b. rewrite ST. split; [apply in_or_app; left; exact B1|exact B2].
    + intros b B. rewrite ST in B. apply in_app_or in B as [B|[<-|[]]]; [apply (told_quiet c); [exact Q|apply TO; exact B]|].
      destruct (i_members c I) as (NDM & _). destruct (permutes_facts o (members c) P NDM) as [P1 P2]. apply (told_quiet c); [exact Q|]. split; [exact P1|]. split; [intros i J; apply P2, IMM in J; tauto|]. exists []. split; [reflexivity|]. split; [intros i []|].
      intros i _. split; [|intros []]. unfold has. intros J. apply in_map_iff in J. destruct J as ((n, x) & E & J). cbn [fst num nb] in E. subst n. assert (X := got_lt c i (next c) x I J). lia.
    + intros b B. rewrite F in B. apply (i_ended c I). exact B.
  - set (nb := {| num := num b; msg := msg b; order := order b; todo := r; dead := dead b ++ [q]; blocked := false |}) in *.
    assert (ST : started (chan_step c e) = map fst (finished c) ++ [nb]) by (unfold started; rewrite L', F; reflexivity). assert (SC := started_replace c b L). constructor; [exact MS| | | |].
    + unfold inv_nums. rewrite ST, N, map_app. unfold inv_nums in NU. rewrite SC, map_app in NU. exact NU.
    + intros i. destruct Q as [_ Q]. destruct (Q i) as [G _]. rewrite G. destruct (i_got c I i) as [A B]. split; [exact A|]. intros n m' J. destruct (B n m' J) as (b' & B1 & B2). rewrite SC in B1. apply in_app_or in B1 as [B1|[<-|[]]].
      * exists b'. rewrite ST. split; [apply in_or_app; left; exact B1|exact B2].
      * exists nb. rewrite ST. split; [apply in_or_app; right; left; reflexivity|exact B2].
    + intros b' B. rewrite ST in B. apply in_app_or in B as [B|[<-|[]]]; [apply (told_quiet c); [exact Q|apply TO; rewrite SC; apply in_or_app; left; exact B]|].
      destruct (TO b) as (ND & CO & done & E & A & B); [rewrite SC; apply in_or_app; right; left; reflexivity|]. apply (told_quiet c); [exact Q|]. rewrite T in E.
      assert (NQ : ~ In q done) by (rewrite E in ND; apply NoDup_remove in ND as [_ ND]; intros J; apply ND, in_or_app; left; exact J).
      split; [exact ND|]. split; [exact CO|]. exists (done ++ [q]). cbn [order todo nb dead num msg]. split; [rewrite <- app_assoc; exact E|]. split.
      * intros i J. apply in_app_or in J as [J|[<-|[]]].
        -- destruct (A i J) as [(A1 & A2)|[A1 A2]]; [left; split; [apply in_or_app; left; exact A1|exact A2]|right; split; [|exact A2]]. intros K. apply in_app_or in K as [K|[<-|[]]]; contradiction.
        -- left. split; [apply in_or_app; right; left; reflexivity|]. split; [exact SO|]. apply (B q NQ).
      * intros i J. assert (J1 : ~ In i done) by (intros K; apply J, in_or_app; left; exact K). destruct (B i J1) as [B1 B2]. split; [exact B1|]. intros K. apply in_app_or in K as [K|[<-|[]]]; [contradiction|]. apply J, in_or_app. right. left. reflexivity.
    + intros b' B. rewrite F in B. apply (i_ended c I). exact B.
  - set (nb := {| num := num b; msg := msg b; order := order b; todo := todo b; dead := dead b; blocked := true |}) in *.
    assert (ST : started (chan_step c e) = map fst (finished c) ++ [nb]) by (unfold started; rewrite L', F; reflexivity). assert (SC := started_replace c b L). constructor; [exact MS| | | |].
    + unfold inv_nums. rewrite ST, N, map_app. unfold inv_nums in NU. rewrite SC, map_app in NU. exact NU.
    + intros i. destruct Q as [_ Q]. destruct (Q i) as [G _]. rewrite G. destruct (i_got c I i) as [A B]. split; [exact A|]. intros n m' J. destruct (B n m' J) as (b' & B1 & B2). rewrite SC in B1. apply in_app_or in B1 as [B1|[<-|[]]].
      * exists b'. rewrite ST. split; [apply in_or_app; left; exact B1|exact B2].
      * exists nb. rewrite ST. split; [apply in_or_app; right; left; reflexivity|exact B2].
    + intros b' B. rewrite ST in B. apply in_app_or in B as [B|[<-|[]]]; [apply (told_quiet c); [exact Q|apply TO; rewrite SC; apply in_or_app; left; exact B]|].
      apply (told_quiet c); [exact Q|]. change (told c b). apply TO. rewrite SC. apply in_or_app. right. left. reflexivity.
    + intros b' B. rewrite F in B. apply (i_ended c I). exact B.
  - set (nb := {| num := num b; msg := msg b; order := order b; todo := r; dead := dead b; blocked := false |}).
    assert (ST : started (give b q r c) = map fst (finished c) ++ [nb]) by reflexivity. assert (SC := started_replace c b L). assert (LN := last_num c b NU L).
    destruct (TO b) as (ND & CO & done & E & A & B); [rewrite SC; apply in_or_app; right; left; reflexivity|]. rewrite T in E.
    assert (NQ : ~ In q done) by (rewrite E in ND; apply NoDup_remove in ND as [_ ND]; intros J; apply ND, in_or_app; left; exact J).
    assert (SUBO : forall i, send_open (subs (give b q r c) i) = send_open (subs c i)) by (intros i; unfold give; cbn [subs with_lock with_subs]; unfold upd; destruct (Nat.eqb_spec i q) as [->|]; reflexivity).
    assert (HAS : forall n i, has (give b q r c) n i <-> has c n i \/ (i = q /\ n = num b)).
    { intros n i. unfold has. rewrite give_got. destruct (Nat.eqb_spec i q) as [->|NE]; [rewrite map_app, in_app_iff; cbn; intuition congruence|]. intuition. }
    constructor.
    + (* members *) assert (LT : q < count c) by (apply CO; rewrite E; apply in_or_app; right; left; reflexivity).
      destruct (i_members c I) as (M1 & M2 & M3). split; [exact M1|]. split; intros i.
      * rewrite SUBO. apply M2.
      * intros G. unfold give. cbn [subs with_lock with_subs]. rewrite upd_off by (cbn [count give with_lock with_subs] in G; lia). apply M3. exact G.
    + unfold inv_nums. rewrite ST, map_app. unfold inv_nums in NU. rewrite SC, map_app in NU. exact NU.
    + intros i. rewrite give_got. destruct (i_got c I i) as [G1 G2]. destruct (Nat.eqb_spec i q) as [->|NE].
      * split.
        -- rewrite map_app. cbn [map fst]. apply sorted_snoc; [exact G1|]. intros x J. assert (x <> num b) by (intros ->; exact (proj1 (B q NQ) J)). apply in_map_iff in J. destruct J as ((n, y) & <- & J). assert (X := got_lt c q n y I J). cbn [fst] in *. lia.
        -- intros n m' J. apply in_app_or in J as [J|[J|[]]].
           ++ destruct (G2 n m' J) as (b' & B1 & B2). rewrite SC in B1. rewrite ST. apply in_app_or in B1 as [B1|[<-|[]]]; [exists b'; split; [apply in_or_app; left; exact B1|exact B2]|exists nb; split; [apply in_or_app; right; left; reflexivity|exact B2]].
           ++ injection J as <- <-. exists nb. rewrite ST. split; [apply in_or_app; right; left; reflexivity|auto].
      * split; [exact G1|]. intros n m' J. destruct (G2 n m' J) as (b' & B1 & B2). rewrite SC in B1. rewrite ST. apply in_app_or in B1 as [B1|[<-|[]]]; [exists b'; split; [apply in_or_app; left; exact B1|exact B2]|exists nb; split; [apply in_or_app; right; left; reflexivity|exact B2]].
    + intros b' BI. rewrite ST in BI. apply in_app_or in BI as [BI|[<-|[]]].
      * assert (IN : In b' (started c)) by (rewrite SC; apply in_or_app; left; exact BI). destruct (TO b' IN) as (ND' & CO' & done' & E' & A' & B'). 
        assert (NN : num b' <> num b).
        { intros EQ. assert (ND2 : NoDup (map num (started c))) by (unfold inv_nums in NU; rewrite NU; apply seq_NoDup). rewrite SC, map_app in ND2. apply (NoDup_remove_2 (map num (map fst (finished c))) []) in ND2. rewrite app_nil_r in ND2. apply ND2. rewrite <- EQ. apply in_map. exact BI. }
        split; [exact ND'|]. split; [exact CO'|]. exists done'. split; [exact E'|]. split; intros i J.
        -- rewrite SUBO. destruct (A' i J) as [(A1 & A2 & A3)|[A1 A2]]; [left|right].
           ++ split; [exact A1|]. split; [exact A2|]. intros H. apply HAS in H as [H|[_ H]]; contradiction.
           ++ split; [exact A1|]. rewrite give_got. destruct (Nat.eqb_spec i q) as [->|]; [apply in_or_app; left|]; exact A2.
        -- destruct (B' i J) as [B1 B2]. split; [|exact B2]. intros H. apply HAS in H as [H|[_ H]]; contradiction.
      * split; [exact ND|]. split; [exact CO|]. exists (done ++ [q]). cbn [order todo nb dead num msg]. split; [rewrite <- app_assoc; exact E|]. split.
        -- intros i J. rewrite SUBO. apply in_app_or in J as [J|[<-|[]]].
           ++ assert (i <> q) by (intros ->; contradiction). rewrite give_got. destruct (Nat.eqb_spec i q) as [->|_]; [contradiction|].
              destruct (A i J) as [(A1 & A2 & A3)|A1]; [left; split; [exact A1|]; split; [exact A2|]|right; exact A1]. intros K. apply HAS in K as [K|[K _]]; contradiction.
           ++ right. split; [apply (B q NQ)|]. rewrite give_got, Nat.eqb_refl. apply in_or_app. right. left. reflexivity.
        -- intros i J. assert (J1 : ~ In i done) by (intros K; apply J, in_or_app; left; exact K). destruct (B i J1) as [B1 B2]. split; [|exact B2]. intros K. apply HAS in K as [K|[-> _]]; [contradiction|]. apply J, in_or_app. right. left. reflexivity.
    + intros b' B'. apply (i_ended c I). exact B'.
Qed.
Lemma idle_inv : inv idle.
Proof.
  constructor.
  - split; [constructor|]. split; [|reflexivity]. intros i. cbn. split; [intros []|intros [H _]; lia].
  - reflexivity.
  - intros i. split; [constructor|intros n m []].
  - intros b [].
  - intros b [].
Qed.
Lemma run_inv es : inv (chan_run es).
Proof. unfold chan_run. assert (G : forall l c, inv c -> inv (fold_left chan_step l c)) by (induction l as [|e l IH]; intros c H; [exact H|]; apply IH, step_inv, H). apply G, idle_inv. Qed.
End Invariant.

Lemma remove_none l : remove_all [] l = l.
Proof. unfold remove_all. induction l as [|x l IH]; [reflexivity|]. cbn. f_equal. exact IH. Qed.

(** ** C47 *)
(** A broadcast that is not cancelled reaches every subscriber of its time that has not left. *)
Definition C47_statement : Prop := forall Msg (es : list (event Msg)) b e i, let c := chan_run es in
  In (b, e) (finished c) -> e <> Cancelled -> In i (order b) -> recv_open (subs c i) = true -> In (num b, msg b) (got (subs c i)).
(** A subscriber that leaves while, or shortly before, it is served ends the broadcast for all that follow. *)
Theorem C47_refuted : ~ C47_statement.
Proof.
  intros H. set (es := [Subscribe; Subscribe; Receive 1; CloseReceive 0; Start 7 [0; 1]; Advance]).
  specialize (H nat es {| num := 0; msg := 7; order := [0; 1]; todo := [0; 1]; dead := []; blocked := false |} Broke 1). cbn zeta in H.
  assert (G : got (subs (chan_run es) 1) = []) by reflexivity. rewrite G in H. apply H; try reflexivity; try discriminate; [left; reflexivity|right; left; reflexivity].
Qed.
Print Assumptions C47_refuted.
(** A broadcast that ends normally has reached exactly the subscribers of its time, each once, but for those
    found closed, which have left for good. *)
Theorem C47_complete_partial : forall Msg (es : list (event Msg)) b, let c := chan_run es in In (b, Ended) (finished c) ->
  (forall i, In i (order b) -> recv_open (subs c i) = true -> send_open (subs c i) = true -> In (num b, msg b) (got (subs c i)))
  /\ (forall i, In i (order b) -> ~ In i (dead b) -> count_occ Nat.eq_dec (map fst (got (subs c i))) (num b) = 1 /\ In (num b, msg b) (got (subs c i)))
  /\ (forall i, In i (dead b) -> send_open (subs c i) = false /\ ~ In i (members c))
  /\ (forall i, In (num b) (map fst (got (subs c i))) -> In i (order b) /\ ~ In i (dead b)).
Proof.
  intros Msg es b c IN. assert (I := run_inv es). fold c in I. assert (T := i_ended c I b IN).
  assert (ST : In b (started c)) by (unfold started; apply in_or_app; left; apply (in_map fst) in IN; exact IN).
  destruct (i_told c I b ST) as (ND & CO & done & E & A & B). rewrite T, app_nil_r in E. subst done.
  refine (conj _ (conj _ (conj _ _))).
  - intros i J R S. destruct (A i J) as [(_ & S' & _)|[_ G]]; [congruence|exact G].
  - intros i J ND'. destruct (A i J) as [(D & _)|[_ G]]; [contradiction|]. split; [|exact G].
    assert (SO := proj1 (i_got c I i)). assert (NDN : NoDup (map fst (got (subs c i)))).
    { clear -SO. induction SO as [|x l S IH F]; constructor; [|exact IH]. intros J. rewrite Forall_forall in F. specialize (F x J). lia. }
    apply (in_map fst) in G. cbn [fst] in G. assert (H1 := proj1 (NoDup_count_occ Nat.eq_dec _) NDN (num b)). assert (H2 := proj1 (count_occ_In Nat.eq_dec _ _) G). lia.
  - intros i D. destruct (in_dec Nat.eq_dec i (order b)) as [J|J]; [|destruct (B i J) as [_ B2]; contradiction]. destruct (A i J) as [(_ & S & _)|[ND' _]]; [|contradiction]. split; [exact S|].
    intros M. destruct (i_members c I) as (_ & IM & _). apply IM in M. destruct M as [_ M]. congruence.
  - intros i H. destruct (in_dec Nat.eq_dec i (order b)) as [J|J]; [|destruct (B i J) as [B1 _]; contradiction]. split; [exact J|]. destruct (A i J) as [(_ & _ & H')|[ND' _]]; [contradiction|exact ND'].
Qed.
Print Assumptions C47_complete_partial.
(** The subscribers of a channel are those that have not closed. *)
Theorem C47_members : forall Msg (es : list (event Msg)) i, let c := chan_run es in In i (members c) <-> i < count c /\ send_open (subs c i) = true.
Proof. intros Msg es i c. destruct (i_members c (run_inv es)) as (_ & M & _). apply M. Qed.
Print Assumptions C47_members.
(** If all subscribers wait, a broadcast reaches them all without waiting itself. *)
Theorem C47_progress : forall Msg (es : list (event Msg)) m o, let c := chan_run es in
  lock c = None -> permutes o (members c) = true -> (forall i, In i (members c) -> recv_open (subs c i) = true /\ waits (subs c i) = true) ->
  let c' := fold_left chan_step (Start m o :: repeat Advance (S (length o))) c in
  exists b, finished c' = finished c ++ [(b, Ended)] /\ msg b = m /\ order b = o /\ dead b = [] /\ lock c' = None /\ members c' = members c
    /\ forall i, In i (members c) -> In (num b, m) (got (subs c' i)).
Proof.
  intros Msg es m o c L P W. assert (I := run_inv es). fold c in I. destruct (i_members c I) as (NDM & M & _). destruct (permutes_facts o (members c) P NDM) as [NDO PO].
  cbn zeta. cbn [fold_left]. set (c1 := chan_step c (Start m o)).
  assert (E1 : c1 = {| subs := subs c; count := count c; members := members c; lock := Some {| num := next c; msg := m; order := o; todo := o; dead := []; blocked := false |}; next := S (next c); finished := finished c |}) by (unfold c1; cbn [chan_step]; rewrite L, P; reflexivity).
  assert (G : forall r c2, NoDup r -> lock c2 = Some {| num := next c; msg := m; order := o; todo := r; dead := []; blocked := false |} -> finished c2 = finished c -> members c2 = members c ->
    (forall i, In i r -> send_open (subs c2 i) = true /\ recv_open (subs c2 i) = true /\ waits (subs c2 i) = true) ->
    let c3 := fold_left chan_step (repeat Advance (S (length r))) c2 in
    exists b, finished c3 = finished c ++ [(b, Ended)] /\ msg b = m /\ num b = next c /\ order b = o /\ dead b = [] /\ lock c3 = None /\ members c3 = members c
      /\ (forall i x, In x (got (subs c2 i)) -> In x (got (subs c3 i))) /\ forall i, In i r -> In (next c, m) (got (subs c3 i))).
  { induction r as [|q r IH]; intros c2 ND L2 F2 M2 W2.
    - cbn [length repeat fold_left chan_step]. rewrite L2. cbn [blocked todo dead]. eexists. unfold finish. cbn [finished lock members with_members subs]. rewrite F2, M2.
      assert (R0 : remove_all [] (members c) = members c) by apply remove_none.
      split; [reflexivity|]. rewrite R0. repeat (split; [reflexivity|]). split; [auto|]. intros i [].
    - inversion ND as [|? ? N1 N2]; subst. destruct (W2 q (or_introl eq_refl)) as (S1 & S2 & S3).
      change (repeat Advance (S (length (q :: r)))) with (Advance (Msg := Msg) :: repeat Advance (S (length r))). set (rest := repeat Advance (S (length r))) in *. cbn [fold_left].
      assert (E2 : chan_step c2 Advance = give {| num := next c; msg := m; order := o; todo := q :: r; dead := []; blocked := false |} q r c2) by (cbn [chan_step]; rewrite L2; cbn [blocked todo]; rewrite S1, S2, S3; reflexivity).
      rewrite E2. set (bb := {| num := next c; msg := m; order := o; todo := q :: r; dead := []; blocked := false |}).
      destruct (IH (give bb q r c2)) as (b & B1 & B2 & B3 & B4 & B5 & B6 & B7 & B8 & B9); try reflexivity; try assumption.
      { intros i J. unfold give. cbn [subs with_lock with_subs]. rewrite upd_off by (intros ->; contradiction). apply W2. right. exact J. }
      exists b. split; [exact B1|]. split; [exact B2|]. split; [exact B3|]. split; [exact B4|]. split; [exact B5|]. split; [exact B6|]. split; [exact B7|].
      assert (GG : forall i x, In x (got (subs c2 i)) -> In x (got (subs (give bb q r c2) i))).
      { intros i x J. rewrite give_got. destruct (Nat.eqb_spec i q) as [->|]; [apply in_or_app; left|]; exact J. }
      split; [intros i x J; apply B8, GG, J|]. intros i [<-|J]; [|apply B9; exact J]. apply B8. rewrite give_got, Nat.eqb_refl. apply in_or_app. right. left. reflexivity. }
  destruct (G o c1) as (b & B1 & B2 & B3 & B4 & B5 & B6 & B7 & B8 & B9); try (rewrite E1; reflexivity); [exact NDO| |].
  { intros i J. rewrite E1. cbn [subs]. apply PO in J. destruct (W i J) as [W1 W2]. apply M in J. tauto. }
  exists b. repeat (split; [assumption|]). rewrite B3. intros i J. apply B9, PO, J.
Qed.
Print Assumptions C47_progress.
Example C47_case : let c := chan_run [Subscribe; Receive 0; Subscribe; Receive 1; Start 7 [1; 0]; Advance; Advance; Advance; Subscribe; Start 8 [2; 0; 1]; Advance; Receive 2; CloseReceive 0; Cancel] in
  got (subs c 0) = [(0, 7)] /\ got (subs c 2) = [(1, 8)] /\ map snd (finished c) = [Ended; Cancelled].
Proof. vm_compute. auto. Qed.
(** A subscriber that closes completely during the broadcast is found dead, and the others are served. *)
Example C47_dead_case : let c := chan_run [Subscribe; Subscribe; Receive 0; Receive 1; Start 7 [1; 0]; CloseReceive 1; CloseSend 1; Advance; Advance; Advance] in
  map (fun x => dead (fst x)) (finished c) = [[1]] /\ got (subs c 0) = [(0, 7)] /\ members c = [0].
Proof. vm_compute. auto. Qed.

(** A name has one channel, however often it is asked for, until the manager is cleared. *)
Theorem C47_unique : forall pre n post, Forall (fun o => o <> ClearChannels) post ->
  let m := mgr_run pre in let first := snd (mgr_step m (GetOrCreate n)) in
  snd (mgr_step (fold_left (fun m o => fst (mgr_step m o)) post (fst (mgr_step m (GetOrCreate n)))) (GetOrCreate n)) = first /\ first <> None.
Proof.
  intros pre n post F m first.
  assert (H : exists ch, first = Some ch /\ dget n (channels (fst (mgr_step m (GetOrCreate n)))) = Some ch).
  { unfold first. cbn [mgr_step]. destruct (dget n (channels m)) as [ch|] eqn:E; [exists ch; auto|]. exists (made m). cbn [fst snd channels]. split; [reflexivity|apply dget_dset_same]. }
  destruct H as (ch & -> & H). revert H. generalize (fst (mgr_step m (GetOrCreate n))). induction F as [|o post O F IH]; intros m' H; cbn [fold_left].
  - cbn [mgr_step]. rewrite H. split; [reflexivity|discriminate].
  - apply IH. destruct o as [k|]; [|contradiction O; reflexivity]. cbn [mgr_step]. destruct (dget k (channels m')) eqn:E; [exact H|]. cbn [fst channels]. rewrite dget_dset_other; [exact H|]. intros ->. congruence.
Qed.
Print Assumptions C47_unique.
(** Different names have different channels. *)
Theorem C47_distinct : forall os n k ch, dget n (channels (mgr_run os)) = Some ch -> dget k (channels (mgr_run os)) = Some ch -> n = k.
Proof.
  intros os.
  assert (G : (forall n ch, dget n (channels (mgr_run os)) = Some ch -> ch < made (mgr_run os)) /\ forall n k ch, dget n (channels (mgr_run os)) = Some ch -> dget k (channels (mgr_run os)) = Some ch -> n = k).
  { unfold mgr_run. set (m0 := {| channels := []; made := 0 |}).
    assert (G0 : (forall n ch, dget n (channels m0) = Some ch -> ch < made m0) /\ forall n k ch, dget n (channels m0) = Some ch -> dget k (channels m0) = Some ch -> n = k) by (split; intros; discriminate).
    revert G0. generalize m0. induction os as [|o os IH]; intros m [A B]; [auto|]. cbn [fold_left]. apply IH. destruct o as [x|]; cbn [mgr_step]; [|split; cbn; intros; discriminate].
    destruct (dget x (channels m)) as [c|] eqn:E; [auto|]. cbn [fst channels made].
    assert (D : forall n ch, dget n (dset x (made m) (channels m)) = Some ch -> (n = x /\ ch = made m) \/ (n <> x /\ dget n (channels m) = Some ch)).
    { intros n ch H. destruct (list_eq_dec N.eq_dec n x) as [->|NE]; [rewrite dget_dset_same in H; left; split; congruence|rewrite dget_dset_other in H by exact NE; auto]. }
    split; [intros n ch H; apply D in H as [[_ ->]|[_ H]]; [lia|apply A in H; lia]|]. intros n k ch H1 H2. apply D in H1, H2. destruct H1 as [[-> ->]|[_ H1]], H2 as [[-> H2]|[_ H2]]; try reflexivity.
    - apply A in H2. lia.
    - apply A in H1. lia.
    - exact (B n k ch H1 H2). }
  apply G.
Qed.
Print Assumptions C47_distinct.

(** ** C84 *)
(** Every subscriber gets the messages in the order in which the broadcasts got the lock, none twice. *)
Theorem C84_order : forall Msg (es : list (event Msg)) i, let c := chan_run es in
  StronglySorted lt (map fst (got (subs c i)))
  /\ forall n m, In (n, m) (got (subs c i)) -> exists b, nth_error (started c) n = Some b /\ msg b = m.
Proof.
  intros Msg es i c. assert (I := run_inv es). fold c in I. destruct (i_got c I i) as [A B]. split; [exact A|]. intros n m J. destruct (B n m J) as (b & S & N & M).
  exists b. split; [|exact M]. apply In_nth_error in S. destruct S as (k & K). assert (H := i_nums c I). unfold inv_nums in H. assert (E : nth_error (map num (started c)) k = Some n) by (rewrite nth_error_map, K; cbn; congruence).
  rewrite H in E. assert (KL : k < next c) by (rewrite <- (seq_length (next c) 0); apply nth_error_Some; rewrite E; discriminate).
  rewrite (nth_error_nth' (seq 0 (next c)) 0) in E by (rewrite seq_length; exact KL). rewrite seq_nth in E by exact KL. injection E as <-. exact K.
Qed.
Print Assumptions C84_order.
