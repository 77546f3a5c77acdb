(** Property theorems for the schedules of a streamed response: C292 - C294. *)
From Verif Require Import PyStr PyStrFacts Asgi StreamModel StreamSpec StreamProofs CoopModel CoopSpec CoopProofs.
Open Scope nat_scope.

(** C292: whatever the content gives, in whatever order messages arrive and tasks run, and wherever awaits suspend:
    when the call has ended, the start of the response was sent first, and either the content was exhausted and the body
    is complete and made of all its items; or it raised, no message says that the body is complete, and the exception
    comes out; or the client had left, and what was sent is the beginning of the content.  The cleanup ran once, after the
    last message and before the background task. *)
Theorem C292_any_schedule enc k content bg code h ops :
  let st := run enc k content ops start_state in
  over st = true ->
  exists cs body, gives content cs /\
    (content (length cs) = Stop /\ abody_complete body /\ abytes body = concat (map (chunk_bytes enc) cs) /\
     effects bg code h st = Sent (AStart code h) :: map Sent body ++ Cleanup :: (if bg then [Background] else [])
     \/ content (length cs) = Fail /\ unfinished body /\ is_prefix (abytes body) (concat (map (chunk_bytes enc) cs)) /\
        effects bg code h st = Sent (AStart code h) :: map Sent body ++ [Cleanup; Raised]
     \/ arrives MDisconnect ops /\ is_prefix (abytes body) (concat (map (chunk_bytes enc) cs)) /\
        effects bg code h st = Sent (AStart code h) :: map Sent body ++ Cleanup :: (if bg then [Background] else [])).
Proof.
  cbv zeta. set (st := run enc k content ops start_state). intros O.
  pose proof (run_inv enc k content ops) as I. fold st in I.
  destruct I as ((cs & L & G & P) & _ & _ & B3 & _).
  unfold over in O. apply andb_true_iff in O as [O _].
  exists cs, (out st). split; [exact G|]. unfold effects.
  destruct (s_phase st) eqn:Ph; try discriminate O; cbn [phase_ok] in P.
  - left. destruct P as [S1 Eo]. rewrite Eo. destruct (stream_done enc cs None) as [D1 D2]. auto.
  - right; left. destruct P as [S1 Eo]. rewrite Eo. destruct (stream_raises enc cs None) as [D1 D2]. auto.
  - right; right. split; [auto|]. split; [|reflexivity].
    assert (Q : forall x y, is_prefix x y -> is_prefix (abytes x) (abytes y)).
    { intros x y [t ->]. exists (abytes t). unfold abytes. now rewrite map_app, concat_app. }
    destruct P as [P|[_ P]].
    + destruct (stream_raises enc cs None) as [_ [t D2]]. destruct (Q _ _ P) as [t' E]. cbn [app] in D2. rewrite D2, E.
      exists (t' ++ t). now rewrite app_assoc.
    + destruct (stream_done enc cs None) as [_ D2]. cbn [app] in D2. rewrite <- D2. now apply Q.
Qed.
Print Assumptions C292_any_schedule.

Definition two_items (n : nat) : produced := match n with 0 => Item (CText (u "a")) | 1 => Item (CBytes (u "b")) | _ => Stop end.
(** The hypothesis is met, by a run to the end and by one in which the client leaves. *)
Example C292_case :
  let ops := [ORun TListen false; ORun TStream true; OArrive MRequest; ORun TStream false; ORun TStream false; ORun TStream true;
              ORun TListen true; ORun TStream false; ORun TStream false; ORun TStream false; ORun TListen false] in
  let st := run (fun t => t) AsyncContent two_items ops start_state in
  over st = true /\
  effects true 200 [] st = [Sent (AStart 200 []); Sent (ABody (u "a") true); Sent (ABody (u "b") false); Cleanup; Background].
Proof. vm_compute. auto. Qed.
Example C292_case_left :
  let ops := [ORun TListen false; ORun TStream false; ORun TStream false; ORun TStream true; OArrive MDisconnect; ORun TListen true; ORun TStream false] in
  let st := run (fun t => t) SyncContent two_items ops start_state in
  over st = true /\ effects true 200 [] st = [Sent (AStart 200 []); Sent (ABody (u "a") true); Cleanup; Background].
Proof. vm_compute. auto. Qed.

(** The stream ends without the client having left only by the content's end or failure. *)
Theorem C292_not_cut enc k content bg code h ops :
  let st := run enc k content ops start_state in
  over st = true -> ~ arrives MDisconnect ops ->
  exists cs, gives content cs /\ (content (length cs) = Stop \/ content (length cs) = Fail) /\
    (content (length cs) = Stop -> exists body, abody_complete body /\ abytes body = concat (map (chunk_bytes enc) cs) /\
      effects bg code h st = Sent (AStart code h) :: map Sent body ++ Cleanup :: (if bg then [Background] else [])).
Proof.
  cbv zeta. intros O N. destruct (C292_any_schedule enc k content bg code h ops O) as (cs & body & G & [H|[H|H]]).
  - destruct H as (S1 & A & B & E). exists cs. split; [exact G|]. split; [now left|]. eauto.
  - destruct H as (S1 & A & B & E). exists cs. split; [exact G|]. split; [now right|]. intros S2. congruence.
  - destruct H as [H _]. contradiction.
Qed.
Print Assumptions C292_not_cut.

(** C293, full statement: while the content of a response is produced the other tasks get their turn: from every state
    that can be reached in which the stream has the loop, it gives the loop back after finitely many pieces. *)
Definition C293_statement : Prop := forall enc k content ops policy,
  let st := run enc k content ops start_state in
  running st = Some TStream ->
  exists n, running (pieces policy (step enc k content) n st) = None.

(** False: synchronous content is iterated by the loop's own thread, although it is handed to [iterate_in_threadpool]: a
    generator without end and a server whose [send] has nothing to wait for (as after the client left) keep every other
    task from running for ever, the one that would notice that the client left included. *)
Definition endless (n : nat) : produced := Item (CText (u "tick")).
Lemma endless_runs n : forall st,
  running st = Some TStream -> (exists b, s_phase st = PNext (Some b) \/ exists c, s_phase st = PSend b c) ->
  running (pieces (fun _ => false) (step (fun t => t) SyncContent endless) n st) = Some TStream.
Proof.
  induction n as [|n IH]; intros st R P; [exact R|]. cbn [pieces]. apply IH.
  - unfold step. rewrite R. unfold stream_piece. destruct P as (b & [->|(c & ->)]); reflexivity.
  - unfold step. rewrite R. unfold stream_piece. destruct P as (b & [->|(c & ->)]); cbn; eauto.
Qed.
Theorem C293_refuted : ~ C293_statement.
Proof.
  intros H.
  destruct (H (fun t => t) SyncContent endless [ORun TListen false; ORun TStream false; OArrive MDisconnect] (fun _ => false) eq_refl) as (n & E).
  rewrite endless_runs in E; [discriminate E|reflexivity|]. exists (u "tick"). left. reflexivity.
Qed.
Print Assumptions C293_refuted.
(** Every content of any length, as long as [send] does not suspend: from the first item to the last nothing else runs. *)
Theorem C293_blocked enc content ops n m :
  let st := run enc SyncContent content ops start_state in
  running st = Some TStream -> pos st > 0 -> (exists b, s_phase st = PNext (Some b)) ->
  (forall i, i < n -> exists c, content (pos st + i) = Item c) -> m <= n ->
  forall policy, (forall x, (exists b c, s_phase x = PSend b c) -> policy x = false) ->
  running (pieces policy (step enc SyncContent content) (2 * m) st) = Some TStream /\
  pos (pieces policy (step enc SyncContent content) (2 * m) st) = pos st + m.
Proof.
  cbv zeta. set (st := run enc SyncContent content ops start_state). clearbody st. revert n st.
  induction m as [|m IH]; intros n st R Pz (b & Ph) Ct Hm policy Hp.
  - cbn. split; [exact R|lia].
  - destruct (Ct 0 ltac:(lia)) as (c & Ec). rewrite Nat.add_0_r in Ec.
    replace (2 * S m) with (S (S (2 * m))) by lia. cbn [pieces].
    set (st1 := step enc SyncContent content st (ORun TStream (policy st))).
    assert (W : can_wait SyncContent content (pos st) = false).
    { unfold can_wait. destruct (pos st) as [|p]; [lia|]. now rewrite Ec. }
    assert (E1 : st1 = mk (PSend b (chunk_bytes enc c)) true (S (pos st)) (l_phase st) (inbox st) (Some TStream) (cancel st) (out st)).
    { unfold st1, step. rewrite R. unfold stream_piece. rewrite Ph, W, andb_false_r, Ec. reflexivity. }
    assert (Q : policy st1 = false) by (apply Hp; rewrite E1; cbn; eauto).
    rewrite Q. set (st2 := step enc SyncContent content st1 (ORun TStream false)).
    assert (E2 : st2 = mk (PNext (Some (chunk_bytes enc c))) true (S (pos st)) (l_phase st) (inbox st) (Some TStream) (cancel st) (out st ++ [ABody b true])).
    { unfold st2. rewrite E1. reflexivity. }
    destruct (IH (n - 1) st2) with (policy := policy) as [A B].
    + now rewrite E2.
    + rewrite E2. cbn. lia.
    + rewrite E2. cbn. eauto.
    + rewrite E2. cbn [pos]. intros i Hi. destruct (Ct (S i) ltac:(lia)) as (d & Ed). exists d. rewrite <- Ed. f_equal. lia.
    + lia.
    + exact Hp.
    + split; [exact A|]. rewrite B, E2. cbn. lia.
Qed.
Print Assumptions C293_blocked.
Example C293_case :
  let st := run (fun t => t) SyncContent endless [ORun TListen false; ORun TStream false] start_state in
  running st = Some TStream /\ pos st > 0 /\ (exists b, s_phase st = PNext (Some b)).
Proof. split; [reflexivity|]. split; [cbn; lia|]. exists (u "tick"). reflexivity. Qed.

(** What holds: when [send] suspends, the stream gives the loop back after at most four pieces, in which it takes at most
    two items, whatever the content ... *)
Theorem C293_turns_partial enc k content ops policy :
  let st := run enc k content ops start_state in
  running st = Some TStream ->
  (forall x, (exists b c, s_phase x = PSend b c) \/ (exists l, s_phase x = PFinal l) -> policy x = true) ->
  exists n, n <= 4 /\ running (pieces policy (step enc k content) n st) = None /\
    pos (pieces policy (step enc k content) n st) <= pos st + 2.
Proof.
  cbv zeta. intros R Hp. pose proof (run_inv enc k content ops) as I. set (st := run enc k content ops start_state) in *. clearbody st.
  destruct I as (_ & _ & _ & _ & _ & _ & B6 & _). specialize (B6 R).
  assert (Psend : forall x, running x = Some TStream -> (exists b c, s_phase x = PSend b c) -> 
     running (pieces policy (step enc k content) 1 x) = None /\ pos (pieces policy (step enc k content) 1 x) = pos x).
  { intros x Rx Hx. cbn [pieces]. rewrite (Hp x (or_introl Hx)). unfold step. rewrite Rx. unfold stream_piece. destruct Hx as (b & c & ->). split; reflexivity. }
  assert (Pfinal : forall x, running x = Some TStream -> (exists l, s_phase x = PFinal l) ->
     running (pieces policy (step enc k content) 1 x) = None /\ pos (pieces policy (step enc k content) 1 x) = pos x).
  { intros x Rx Hx. cbn [pieces]. rewrite (Hp x (or_intror Hx)). unfold step. rewrite Rx. unfold stream_piece. destruct Hx as (l & ->). split; reflexivity. }
  assert (Pnext : forall x b, running x = Some TStream -> s_phase x = PNext (Some b) ->
     exists n, n <= 2 /\ running (pieces policy (step enc k content) n x) = None /\ pos (pieces policy (step enc k content) n x) <= pos x + 1).
  { intros x b Rx Px.
    remember (step enc k content x (ORun TStream (policy x))) as y eqn:Ey.
    pose proof Ey as Ey'. unfold step in Ey'. rewrite Rx in Ey'. unfold stream_piece in Ey'. rewrite Px in Ey'.
    destruct (policy x && can_wait k content (pos x)).
    { exists 1. cbn [pieces]. rewrite <- Ey, Ey'. cbn. split; [lia|split; [reflexivity|lia]]. }
    destruct (content (pos x)) as [c| |].
    - exists 2. destruct (Psend y) as [A B]; [now rewrite Ey'|rewrite Ey'; cbn; eauto|].
      cbn [pieces] in A, B |- *. rewrite <- Ey, A, B, Ey'. cbn. split; [lia|split; [reflexivity|lia]].
    - exists 2. destruct (Pfinal y) as [A B]; [now rewrite Ey'|rewrite Ey'; cbn; eauto|].
      cbn [pieces] in A, B |- *. rewrite <- Ey, A, B, Ey'. cbn. split; [lia|split; [reflexivity|lia]].
    - exists 1. cbn [pieces]. rewrite <- Ey, Ey'. cbn. split; [lia|split; [reflexivity|lia]]. }
  destruct (s_phase st) as [[b|]|b c|l| | | | ] eqn:Ph; try discriminate B6.
  - destruct (Pnext st b R Ph) as (n & Hn & A & B). exists n. split; [lia|split; [exact A|lia]].
  - remember (step enc k content st (ORun TStream (policy st))) as y eqn:Ey.
    pose proof Ey as Ey'. unfold step in Ey'. rewrite R in Ey'. unfold stream_piece in Ey'. rewrite Ph in Ey'.
    destruct (policy st && can_wait k content (pos st)).
    { exists 1. cbn [pieces]. rewrite <- Ey, Ey'. cbn. split; [lia|split; [reflexivity|lia]]. }
    destruct (content (pos st)) as [c| |].
    + destruct (Pnext y (chunk_bytes enc c)) as (n & Hn & A & B); [now rewrite Ey'|now rewrite Ey'|].
      exists (S n). cbn [pieces]. rewrite <- Ey. split; [lia|split; [exact A|]]. rewrite Ey' in B at 2. cbn [pos] in B. lia.
    + destruct (Pfinal y) as [A B]; [now rewrite Ey'|rewrite Ey'; cbn; eauto|].
      exists 2. cbn [pieces] in A, B |- *. rewrite <- Ey, A, B, Ey'. cbn. split; [lia|split; [reflexivity|lia]].
    + exists 1. cbn [pieces]. rewrite <- Ey, Ey'. cbn. split; [lia|split; [reflexivity|lia]].
  - destruct (Psend st R) as [A B]; [eauto|]. exists 1. rewrite A, B. split; [lia|split; [reflexivity|lia]].
  - destruct (Pfinal st R) as [A B]; [eauto|]. exists 1. rewrite A, B. split; [lia|split; [reflexivity|lia]].
  - exists 1. cbn [pieces]. unfold step. rewrite R. unfold stream_piece. rewrite Ph. cbn. split; [lia|split; [reflexivity|lia]].
Qed.
Print Assumptions C293_turns_partial.

(** ... and a disconnect at the server is noticed in the next turn of the listener, after which no item is taken and no
    message sent any more, in every continuation, and one turn of each task ends the call. *)
Theorem C293_noticed_partial enc k content ops i j :
  let st := run enc k content ops start_state in
  running st = None -> l_phase st = LWait -> cancel st = false -> started st = true -> inbox st = repeat MRequest i ++ MDisconnect :: j ->
  let seen := run enc k content (repeat (ORun TListen false) (S i)) st in
  l_phase seen = LSeen /\ out seen = out st /\ pos seen = pos st /\
  (forall more, out (run enc k content more seen) = out seen /\ pos (run enc k content more seen) = pos seen) /\
  over (run enc k content [ORun TStream false] seen) = true.
Proof.
  cbv zeta. set (st := run enc k content ops start_state). clearbody st. intros R LW C S0 Ib.
  assert (E : run enc k content (repeat (ORun TListen false) (S i)) st =
    mk (s_phase st) true (pos st) LSeen j None true (out st)).
  { assert (Q : forall i x, (running x = None \/ running x = Some TListen) -> l_phase x = LWait -> cancel x = false -> inbox x = repeat MRequest i ++ MDisconnect :: j ->
      run enc k content (repeat (ORun TListen false) (S i)) x = mk (s_phase x) (started x) (pos x) LSeen j None true (out x)).
    { clear. induction i as [|i IH]; intros x Rx LWx Cx Ibx.
      - cbn [repeat run fold_left]. unfold step. destruct Rx as [-> | ->].
        + rewrite LWx, Cx. unfold listen_piece. rewrite LWx, Ibx. reflexivity.
        + unfold listen_piece. rewrite LWx, Ibx. reflexivity.
      - change (run enc k content (repeat (ORun TListen false) (S i)) (step enc k content x (ORun TListen false)) = mk (s_phase x) (started x) (pos x) LSeen j None true (out x)).
        assert (Ex : step enc k content x (ORun TListen false) = mk (s_phase x) (started x) (pos x) LWait (repeat MRequest i ++ MDisconnect :: j) (Some TListen) false (out x)).
        { unfold step. destruct Rx as [-> | ->].
          + rewrite LWx, Cx. unfold listen_piece. rewrite LWx, Ibx. cbn [repeat app]. rewrite Cx. reflexivity.
          + unfold listen_piece. rewrite LWx, Ibx. cbn [repeat app]. rewrite Cx. reflexivity. }
        rewrite Ex. rewrite IH; [reflexivity|now right|reflexivity|reflexivity|reflexivity]. }
    rewrite Q; auto. now rewrite S0. }
  rewrite E. refine (conj eq_refl (conj eq_refl (conj eq_refl (conj _ _)))).
  - intros more0. cbn [out pos].
    assert (Q : forall more x, running x = None -> l_phase x = LSeen -> cancel x = true -> started x = true ->
      out (run enc k content more x) = out x /\ pos (run enc k content more x) = pos x).
    { clear. induction more as [|o more IH]; intros x Rx Lx Cx Sx; [auto|]. unfold run. cbn [fold_left]. fold (run enc k content more (step enc k content x o)).
      assert (T : running (step enc k content x o) = None /\ l_phase (step enc k content x o) = LSeen /\ cancel (step enc k content x o) = true /\
        started (step enc k content x o) = true /\ out (step enc k content x o) = out x /\ pos (step enc k content x o) = pos x).
      { destruct o as [m|[|] susp]; unfold step.
        - cbn. auto 10.
        - rewrite Rx, Cx, Sx. destruct (ended (s_phase x)); cbn; auto 10.
        - rewrite Rx, Lx. auto 10. }
      destruct T as (T1 & T2 & T3 & T4 & T5 & T6). destruct (IH _ T1 T2 T3 T4) as [A B]. split; congruence. }
    exact (Q more0 (mk (s_phase st) true (pos st) LSeen j None true (out st)) eq_refl eq_refl eq_refl eq_refl).
  - unfold run. cbn [fold_left]. unfold step. cbn [running s_phase cancel started]. destruct (ended (s_phase st)) eqn:En; unfold over; cbn [s_phase l_phase].
    + now rewrite En.
    + reflexivity.
Qed.
Print Assumptions C293_noticed_partial.
Example C293_noticed_case :
  let st := run (fun t => t) AsyncContent endless [ORun TListen false; ORun TStream false; ORun TStream false; ORun TStream true; OArrive MRequest; OArrive MDisconnect] start_state in
  running st = None /\ l_phase st = LWait /\ cancel st = false /\ started st = true /\ inbox st = repeat MRequest 1 ++ [MDisconnect].
Proof. vm_compute. auto 10. Qed.

(** C294, full statement: what the content has given is sent without waiting for what it gives next: whenever the stream
    waits for its content, all the items taken have been sent. *)
Definition C294_statement : Prop := forall enc k content ops cs last,
  let st := run enc k content ops start_state in
  gives content cs -> length cs = pos st -> s_phase st = PNext last -> running st = None ->
  abytes (out st) = concat (map (chunk_bytes enc) cs).

(** False: each item is held back until the next one is there; with a content that gives its second item only once the
    client has reacted to the first both wait for ever. *)
Theorem C294_refuted : ~ C294_statement.
Proof.
  intros H.
  specialize (H (fun t => t) AsyncContent two_items [ORun TListen false; ORun TStream false; ORun TStream true] [CText (u "a")] (Some (u "a"))).
  cbv zeta in H. assert (G : gives two_items [CText (u "a")]).
  { intros [|i] c E; [injection E as <-; reflexivity|destruct i; discriminate E]. }
  specialize (H G eq_refl eq_refl eq_refl). vm_compute in H. discriminate H.
Qed.
Print Assumptions C294_refuted.
Lemma same_items {A} (a : list A) : forall b, (forall n, nth_error a n = nth_error b n) -> a = b.
Proof.
  induction a as [|x a IH]; intros [|y b] H; [reflexivity|discriminate (H 0)|discriminate (H 0)|].
  f_equal; [now injection (H 0)|]. apply IH. intros n. exact (H (S n)).
Qed.
(** What holds: exactly the last item taken is held back, the others have been sent one by one. *)
Theorem C294_held_partial enc k content ops cs last :
  let st := run enc k content ops start_state in
  gives content cs -> length cs = pos st -> s_phase st = PNext last ->
  out st = map (fun c => ABody (chunk_bytes enc c) true) (removelast cs).
Proof.
  cbv zeta. intros G L Ph. pose proof (run_inv enc k content ops) as ((cs' & L' & G' & P) & _). rewrite Ph in P.
  assert (E : cs' = cs).
  { apply same_items. intros n. destruct (nth_error cs n) as [c|] eqn:E1, (nth_error cs' n) as [d|] eqn:E2; try reflexivity.
    - f_equal. apply G in E1. apply G' in E2. congruence.
    - apply nth_error_None in E2. assert (n < length cs) by (apply nth_error_Some; congruence). lia.
    - apply nth_error_None in E1. assert (n < length cs') by (apply nth_error_Some; congruence). lia. }
  subst cs'. cbn [phase_ok] in P. destruct last as [b|].
  - destruct P as (cs' & c & -> & _ & ->). rewrite removelast_last. reflexivity.
  - destruct P as (-> & ->). reflexivity.
Qed.
Print Assumptions C294_held_partial.
Example C294_case :
  let st := run (fun t => t) AsyncContent two_items [ORun TListen false; ORun TStream false; ORun TStream false; ORun TStream false; ORun TStream true] start_state in
  gives two_items [CText (u "a"); CBytes (u "b")] /\ pos st = 2 /\ s_phase st = PNext (Some (u "b")) /\ out st = [ABody (u "a") true].
Proof.
  split; [|vm_compute; auto]. intros [|[|i]] c E; [injection E as <-; reflexivity|injection E as <-; reflexivity|destruct i; discriminate E].
Qed.
