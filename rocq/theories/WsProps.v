(** C41, C75, C76: websockets. *)
From Verif Require Import PyStr PyStrFacts WsModel WsSpec.

(** ** C41 *)
(** The application state tells what was sent. *)
Definition tells (w : ws) : Prop :=
  match application w with
  | Connecting => sent w = []
  | Connected => exists ds, Forall is_data ds /\ sent w = SAccept :: ds
  | Disconnected => (exists c, sent w = [c] /\ is_close c) \/ exists ds c, Forall is_data ds /\ is_close c /\ sent w = SAccept :: ds ++ [c]
  end.
Lemma send_tells m w : tells w -> tells (fst (send m w)).
Proof.
  unfold tells, send. intros T. destruct (application w) eqn:A.
  - destruct m; cbn; rewrite ?A, ?T; try reflexivity.
    + exists []. split; [constructor|reflexivity].
    + left. eexists. split; [reflexivity|]. eexists _, _. reflexivity.
  - destruct T as (ds & F & E). destruct m; cbn; rewrite ?A, ?E.
    + exists ds. auto.
    + exists (ds ++ [SData text bytes]). split; [|reflexivity]. apply Forall_app. split; [exact F|]. constructor; [eexists _, _; reflexivity|constructor].
    + right. exists ds. eexists. split; [exact F|]. split; [eexists _, _; reflexivity|reflexivity].
    + exists ds. auto.
  - cbn. rewrite A. exact T.
Qed.
Lemma keeps_tells w w' : application w' = application w -> sent w' = sent w -> tells w -> tells w'.
Proof. unfold tells. intros -> ->. tauto. Qed.
Lemma received_same m w : application (fst (received m w)) = application w /\ sent (fst (received m w)) = sent w.
Proof. unfold received. destruct (client w), m; split; reflexivity. Qed.
Lemma step_tells w h : tells w -> tells (fst (wstep w h)).
Proof.
  intros T. destruct h as [c|i m]; cbn [wstep].
  - destruct c; cbn [begin].
    + destruct (client w); cbn [fst wait]; try (apply send_tells); (eapply keeps_tells; [| |exact T]; reflexivity).
    + destruct (client w); cbn [fst wait]; (eapply keeps_tells; [| |exact T]; reflexivity).
    + destruct (application w) eqn:A; [exact T| |exact T]. destruct (client w); cbn [fst wait]; (eapply keeps_tells; [| |exact T]; reflexivity).
    + destruct (application w) eqn:A; [exact T| |exact T]. destruct (client w); cbn [fst wait]; (eapply keeps_tells; [| |exact T]; reflexivity).
    + apply send_tells. exact T.
    + apply send_tells. exact T.
  - unfold resume. destruct (nth_error (pending w) i) as [[[|c]|]|]; try exact T.
    + destruct m; try (eapply keeps_tells; [| |exact T]; reflexivity). apply send_tells. eapply keeps_tells; [| |exact T]; reflexivity.
    + destruct (received m (resumed i w)) as (w', r) eqn:R. cbn [fst]. destruct (received_same m (resumed i w)) as [A S]. rewrite R in A, S. cbn [fst] in A, S.
      eapply keeps_tells; [exact A|exact S|]. eapply keeps_tells; [| |exact T]; reflexivity.
Qed.
Lemma run_tells hs : forall w, tells w -> tells (wrun w hs).
Proof. induction hs as [|h hs IH]; intros w T; [exact T|]. cbn [wrun fold_left]. apply IH, step_tells, T. Qed.
Lemma opened_tells : tells opened. Proof. reflexivity. Qed.
Lemma tells_legal w : tells w -> legal (sent w).
Proof.
  unfold tells, legal. destruct (application w).
  - tauto.
  - intros (ds & F & E). right. right. exists ds. auto.
  - intros [(c & E & C)|(ds & c & F & C & E)]; [right; left; exists c; auto|]. right. right. exists ds. split; [exact F|]. right. exists c. auto.
Qed.
(** Whatever tasks call in whatever interleaving, and whatever the server sends: the messages sent are a
    legal sequence. *)
Theorem C41_legal : forall hs, legal (sent (wrun opened hs)).
Proof. intros hs. apply tells_legal, run_tells, opened_tells. Qed.
Print Assumptions C41_legal.
(** At any time a message is sent exactly if it continues the sequence legally; if not, the call raises
    and nothing has changed. *)
Theorem C41_exact : forall hs m, let w := wrun opened hs in
  (legal (sent w ++ [m]) -> snd (wstep w (Begin (Send m))) = Done /\ sent (fst (wstep w (Begin (Send m)))) = sent w ++ [m])
  /\ (~ legal (sent w ++ [m]) -> wstep w (Begin (Send m)) = (w, Raises Runtime)).
Proof.
  intros hs m w. assert (T : tells w) by (apply run_tells, opened_tells). clearbody w. cbn [wstep begin]. unfold tells in T. unfold send.
  assert (SE : forall (a b : smsg) r l, a :: r ++ [b] = SAccept :: l -> l = r ++ [b]) by (intros a b r l H; congruence).
  destruct (application w) eqn:A.
  - rewrite T. cbn [app]. destruct m.
    + split; [intros _; split; [reflexivity|cbn; rewrite T; reflexivity]|]. intros N. exfalso. apply N. right. right. exists []. split; [constructor|]. left. reflexivity.
    + split; [|reflexivity]. intros [L|[(c & L & c' & r & ->)|(ds & _ & [L|(c & _ & L)])]]; discriminate L.
    + split; [intros _; split; [reflexivity|cbn; rewrite T; reflexivity]|]. intros N. exfalso. apply N. right. left. eexists. split; [reflexivity|]. eexists _, _; reflexivity.
    + split; [|reflexivity]. intros [L|[(c & L & c' & r & ->)|(ds & _ & [L|(c & _ & L)])]]; discriminate L.
  - destruct T as (ds & F & E). rewrite E. cbn [app].
    assert (BAD : ~ is_data m -> ~ is_close m -> ~ legal (SAccept :: ds ++ [m])).
    { intros ND NC [L|[(c & L & _)|(ds' & F' & [L|(c & C & L)])]].
      - discriminate L.
      - injection L as _ L. destruct ds; discriminate L.
      - injection L as L. subst ds'. apply ND. eapply (proj1 (Forall_forall _ _) F'). apply in_or_app. right. left. reflexivity.
      - injection L as L. apply app_inj_tail in L. destruct L as [_ ->]. contradiction. }
    destruct m.
    + split; [|reflexivity]. intros L. exfalso. revert L. apply BAD; intros (? & ? & X); discriminate X.
    + split; [intros _; split; [reflexivity|cbn; rewrite E; reflexivity]|]. intros N. exfalso. apply N. right. right. exists (ds ++ [SData text bytes]). split; [|left; reflexivity].
      apply Forall_app. split; [exact F|]. constructor; [eexists _, _; reflexivity|constructor].
    + split; [intros _; split; [reflexivity|cbn; rewrite E; reflexivity]|]. intros N. exfalso. apply N. right. right. exists ds. split; [exact F|]. right. eexists. split; [|reflexivity]. eexists _, _; reflexivity.
    + split; [|reflexivity]. intros L. exfalso. revert L. apply BAD; intros (? & ? & X); discriminate X.
  - split; [|reflexivity]. intros L. exfalso.
    assert (CL : exists pre c, sent w = pre ++ [c] /\ is_close c).
    { destruct T as [(c & E & C)|(ds & c & F & C & E)]; [exists [], c; auto|]. exists (SAccept :: ds), c. auto. }
    destruct CL as (pre & c & E & (c1 & r1 & ->)). rewrite E in L.
    destruct L as [L|[(c & L & _)|(ds & F & [L|(c & C & L)])]].
    + destruct pre; discriminate L.
    + destruct pre; [discriminate L|]. injection L as _ L. destruct pre; discriminate L.
    + destruct pre as [|x pre]; [discriminate L|]. injection L as _ L. assert (X : In (SClose c1 r1) ds) by (rewrite <- L; apply in_or_app; left; apply in_or_app; right; left; reflexivity).
      apply (proj1 (Forall_forall _ _) F) in X. destruct X as (? & ? & X). discriminate X.
    + destruct pre as [|x pre]; [discriminate L|]. injection L as _ L. apply app_inj_tail in L. destruct L as [L _]. subst ds.
      assert (X : In (SClose c1 r1) (pre ++ [SClose c1 r1])) by (apply in_or_app; right; left; reflexivity).
      apply (proj1 (Forall_forall _ _) F) in X. destruct X as (? & ? & X). discriminate X.
Qed.
Print Assumptions C41_exact.
(** A call that raises has sent nothing, whatever it was; a close is such a message, and an acceptance too,
    when the connect has come. *)
Theorem C41_raises : forall w h e, snd (wstep w h) = Raises e -> sent (fst (wstep w h)) = sent w.
Proof.
  assert (SR : forall m w e, snd (send m w) = Raises e -> sent (fst (send m w)) = sent w).
  { intros m w e. unfold send. destruct (application w), m; cbn; congruence. }
  intros w h e. destruct h as [c|i m]; cbn [wstep].
  - destruct c; cbn [begin].
    + destruct (client w); cbn [fst snd wait]; [reflexivity|apply (SR SAccept (set_client Connected w))|apply (SR SAccept (set_client Connected w))].
    + destruct (client w); reflexivity.
    + destruct (application w), (client w); reflexivity.
    + destruct (application w), (client w); reflexivity.
    + apply SR.
    + apply SR.
  - unfold resume. destruct (nth_error (pending w) i) as [[[|c]|]|]; try reflexivity.
    + destruct m; try reflexivity. apply (SR SAccept (take MConnect (set_client Connected (resumed i w)))).
    + destruct (received m (resumed i w)) as (w', r) eqn:R. cbn [fst]. intros _. destruct (received_same m (resumed i w)) as [_ S]. rewrite R in S. exact S.
Qed.
Print Assumptions C41_raises.
Theorem C41_close : forall w code reason, wstep w (Begin (Close code reason)) = wstep w (Begin (Send (SClose code reason))).
Proof. reflexivity. Qed.
Print Assumptions C41_close.
Theorem C41_accept : forall hs i, let w := wrun opened hs in
  nth_error (pending w) i = Some (Some WAccept) ->
  (sent w = [] -> snd (wstep w (Resume i MConnect)) = Done /\ sent (fst (wstep w (Resume i MConnect))) = [SAccept])
  /\ (sent w <> [] -> snd (wstep w (Resume i MConnect)) = Raises Runtime /\ sent (fst (wstep w (Resume i MConnect))) = sent w).
Proof.
  intros hs i w P. assert (T : tells w) by (apply run_tells, opened_tells). clearbody w. cbn [wstep]. unfold resume. rewrite P. unfold send. cbn [application take set_client resumed].
  unfold tells in T. destruct (application w); cbn.
  - split; [intros ->; auto|contradiction].
  - destruct T as (ds & _ & E). rewrite E. split; [discriminate|auto].
  - split; [|auto]. intros X. rewrite X in T. destruct T as [(c & E & _)|(ds & c & _ & _ & E)]; discriminate E.
Qed.
Print Assumptions C41_accept.
Example C41_case : (* two tasks: one waits for data while the other sends and closes *)
  let hs := [Begin Accept; Resume 0 MConnect; Begin ReceiveText; Begin (Send (SData (Data (u "a")) Absent)); Resume 1 (MReceive (Data (u "b")) Absent);
             Begin (Close 1000 []); Begin (Send (SData (Data (u "c")) Absent))] in
  sent (wrun opened hs) = [SAccept; SData (Data (u "a")) Absent; SClose 1000 []]
  /\ snd (wstep (wrun opened (removelast hs)) (Begin (Send (SData (Data (u "c")) Absent)))) = Raises Runtime.
Proof. split; reflexivity. Qed.

(** ** C75 *)
(** The messages that calls take from the server are a connect, data, and at last a disconnect. *)
Definition C75_statement : Prop := forall xs, legal_input (taken (run_alone opened xs)).
(** Accepting after a disconnect makes the websocket receive again. *)
Theorem C75_refuted : ~ C75_statement.
Proof.
  intros H. specialize (H [(Receive, MConnect); (Receive, MDisconnect None []); (Accept, MConnect); (Receive, MReceive Absent Absent)]). vm_compute in H.
  destruct H as [H|(ds & F & [H|(d & D & H)])]; [discriminate H| |].
  - injection H as <-. inversion F as [|? ? F1 F2]; subst. destruct F1 as (? & ? & F1). discriminate F1.
  - injection H as H. destruct ds as [|x [|y ds]]; [discriminate H| |destruct ds; discriminate H]. injection H as H1 H2. subst x.
    inversion F as [|? ? F1 F2]; subst. destruct F1 as (? & ? & F1). discriminate F1.
Qed.
Print Assumptions C75_refuted.
Definition told (w : ws) : Prop :=
  match client w with
  | Connecting => taken w = []
  | Connected => exists ds, Forall is_receive ds /\ taken w = MConnect :: ds
  | Disconnected => exists ds d, Forall is_receive ds /\ is_disconnect d /\ taken w = MConnect :: ds ++ [d]
  end.
Lemma send_client m w : client (fst (send m w)) = client w /\ taken (fst (send m w)) = taken w.
Proof. unfold send. destruct (application w), m; split; reflexivity. Qed.
Lemma keeps_told w w' : client w' = client w -> taken w' = taken w -> told w -> told w'.
Proof. unfold told. intros -> ->. tauto. Qed.
Lemma received_told m w : client w <> Disconnected -> told w -> told (fst (received m w)).
Proof.
  unfold told, received. intros N T. destruct (client w) eqn:C; [| |contradiction N; reflexivity].
  - destruct m; cbn; rewrite ?C, ?T; try reflexivity. exists []. split; [constructor|reflexivity].
  - destruct T as (ds & F & E). destruct m; cbn; rewrite ?C, ?E.
    + exists ds. auto.
    + exists (ds ++ [MReceive text bytes]). split; [|reflexivity]. apply Forall_app. split; [exact F|]. constructor; [eexists _, _; reflexivity|constructor].
    + exists ds. eexists. split; [exact F|]. split; [eexists _, _; reflexivity|reflexivity].
    + exists ds. auto.
Qed.
Lemma forget_new {A} (l : list A) x : nth_error (l ++ [x]) (length l) = Some x.
Proof. induction l; [reflexivity|assumption]. Qed.
Lemma alone_told w x : told w -> (fst x = Accept -> client w <> Disconnected) -> told (fst (alone w x)).
Proof.
  intros T A. destruct x as (c, m). cbn [fst] in A. unfold alone. cbn [fst snd].
  assert (RW : forall c', client w <> Disconnected -> told (fst (let '(w1, r) := wait (WReceive c') w in match r with Waits i => resume i m w1 | _ => (w1, r) end))).
  { intros c' N. cbn [wait]. unfold resume. cbn [pending]. rewrite forget_new.
    set (w1 := resumed _ _). assert (T1 : told w1) by (eapply keeps_told; [| |exact T]; reflexivity).
    assert (R := received_told m w1 N T1). destruct (received m w1) as (w2, r). exact R. }
  assert (SD : forall m' w', told w' -> told (fst (send m' w'))).
  { intros m' w' T'. destruct (send_client m' w') as [E1 E2]. eapply keeps_told; [exact E1|exact E2|exact T']. }
  assert (DN : forall m' w', match snd (send m' w') with Waits _ => False | _ => True end) by (intros m' w'; unfold send; destruct (application w'), m'; exact I).
  assert (SA : forall m' w', told w' -> told (fst (let '(w1, r) := send m' w' in match r with Waits i => resume i m w1 | _ => (w1, r) end))).
  { intros m' w' T'. assert (D := DN m' w'). assert (S := SD m' w' T'). destruct (send m' w') as (w1, r). cbn [fst snd] in *. destruct r; try exact S. destruct D. }
  destruct c; cbn [begin].
  - destruct (client w) eqn:C.
    + cbn [wait]. unfold resume. cbn [pending]. rewrite forget_new. set (w1 := resumed _ _). assert (T1 : told w1) by (eapply keeps_told; [| |exact T]; reflexivity).
      destruct m; try exact T1. apply SD. unfold told. cbn. exists []. split; [constructor|]. unfold told in T. rewrite C in T. rewrite T. reflexivity.
    + apply SA. unfold told in T |- *. rewrite C in T. cbn. exact T.
    + contradiction (A eq_refl). reflexivity.
  - destruct (client w) eqn:C; [apply RW; congruence|apply RW; congruence|exact T].
  - destruct (application w); [exact T| |exact T]. destruct (client w) eqn:C; [apply RW; congruence|apply RW; congruence|exact T].
  - destruct (application w); [exact T| |exact T]. destruct (client w) eqn:C; [apply RW; congruence|apply RW; congruence|exact T].
  - apply SA. exact T.
  - apply SA. exact T.
Qed.
(** In one task that does not accept after a disconnect, the messages taken are a legal sequence, and once
    the disconnect is there receiving raises without asking the server. *)
Theorem C75_sequence_partial : forall xs,
  (forall pre m post, xs = pre ++ (Accept, m) :: post -> forall d, is_disconnect d -> ~ In d (taken (run_alone opened pre))) ->
  legal_input (taken (run_alone opened xs))
  /\ (forall d c m, is_disconnect d -> In d (taken (run_alone opened xs)) -> c = Receive \/ c = ReceiveText \/ c = ReceiveBytes ->
      alone (run_alone opened xs) (c, m) = (run_alone opened xs, Raises Runtime)).
Proof.
  intros xs H. assert (T : told (run_alone opened xs)).
  { assert (G : forall post pre, xs = pre ++ post -> told (run_alone opened pre) -> told (run_alone opened (pre ++ post))).
    { induction post as [|x post IH]; intros pre E T; [rewrite app_nil_r; exact T|].
      replace (pre ++ x :: post) with ((pre ++ [x]) ++ post) by (rewrite <- app_assoc; reflexivity). apply IH; [rewrite E, <- app_assoc; reflexivity|].
      unfold run_alone in *. rewrite fold_left_app. cbn [fold_left]. apply alone_told; [exact T|]. intros A C.
      destruct x as (c, m). cbn [fst] in A. subst c. unfold told in T. rewrite C in T. destruct T as (ds & d & _ & D & ET). apply (H pre m post E d D).
      unfold run_alone. rewrite ET. right. apply in_or_app. right. left. reflexivity. }
    apply (G xs []); reflexivity. }
  split.
  - unfold told in T. destruct (client _).
    + rewrite T. left. reflexivity.
    + destruct T as (ds & F & E). right. exists ds. auto.
    + destruct T as (ds & d & F & D & E). right. exists ds. split; [exact F|]. right. exists d. auto.
  - intros d c m (cd & r & ->) I C. set (w := run_alone opened xs) in *. unfold told in T.
    assert (CD : client w = Disconnected).
    { destruct (client w); [|destruct T as (ds & F & E)|reflexivity].
      - rewrite T in I. destruct I.
      - rewrite E in I. destruct I as [I|I]; [discriminate I|]. apply (proj1 (Forall_forall _ _) F) in I. destruct I as (? & ? & I). discriminate I. }
    unfold alone. cbn [fst snd]. destruct C as [-> |[-> | ->]]; cbn [begin]; rewrite CD; [reflexivity| |]; destruct (application w); reflexivity.
Qed.
Print Assumptions C75_sequence_partial.
(** On an open connection the calls return what the client sent, take it from the server once, and
    receive_text and receive_bytes raise when the client leaves. *)
Theorem C75_returns : forall w, application w = Connected -> client w = Connected ->
  (forall t b, snd (alone w (ReceiveText, MReceive (Data t) b)) = Returns (Data t))
  /\ (forall t b, snd (alone w (ReceiveBytes, MReceive t (Data b))) = Returns (Data b))
  /\ (forall t b, snd (alone w (Receive, MReceive t b)) = Message (MReceive t b))
  /\ (forall code reason, snd (alone w (ReceiveText, MDisconnect code reason)) = Raises (Disconnect code reason)
       /\ snd (alone w (ReceiveBytes, MDisconnect code reason)) = Raises (Disconnect code reason)
       /\ snd (alone w (Receive, MDisconnect code reason)) = Message (MDisconnect code reason))
  /\ (forall c m, c = Receive \/ c = ReceiveText \/ c = ReceiveBytes -> is_receive m \/ is_disconnect m ->
       taken (fst (alone w (c, m))) = taken w ++ [m] /\ sent (fst (alone w (c, m))) = sent w).
Proof.
  intros w A C.
  assert (L : forall c m, c = Receive \/ c = ReceiveText \/ c = ReceiveBytes ->
    alone w (c, m) = resume (length (pending w)) m (fst (wait (WReceive c) w))).
  { intros c m [-> | [-> | -> ]]; unfold alone; cbn [fst snd begin]; rewrite ?A, C; reflexivity. }
  assert (R : forall c m, c = Receive \/ c = ReceiveText \/ c = ReceiveBytes -> is_receive m \/ is_disconnect m ->
    snd (alone w (c, m)) = answer c m /\ taken (fst (alone w (c, m))) = taken w ++ [m] /\ sent (fst (alone w (c, m))) = sent w).
  { intros c m K M. rewrite L by exact K. unfold resume. cbn [wait fst pending]. rewrite nth_error_app2, Nat.sub_diag by apply Nat.le_refl. cbn [nth_error].
    unfold received. cbn [client resumed]. rewrite C. destruct M as [(t & b & ->)|(x & r & ->)]; cbn; auto. }
  assert (K1 : Receive = Receive \/ Receive = ReceiveText \/ Receive = ReceiveBytes) by auto.
  assert (K2 : ReceiveText = Receive \/ ReceiveText = ReceiveText \/ ReceiveText = ReceiveBytes) by auto.
  assert (K3 : ReceiveBytes = Receive \/ ReceiveBytes = ReceiveText \/ ReceiveBytes = ReceiveBytes) by auto.
  refine (conj _ (conj _ (conj _ (conj _ _)))).
  - intros t b. rewrite (proj1 (R _ (MReceive (Data t) b) K2 (or_introl (ex_intro _ _ (ex_intro _ _ eq_refl))))). reflexivity.
  - intros t b. rewrite (proj1 (R _ (MReceive t (Data b)) K3 (or_introl (ex_intro _ _ (ex_intro _ _ eq_refl))))). reflexivity.
  - intros t b. rewrite (proj1 (R _ (MReceive t b) K1 (or_introl (ex_intro _ _ (ex_intro _ _ eq_refl))))). reflexivity.
  - intros x r. assert (D : is_receive (MDisconnect x r) \/ is_disconnect (MDisconnect x r)) by (right; exists x, r; reflexivity).
    rewrite (proj1 (R _ _ K1 D)), (proj1 (R _ _ K2 D)), (proj1 (R _ _ K3 D)). auto.
  - intros c m K M. exact (proj2 (R c m K M)).
Qed.
Print Assumptions C75_returns.
Example C75_returns_case : let w := run_alone opened [(Accept, MConnect)] in application w = Connected /\ client w = Connected.
Proof. split; reflexivity. Qed.
Example C75_case : let xs := [(Accept, MConnect); (ReceiveText, MReceive (Data (u "a")) Absent); (ReceiveText, MDisconnect (Some 1001%N) [])] in
  taken (run_alone opened xs) = [MConnect; MReceive (Data (u "a")) Absent; MDisconnect (Some 1001%N) []]
  /\ (forall pre m post, xs = pre ++ (Accept, m) :: post -> forall d, is_disconnect d -> ~ In d (taken (run_alone opened pre))).
Proof.
  split; [reflexivity|]. intros pre m post E d _. destruct pre as [|x [|y [|z pre]]]; [intros []| | |]; try discriminate E; injection E; intros; destruct pre; discriminate.
Qed.

(** [accept] on a connection whose first message is another than connect raises; nothing is sent, nothing accepted. *)
Theorem C75_accept : forall i m w, nth_error (pending w) i = Some (Some WAccept) -> m <> MConnect ->
  exists w', resume i m w = (w', Raises Assertion) /\ sent w' = sent w /\ client w' = client w /\ application w' = application w.
Proof. intros i m w P N. unfold resume. rewrite P. destruct m; try (exfalso; apply N; reflexivity); eexists; repeat split. Qed.
Print Assumptions C75_accept.
Example C75_accept_case : exists w, wstep opened (Begin Accept) = (w, Waits 0) /\ nth_error (pending w) 0 = Some (Some WAccept).
Proof. eexists. split; reflexivity. Qed.

(** ** C76 *)
Definition a_disconnect {V} (e : cevent V) : bool := match e with OnDisconnect _ => true | _ => false end.
(** However a connection ends, on_disconnect is called exactly once, after everything else. *)
Theorem C76_once : forall V raw json hook enc ms,
  exists before code after, dispatch (V := V) raw json true hook enc ms = OnConnect :: before ++ OnDisconnect code :: after
    /\ forallb (fun e => negb (a_disconnect e)) before = true /\ (after = [] \/ after = [Escapes]).
Proof.
  intros V raw json hook enc ms. unfold dispatch.
  assert (G : forall ms seen, exists before code after, serve_messages raw json hook enc seen ms = before ++ OnDisconnect code :: after
    /\ forallb (fun e => negb (a_disconnect e)) before = true /\ (after = [] \/ after = [Escapes])).
  { clear ms. induction ms as [|m ms IH]; intros seen; cbn [serve_messages].
    - exists [], 1000%N, [Escapes]. auto.
    - destruct m; try (exists [], 1011%N, [Escapes]; auto; fail).
      + destruct (decode raw json enc text bytes) as [v|[code|]].
        * destruct (hook seen v).
          -- destruct (IH (seen ++ [v])) as (b & c & a & E & F & A). rewrite E. exists (OnReceive v :: b), c, a. auto.
          -- exists [OnReceive v], 1011%N, [Escapes]. auto.
        * exists [CloseFor code], 1011%N, [Escapes]. auto.
        * exists [], 1011%N, [Escapes]. auto.
      + eexists [], _, []. split; [reflexivity|]. auto. }
  destruct (G ms []) as (b & c & a & E & F & A). exists b, c, a. rewrite E. auto.
Qed.
Print Assumptions C76_once.
(** If on_connect raises, no other hook is called. *)
Theorem C76_not_connected : forall V raw json hook enc ms e, In e (dispatch (V := V) raw json false hook enc ms) -> e = OnConnect \/ e = Escapes.
Proof. intros V raw json hook enc ms e [E|[E|[]]]; auto. Qed.
Print Assumptions C76_not_connected.
(** The client's data arrives at on_receive, message for message in order, until it disconnects. *)
Definition C76_statement : Prop := forall V raw json hook (ms : list (str + str)) code,
  (forall seen v, hook seen v = true) ->
  dispatch (V := V) raw json true hook AsEither (map (fun d => match d with inl t => MReceive (Data t) Absent | inr b => MReceive Absent (Data b) end) ms ++ [MDisconnect (Some code) []])
  = OnConnect :: map (fun d => OnReceive (raw (Data (match d with inl t => t | inr b => b end)))) ms ++ [OnDisconnect (if N.eqb code 0 then 1000 else code)].
(** An empty text counts as missing. *)
Theorem C76_refuted : ~ C76_statement.
Proof. intros H. specialize (H field (fun f => f) (fun _ => None) (fun _ _ => true) [inl []] 1000%N (fun _ _ => eq_refl)). vm_compute in H. discriminate H. Qed.
Print Assumptions C76_refuted.
(** The texts and bytes of a message, as the encoding wants them. *)
Definition fits {V} (raw : field -> V) (json : field -> option V) (enc : encoding) (m : wsmsg) (v : V) : Prop :=
  match enc, m with
  | AsText, MReceive (Data t) _ => v = raw (Data t)
  | AsBytes, MReceive _ (Data b) => v = raw (Data b)
  | AsJson, MReceive (Data t) _ => json (Data t) = Some v
  | AsJson, MReceive _ (Data b) => json (Data b) = Some v
  | AsEither, MReceive (Data (c :: t)) _ => v = raw (Data (c :: t))
  | AsEither, MReceive Absent (Data b) => v = raw (Data b)
  | _, _ => False
  end.
Theorem C76_data_partial : forall V raw json hook enc ms vs code reason,
  (forall seen v, hook seen v = true) -> Forall2 (fits (V := V) raw json enc) ms vs ->
  dispatch raw json true hook enc (ms ++ [MDisconnect (Some code) reason]) = OnConnect :: map OnReceive vs ++ [OnDisconnect (if N.eqb code 0 then 1000%N else code)].
Proof.
  intros V raw json hook enc ms vs code reason H F. unfold dispatch. f_equal.
  assert (G : forall seen, serve_messages raw json hook enc seen (ms ++ [MDisconnect (Some code) reason]) = map OnReceive vs ++ [OnDisconnect (if N.eqb code 0 then 1000%N else code)]).
  { induction F as [|m v ms vs F1 F2 IH]; intros seen; [reflexivity|]. cbn [app serve_messages map].
    assert (D : exists t b, m = MReceive t b /\ decode raw json enc t b = inl v).
    { destruct enc, m as [|t b| |]; cbn [fits] in F1; try contradiction F1; exists t, b; (split; [reflexivity|]); cbn [decode].
      - destruct t; try contradiction F1. congruence.
      - destruct b; try contradiction F1. congruence.
      - destruct t as [| |t]; [destruct b; try contradiction F1; rewrite F1; reflexivity|destruct b; try contradiction F1; rewrite F1; reflexivity|rewrite F1; reflexivity].
      - destruct t as [| |[|c t]]; [destruct b; try contradiction F1; congruence| |destruct b; contradiction F1|congruence]. destruct b; contradiction F1. }
    destruct D as (t & b & -> & D). rewrite D, H. rewrite IH. reflexivity. }
  apply G.
Qed.
Print Assumptions C76_data_partial.
Example C76_case : dispatch (V := field) (fun f => f) (fun _ => None) true (fun _ _ => true) AsText [MReceive (Data (u "a")) Absent; MReceive (Data []) Absent; MDisconnect (Some 1001%N) []]
  = [OnConnect; OnReceive (Data (u "a")); OnReceive (Data []); OnDisconnect 1001].
Proof. reflexivity. Qed.
