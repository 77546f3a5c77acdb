From Verif Require Import PyStr PyStrFacts Utf8 JsonModel WstModel WstSpec.
Local Open Scope N_scope.

Section S.
Context {R : Type}.
Variable own : bool.
Variable body : option str * option (list (str * str)) -> prog R.
Notation turn := (turn own body).
Notation run := (run own body).
Notation client_step := (client_step own body).

Lemma run_app l : forall m c, run (l ++ m) c = run m (run l c).
Proof. induction l as [|x l IH]; intros m c; cbn [WstModel.run app]; [reflexivity|]. apply IH. Qed.

(** Before the block has ended nobody asks for the end. *)
Definition early (p : phase R) : bool := match p with Entering _ | Inside _ => true | _ => false end.
Definition inv (c : config R) : Prop :=
  if early (at_ c) then block c = None /\ asked c = false /\ closing c = false else block c <> None.

Lemma inv_turn x c d : inv c -> turn x c = Some d -> inv d.
Proof.
  unfold inv. intros I T. destruct x; cbn [WstModel.turn] in T.
  - unfold WstModel.client_step in T. destruct (at_ c) as [p|p|e|r|r|r|r|r] eqn:P; cbn [early] in I.
    + destruct p; [|..|destruct (outq c); [discriminate|]]; injection T as <-; cbn; auto; try discriminate.
    + destruct p; [|..|destruct (outq c); [discriminate|]]; injection T as <-; cbn; auto; try discriminate.
    + destruct (own && negb (is_done (app c))); [discriminate|]. injection T as <-. exact I.
    + injection T as <-. exact I.
    + injection T as <-. exact I.
    + destruct (own && negb (is_done (app c))); [discriminate|]. injection T as <-. exact I.
    + destruct (outq c) as [|[m|e] q]; injection T as <-; exact I.
    + discriminate.
  - unfold app_step in T. destruct (app c); [destruct (inq c); [discriminate|]| | |discriminate|]; injection T as <-; exact I.
  - unfold notice_step in T. destruct (asked c && negb (closing c)) eqn:E; [|discriminate]. injection T as <-. cbn.
    destruct (early (at_ c)); [|exact I]. destruct I as (_ & A & _). rewrite A in E. discriminate E.
  - unfold cancel_step in T. destruct (closing c) eqn:E; [|discriminate]. destruct (app c); try discriminate; [destruct (inq c); [|discriminate]|]; injection T as <-; cbn.
    all: destruct (early (at_ c)); [destruct I as (_ & _ & X); congruence|exact I].
Qed.

Lemma inv_run l : forall c, inv c -> inv (run l c).
Proof.
  induction l as [|x l IH]; intros c I; cbn [WstModel.run]; [exact I|]. apply IH.
  destruct (turn x c) eqn:T; [exact (inv_turn _ _ _ I T)|exact I].
Qed.

Lemma block_turn x c d r : inv c -> block c = Some r -> turn x c = Some d -> block d = Some r.
Proof.
  unfold inv. intros I B T. destruct x; cbn [WstModel.turn] in T.
  - unfold WstModel.client_step in T. destruct (at_ c) as [p|p|e|r'|r'|r'|r'|r'] eqn:P; cbn [early] in I.
    + destruct I as [I _]. congruence.
    + destruct I as [I _]. congruence.
    + destruct (own && negb (is_done (app c))); [discriminate|]. injection T as <-. exact B.
    + injection T as <-. exact B.
    + injection T as <-. exact B.
    + destruct (own && negb (is_done (app c))); [discriminate|]. injection T as <-. exact B.
    + destruct (outq c) as [|[m|e] q]; injection T as <-; exact B.
    + discriminate.
  - unfold app_step in T. destruct (app c); [destruct (inq c); [discriminate|]| | |discriminate|]; injection T as <-; exact B.
  - unfold notice_step in T. destruct (asked c && negb (closing c)) eqn:E; [|discriminate]. injection T as <-. exact B.
  - unfold cancel_step in T. destruct (closing c) eqn:E; [|discriminate]. destruct (app c); try discriminate; [destruct (inq c); [|discriminate]|]; injection T as <-; exact B.
Qed.

Lemma block_run l : forall c r, inv c -> block c = Some r -> block (run l c) = Some r.
Proof.
  induction l as [|x l IH]; intros c r I B; cbn [WstModel.run]; [exact B|].
  destruct (turn x c) as [d|] eqn:T; [|exact (IH c r I B)]. apply IH; [exact (inv_turn _ _ _ I T)|exact (block_turn _ _ _ _ I B T)].
Qed.

Lemma inv_none c : inv c -> block c = None -> early (at_ c) = true /\ asked c = false /\ closing c = false.
Proof. unfold inv. destruct (early (at_ c)); [tauto|]. intros X Y. congruence. Qed.

(** The two threads do not disturb each other. *)
Lemma diamond c c1 c2 : inv c -> block c = None -> client_step c = Some c1 -> app_step c = Some c2 ->
  exists d, app_step c1 = Some d /\ client_step c2 = Some d.
Proof.
  intros I B. destruct (inv_none c I B) as (E & _). unfold WstModel.client_step, app_step.
  destruct c as [p a iq oq ak cl ca he sa go gi bl ra]. cbn [at_ app inq outq] in *.
  destruct p as [p|p| | | | | |]; try discriminate E.
  - destruct p as [r|e|m k|k].
    + intros [= <-]. cbn. destruct a as [ka|ma ka|ka| |n]; [destruct iq as [|y iq]; [discriminate|]| | |discriminate|]; intros [= <-]; cbn; eauto.
    + intros [= <-]. cbn. destruct a as [ka|ma ka|ka| |n]; [destruct iq as [|y iq]; [discriminate|]| | |discriminate|]; intros [= <-]; cbn; eauto.
    + intros [= <-]. cbn. destruct a as [ka|ma ka|ka| |n]; [destruct iq as [|y iq]; [discriminate|]| | |discriminate|]; intros [= <-]; cbn; eauto.
    + destruct oq as [|x oq]; [discriminate|]. intros [= <-]. cbn.
      destruct a as [ka|ma ka|ka| |n]; [destruct iq as [|y iq]; [discriminate|]| | |discriminate|]; intros [= <-]; cbn; eauto.
  - destruct p as [r|e|m k|k].
    + intros [= <-]. cbn. destruct a as [ka|ma ka|ka| |n]; [destruct iq as [|y iq]; [discriminate|]| | |discriminate|]; intros [= <-]; cbn; eauto.
    + intros [= <-]. cbn. destruct a as [ka|ma ka|ka| |n]; [destruct iq as [|y iq]; [discriminate|]| | |discriminate|]; intros [= <-]; cbn; eauto.
    + intros [= <-]. cbn. destruct a as [ka|ma ka|ka| |n]; [destruct iq as [|y iq]; [discriminate|]| | |discriminate|]; intros [= <-]; cbn; eauto.
    + destruct oq as [|x oq]; [discriminate|]. intros [= <-]. cbn.
      destruct a as [ka|ma ka|ka| |n]; [destruct iq as [|y iq]; [discriminate|]| | |discriminate|]; intros [= <-]; cbn; eauto.
Qed.

Lemma idle c x : inv c -> block c = None -> x = Notice \/ x = Cancel -> turn x c = None.
Proof.
  intros I B. destruct (inv_none c I B) as (_ & A & C). intros [-> | -> ]; cbn [WstModel.turn]; unfold notice_step, cancel_step; rewrite ?A, ?C; reflexivity.
Qed.

Definition yields (c : config R) (r : R + exn) : Prop := exists l, block (run l c) = Some r.

Lemma yields_back x c d r : turn x c = Some d -> yields d r -> yields c r.
Proof. intros T [l H]. exists (x :: l). cbn [WstModel.run]. rewrite T. exact H. Qed.

Lemma yields_turn l : forall x c d r, inv c -> turn x c = Some d -> block (run l c) = Some r -> yields d r.
Proof.
  induction l as [|y l IH]; intros x c d r I T H; cbn [WstModel.run] in H.
  - exists []. exact (block_turn _ _ _ _ I H T).
  - destruct (block c) as [r0|] eqn:B.
    + exists []. cbn [WstModel.run]. rewrite (block_turn _ _ _ _ I B T).
      assert (X : block (run (y :: l) c) = Some r0) by exact (block_run _ _ _ I B). cbn [WstModel.run] in X. congruence.
    + destruct (turn y c) as [c2|] eqn:Y; [|exact (IH x c d r I T H)].
      assert (I2 := inv_turn _ _ _ I Y). assert (Id := inv_turn _ _ _ I T).
      destruct x; [| |rewrite (idle c Notice I B) in T by tauto; discriminate|rewrite (idle c Cancel I B) in T by tauto; discriminate];
      (destruct y; [| |rewrite (idle c Notice I B) in Y by tauto; discriminate|rewrite (idle c Cancel I B) in Y by tauto; discriminate]).
      * assert (d = c2) as -> by congruence. exists l. exact H.
      * destruct (diamond c d c2 I B T Y) as (e & E1 & E2). apply (yields_back App d e); [exact E1|]. exact (IH Test c2 e r I2 E2 H).
      * destruct (diamond c c2 d I B Y T) as (e & E1 & E2). apply (yields_back Test d e); [exact E2|]. exact (IH App c2 e r I2 E1 H).
      * assert (d = c2) as -> by congruence. exists l. exact H.
Qed.

Lemma yields_run l : forall c r, inv c -> yields c r -> yields (run l c) r.
Proof.
  induction l as [|x l IH]; intros c r I Y; cbn [WstModel.run]; [exact Y|].
  destruct (turn x c) as [d|] eqn:T; [|exact (IH c r I Y)]. apply IH; [exact (inv_turn _ _ _ I T)|].
  destruct Y as [m H]. exact (yields_turn m _ _ _ _ I T H).
Qed.

Lemma start_inv a : inv (start a).
Proof. cbn. auto. Qed.

Lemma always_one a l0 r : block (run l0 (start a)) = Some r -> always own body a r.
Proof.
  intros H l. assert (Y : yields (run l (start a)) r) by (apply yields_run; [apply start_inv|exists l0; exact H]).
  destruct Y as [m Y]. split.
  - intros r' B. assert (X := block_run m _ _ (inv_run l _ (start_inv a)) B). congruence.
  - exists m. rewrite run_app. exact Y.
Qed.
End S.

(** ** Programs *)
Definition look {R : Type} (p : prog R) : prog R :=
  match p with PRet r => PRet r | PRaise e => PRaise e | PSend m k => PSend m k | PGet k => PGet k end.
Lemma look_eq {R : Type} (p : prog R) : p = look p.
Proof. destruct p; reflexivity. Qed.
Lemma attempt_ret {R T : Type} (r : R) (k : R + exn -> prog T) : attempt (PRet r) k = k (inl r).
Proof. etransitivity; [apply look_eq|]. simpl. destruct (k (inl r)); reflexivity. Qed.
Lemma attempt_raise {R T : Type} e (k : R + exn -> prog T) : attempt (PRaise e) k = k (inr e).
Proof. etransitivity; [apply look_eq|]. simpl. destruct (k (inr e)); reflexivity. Qed.
Lemma attempt_send {R T : Type} m p (k : R + exn -> prog T) : attempt (PSend m p) k = PSend m (attempt p k).
Proof. rewrite (look_eq (attempt _ _)). reflexivity. Qed.
Lemma attempt_get {R T : Type} p (k : R + exn -> prog T) : attempt (PGet p) k = PGet (fun x => attempt (p x) k).
Proof. rewrite (look_eq (attempt _ _)). reflexivity. Qed.
Lemma denial_eq status headers body : denial status headers body =
  PGet (fun x =>
    match x with
    | inr e => PRaise e
    | inl (SBody b more) =>
        if match more with Some true => true | _ => false end then denial status headers (body ++ [b])
        else PRaise (Denied status headers (concat (body ++ [b])))
    | inl _ => PRaise AssertionError
    end).
Proof. rewrite (look_eq (denial _ _ _)). reflexivity. Qed.

(** [conv p xs ms r]: given the items [xs], the program sends [ms] and ends with [r]. *)
Inductive conv {R : Type} : prog R -> list item -> list cmsg -> R + exn -> Prop :=
  | conv_ret r : conv (PRet r) [] [] (inl r)
  | conv_raise e : conv (PRaise e) [] [] (inr e)
  | conv_send m k xs ms r : conv k xs ms r -> conv (PSend m k) xs (m :: ms) r
  | conv_get k x xs ms r : conv (k x) xs ms r -> conv (PGet k) (x :: xs) ms r.
Lemma conv_attempt {R T : Type} (p : prog R) (k : R + exn -> prog T) xs ms r : conv p xs ms r ->
  forall ys ns s, conv (k r) ys ns s -> conv (attempt p k) (xs ++ ys) (ms ++ ns) s.
Proof.
  induction 1 as [r|e|m q xs ms r H IH|q x xs ms r H IH]; intros ys ns s K.
  - rewrite attempt_ret. exact K.
  - rewrite attempt_raise. exact K.
  - rewrite attempt_send. apply conv_send, IH, K.
  - rewrite attempt_get. cbn [app]. apply conv_get, IH, K.
Qed.
Lemma conv_bind {R T : Type} (p : prog R) (k : R -> prog T) xs ms r ys ns s :
  conv p xs ms (inl r) -> conv (k r) ys ns s -> conv (bind p k) (xs ++ ys) (ms ++ ns) s.
Proof. intros A B. exact (conv_attempt p _ xs ms _ A ys ns s B). Qed.
Lemma conv_bind_raise {R T : Type} (p : prog R) (k : R -> prog T) xs ms e : conv p xs ms (inr e) -> conv (bind p k) xs ms (inr e).
Proof.
  intros A. assert (X := conv_attempt p (fun x => match x with inl r => k r | inr e => PRaise e end) xs ms _ A [] [] (inr e) (conv_raise e)).
  rewrite !app_nil_r in X. exact X.
Qed.
Lemma conv_receive m : conv receive [inl m] [] (inl m).
Proof. apply conv_get, conv_ret. Qed.
Lemma conv_receive_raise e : conv receive [inr e] [] (inr e).
Proof. apply conv_get, conv_raise. Qed.

Definition opening : prog (option str * option (list (str * str))) := bind receive (fun m => bind (raise_on_close m) (fun _ => PRet (fields m))).
Lemma enter_eq : enter = PSend CConnect opening.
Proof. unfold enter, bind at 1, send. rewrite attempt_send, attempt_ret. reflexivity. Qed.

Lemma conv_denial status headers init last flag : flag <> Some true -> forall acc,
  conv (denial status headers acc) (map inl (map (fun b => SBody b (Some true)) init ++ [SBody last flag])) [] (inr (Denied status headers (concat (acc ++ init ++ [last])))).
Proof.
  intros F. induction init as [|b init IH]; intros acc; rewrite denial_eq; cbn [map app]; apply conv_get.
  - destruct flag as [[]|]; [congruence|..]; apply conv_raise.
  - specialize (IH (acc ++ [b])). rewrite <- app_assoc in IH. exact IH.
Qed.
Lemma conv_open_accept p h : conv opening [inl (SAccept p h)] [] (inl (p, h)).
Proof. apply (conv_bind receive _ [inl (SAccept p h)] [] (SAccept p h) [] []); [apply conv_receive|]. unfold bind. cbn [raise_on_close]. rewrite attempt_ret. apply conv_ret. Qed.
Lemma conv_open_raise m xs e : conv (raise_on_close m) xs [] (inr e) -> conv opening (inl m :: xs) [] (inr e).
Proof. intros H. apply (conv_bind receive _ [inl m] [] m xs []); [apply conv_receive|]. apply conv_bind_raise, H. Qed.

(** ** Runs *)
Section S2.
Context {R : Type}.
Variable own : bool.
Variable body : option str * option (list (str * str)) -> prog R.
Notation run := (run own body).

Lemma run_acts a i o b : acts a i o b -> forall (c : config R) q, app c = a -> inq c = i ++ q ->
  exists l, at_ (run l c) = at_ c /\ app (run l c) = b /\ inq (run l c) = q /\ outq (run l c) = outq c ++ map inl o /\ block (run l c) = block c /\
            raised (run l c) = raised c.
Proof.
  induction 1 as [a|a i o b H IH|m a i o b H IH|k m i o b H IH]; intros c q A Q.
  - exists []. cbn. rewrite app_nil_r. auto 10.
  - destruct (IH (set_app a c) q eq_refl Q) as (l & X). exists (App :: l). cbn [WstModel.run turn]. unfold app_step. rewrite A. exact X.
  - destruct (IH (set_app a (put_out (inl m) c)) q eq_refl Q) as (l & X1 & X2 & X3 & X4 & X5). exists (App :: l). cbn [WstModel.run turn]. unfold app_step. rewrite A.
    refine (conj X1 (conj X2 (conj X3 (conj _ X5)))). rewrite X4. cbn. rewrite <- app_assoc. reflexivity.
  - destruct (IH (set_app (k m) (take_in m (i ++ q) c)) q eq_refl eq_refl) as (l & X). exists (App :: l). cbn [WstModel.run turn]. unfold app_step. rewrite A, Q. exact X.
Qed.

Lemma run_entering p xs ms r : conv p xs ms r -> forall (c : config R) q, at_ c = Entering p -> outq c = xs ++ q ->
  match r with
  | inl s => exists l, at_ (run l c) = Inside (body s) /\ app (run l c) = app c /\ inq (run l c) = inq c ++ ms /\ outq (run l c) = q /\ block (run l c) = block c
  | inr e => exists l, block (run l c) = Some (inr e)
  end.
Proof.
  induction 1 as [r|e|m k xs ms r H IH|k x xs ms r H IH]; intros c q A Q.
  - exists [Test]. cbn [WstModel.run turn]. unfold client_step. rewrite A. cbn. rewrite app_nil_r. auto 10.
  - exists [Test]. cbn [WstModel.run turn]. unfold client_step. rewrite A. reflexivity.
  - specialize (IH (goto (Entering k) (put_in m c)) q eq_refl Q). destruct r as [s|e].
    + destruct IH as (l & X1 & X2 & X3 & X4). exists (Test :: l). cbn [WstModel.run turn]. unfold client_step. rewrite A.
      refine (conj X1 (conj X2 (conj _ X4))). rewrite X3. cbn. rewrite <- app_assoc. reflexivity.
    + destruct IH as (l & X). exists (Test :: l). cbn [WstModel.run turn]. unfold client_step. rewrite A. exact X.
  - specialize (IH (goto (Entering (k x)) (take_out x (xs ++ q) c)) q eq_refl eq_refl). destruct r as [s|e];
    destruct IH as (l & X); exists (Test :: l); cbn [WstModel.run turn]; unfold client_step; rewrite A, Q; exact X.
Qed.

Lemma run_inside p xs ms r : conv p xs ms r -> forall (c : config R) q, at_ c = Inside p -> outq c = xs ++ q -> exists l, block (run l c) = Some r.
Proof.
  induction 1 as [r|e|m k xs ms r H IH|k x xs ms r H IH]; intros c q A Q.
  - exists [Test]. cbn [WstModel.run turn]. unfold client_step. rewrite A. reflexivity.
  - exists [Test]. cbn [WstModel.run turn]. unfold client_step. rewrite A. reflexivity.
  - destruct (IH (goto (Inside k) (put_in m c)) q eq_refl Q) as (l & X). exists (Test :: l). cbn [WstModel.run turn]. unfold client_step. rewrite A. exact X.
  - destruct (IH (goto (Inside (k x)) (take_out x (xs ++ q) c)) q eq_refl eq_refl) as (l & X). exists (Test :: l). cbn [WstModel.run turn]. unfold client_step. rewrite A, Q. exact X.
Qed.

(** The test has sent the connect message and the application has answered. *)
Lemma run_answers_in a i o b q : acts a i o b -> [CConnect] = i ++ q ->
  exists l, at_ (run l (start a)) = Entering opening /\ app (run l (start a)) = b /\ inq (run l (start a)) = q /\ outq (run l (start a)) = map inl o /\
            block (run l (start a)) = None /\ raised (run l (start a)) = None.
Proof.
  intros A Q.
  assert (E : run [Test] (start a) = goto (Entering opening) (put_in CConnect (start a))).
  { cbn [WstModel.run turn]. unfold client_step. cbn [at_ start]. rewrite enter_eq. reflexivity. }
  destruct (run_acts _ _ _ _ A (goto (Entering opening) (put_in CConnect (start a))) q eq_refl) as (l & X1 & X2 & X3 & X4 & X5 & X6).
  { exact Q. }
  exists ([Test] ++ l). rewrite (run_app own body), E. auto 10.
Qed.
Lemma run_answers a o b : answers a o b ->
  exists l, at_ (run l (start a)) = Entering opening /\ app (run l (start a)) = b /\ outq (run l (start a)) = map inl o /\ block (run l (start a)) = None /\ raised (run l (start a)) = None.
Proof.
  intros (i & I & A).
  assert (X : exists q, [CConnect] = i ++ q) by (destruct I as [-> | -> ]; eexists; reflexivity). destruct X as [q Q].
  destruct (run_answers_in a i o b q A Q) as (l & X1 & X2 & _ & X). exists l. tauto.
Qed.

Lemma opening_raises a o b e : answers a o b -> conv opening (map inl o) [] (inr e) -> always own body a (inr e).
Proof.
  intros A V. destruct (run_answers a o b A) as (l & P & _ & Q & _).
  destruct (run_entering _ _ _ _ V (run l (start a)) [] P) as (m & H); [rewrite app_nil_r; exact Q|].
  apply (always_one own body a (l ++ m)). rewrite (run_app own body). exact H.
Qed.
(** The test is inside and the application still has sent the rest. *)
Lemma opening_accepted a p h o b : answers a (SAccept p h :: o) b ->
  exists l, at_ (run l (start a)) = Inside (body (p, h)) /\ app (run l (start a)) = b /\ outq (run l (start a)) = map inl o.
Proof.
  intros A. destruct (run_answers a _ b A) as (l & P & B & Q & _).
  destruct (run_entering _ _ _ _ (conv_open_accept p h) (run l (start a)) (map inl o) P) as (m & H1 & H2 & _ & H3 & _); [exact Q|].
  exists (l ++ m). rewrite (run_app own body), H1, H2, H3. auto.
Qed.
Lemma inside_ends a p h o b r ms : answers a (SAccept p h :: o) b -> conv (body (p, h)) (map inl o) ms r -> always own body a r.
Proof.
  intros A V. destruct (opening_accepted a p h o b A) as (l & P & _ & Q).
  destruct (run_inside _ _ _ _ V (run l (start a)) [] P) as (m & H); [rewrite app_nil_r; exact Q|].
  apply (always_one own body a (l ++ m)). rewrite (run_app own body). exact H.
Qed.
End S2.

Lemma conv_receive_text t rest : conv receive_text [inl (SSend (Some t) rest)] [] (inl t).
Proof.
  apply (conv_bind receive _ [inl (SSend (Some t) rest)] [] (SSend (Some t) rest) [] []); [apply conv_receive|].
  unfold bind. cbn [raise_on_close]. rewrite attempt_ret. apply conv_ret.
Qed.
Lemma conv_texts ts : conv (receive_texts (length ts)) (map inl (map (fun t => SSend (Some t) None) ts)) [] (inl ts).
Proof.
  induction ts as [|t ts IH]; cbn [receive_texts length map]; [apply conv_ret|].
  apply (conv_bind receive_text _ [inl (SSend (Some t) None)] [] t _ []); [apply conv_receive_text|].
  rewrite <- (app_nil_r (map _ _)). apply (conv_bind (receive_texts (length ts)) _ _ [] ts [] []); [exact IH|]. apply conv_ret.
Qed.

(** ** What is said and heard *)
Section S3.
Context {R : Type}.
Variable own : bool.
Variable body : option str * option (list (str * str)) -> prog R.
Notation turn := (turn own body).
Notation run := (run own body).
Notation client_step := (client_step own body).

Lemma run_keeps (P : config R -> Prop) : (forall x c d, P c -> turn x c = Some d -> P d) -> forall l c, P c -> P (run l c).
Proof.
  intros H. induction l as [|x l IH]; intros c I; cbn [WstModel.run]; [exact I|]. apply IH.
  destruct (turn x c) eqn:T; [exact (H _ _ _ I T)|exact I].
Qed.

Definition left_ (p : phase R) : Prop := match p with Notifying _ | Joining _ | Draining _ => True | _ => False end.
Definition logs (c : config R) : Prop :=
  said c = heard c ++ inq c /\ given c = got c ++ outq c /\
  (exists ms, given c = map inl ms ++ match raised c with Some n => [inr (AppError n)] | None => [] end) /\
  (raised c <> None -> app c = ARet) /\ (cancelled c = true -> app c = ARet) /\
  ((said c = [] /\ at_ c = Entering enter) \/ exists l, said c = CConnect :: l) /\
  (left_ (at_ c) -> exists l, said c = l ++ [CDisconnect 1000 None]).

Lemma logs_turn x c d : logs c -> turn x c = Some d -> logs d.
Proof.
  intros (S1 & G & (ms & M) & RA & CA & F & D) T. destruct x; cbn [WstModel.turn] in T.
  - assert (F' : (said c = [] /\ at_ c = Entering enter) \/ exists l, said c = CConnect :: l) by exact F.
    unfold WstModel.client_step in T. destruct (at_ c) as [p|p|e|r|r|r|r|r] eqn:P; cbn [left_] in D.
    + destruct F as [(E & EP)|F].
      * injection EP as ->. rewrite enter_eq in T. injection T as <-. unfold logs. cbn.
        refine (conj _ (conj G (conj (ex_intro _ ms M) (conj RA (conj CA (conj (or_intror _) _)))))); [rewrite S1, <- app_assoc; reflexivity| |intros []].
        exists []. rewrite E. reflexivity.
      * destruct p as [r|e|m k|k]; [| | |destruct (outq c) as [|x q] eqn:Q; [discriminate|]]; injection T as <-; unfold logs; cbn.
        -- refine (conj S1 (conj G (conj (ex_intro _ ms M) (conj RA (conj CA (conj (or_intror F) _)))))). intros [].
        -- refine (conj S1 (conj G (conj (ex_intro _ ms M) (conj RA (conj CA (conj (or_intror F) _)))))). intros [].
        -- refine (conj _ (conj G (conj (ex_intro _ ms M) (conj RA (conj CA (conj (or_intror _) _)))))); [rewrite S1, <- app_assoc; reflexivity| |intros []].
           destruct F as [l ->]. exists (l ++ [m]). reflexivity.
        -- refine (conj S1 (conj _ (conj (ex_intro _ ms M) (conj RA (conj CA (conj (or_intror F) _)))))); [rewrite <- app_assoc; exact G|intros []].
    + destruct F as [(_ & EP)|F]; [discriminate EP|].
      destruct p as [r|e|m k|k]; [| | |destruct (outq c) as [|x q] eqn:Q; [discriminate|]]; injection T as <-; unfold logs; cbn.
      -- refine (conj S1 (conj G (conj (ex_intro _ ms M) (conj RA (conj CA (conj (or_intror F) _)))))). intros [].
      -- refine (conj S1 (conj G (conj (ex_intro _ ms M) (conj RA (conj CA (conj (or_intror F) _)))))). intros [].
      -- refine (conj _ (conj G (conj (ex_intro _ ms M) (conj RA (conj CA (conj (or_intror _) _)))))); [rewrite S1, <- app_assoc; reflexivity| |intros []].
         destruct F as [l ->]. exists (l ++ [m]). reflexivity.
      -- refine (conj S1 (conj _ (conj (ex_intro _ ms M) (conj RA (conj CA (conj (or_intror F) _)))))); [rewrite <- app_assoc; exact G|intros []].
    + destruct F as [(_ & EP)|F]; [discriminate EP|]. destruct (own && negb (is_done (app c))); [discriminate|]. injection T as <-.
      refine (conj S1 (conj G (conj (ex_intro _ ms M) (conj RA (conj CA (conj (or_intror F) _)))))). intros [].
    + destruct F as [(_ & EP)|F]; [discriminate EP|]. injection T as <-.
      refine (conj _ (conj G (conj (ex_intro _ ms M) (conj RA (conj CA (conj (or_intror _) _)))))); cbn.
      * rewrite S1, <- app_assoc. reflexivity.
      * destruct F as [l ->]. exists (l ++ [CDisconnect 1000 None]). reflexivity.
      * intros _. exists (said c). reflexivity.
    + destruct F as [(_ & EP)|F]; [discriminate EP|]. injection T as <-.
      exact (conj S1 (conj G (conj (ex_intro _ ms M) (conj RA (conj CA (conj (or_intror F) D)))))).
    + destruct F as [(_ & EP)|F]; [discriminate EP|]. destruct (own && negb (is_done (app c))); [discriminate|]. injection T as <-.
      exact (conj S1 (conj G (conj (ex_intro _ ms M) (conj RA (conj CA (conj (or_intror F) D)))))).
    + destruct F as [(_ & EP)|F]; [discriminate EP|]. destruct (outq c) as [|[m|e] q] eqn:Q; injection T as <-.
      * refine (conj S1 (conj _ (conj (ex_intro _ ms M) (conj RA (conj CA (conj (or_intror F) _)))))); [cbn; rewrite Q; exact G|intros []].
      * refine (conj S1 (conj _ (conj (ex_intro _ ms M) (conj RA (conj CA (conj (or_intror F) D)))))). cbn. rewrite <- app_assoc. exact G.
      * refine (conj S1 (conj _ (conj (ex_intro _ ms M) (conj RA (conj CA (conj (or_intror F) _)))))); [cbn; rewrite <- app_assoc; exact G|intros []].
    + discriminate.
  - unfold app_step in T. assert (RN : app c <> ARet -> raised c = None /\ cancelled c = false).
    { intros N. split; [destruct (raised c); [exfalso; apply N, RA; discriminate|reflexivity]|destruct (cancelled c); [exfalso; apply N, CA; reflexivity|reflexivity]]. }
    destruct (app c) as [k|m k|k| |n] eqn:A; [destruct (inq c) as [|m q] eqn:Q; [discriminate|]| | |discriminate|];
    destruct (RN ltac:(discriminate)) as [RN1 RN2]; rewrite RN1 in M; injection T as <-; unfold logs; cbn; rewrite ?RN1, ?RN2.
    + refine (conj _ (conj G (conj (ex_intro _ ms M) (conj _ (conj _ (conj F D)))))); [rewrite S1, <- app_assoc; reflexivity|congruence|discriminate].
    + refine (conj S1 (conj _ (conj (ex_intro _ (ms ++ [m]) _) (conj _ (conj _ (conj F D)))))); [rewrite G, <- app_assoc; reflexivity| |congruence|discriminate].
      rewrite app_nil_r in M. rewrite M, map_app, app_nil_r. reflexivity.
    + refine (conj S1 (conj G (conj (ex_intro _ ms M) (conj _ (conj _ (conj F D)))))); [congruence|discriminate].
    + refine (conj S1 (conj _ (conj (ex_intro _ ms _) (conj _ (conj _ (conj F D)))))); [rewrite G, <- app_assoc; reflexivity| |reflexivity|discriminate].
      rewrite app_nil_r in M. rewrite M. reflexivity.
  - unfold notice_step in T. destruct (asked c && negb (closing c)); [|discriminate]. injection T as <-.
    exact (conj S1 (conj G (conj (ex_intro _ ms M) (conj RA (conj CA (conj F D)))))).
  - unfold cancel_step in T. destruct (closing c) eqn:E; [|discriminate].
    destruct (app c); try discriminate; [destruct (inq c) eqn:Q; [|discriminate]|]; injection T as <-.
    + refine (conj _ (conj G (conj (ex_intro _ ms M) (conj (fun _ => eq_refl) (conj (fun _ => eq_refl) (conj F D)))))). cbn. rewrite Q. exact S1.
    + exact (conj S1 (conj G (conj (ex_intro _ ms M) (conj (fun _ => eq_refl) (conj (fun _ => eq_refl) (conj F D)))))).
Qed.
Lemma logs_run l a : logs (run l (start a)).
Proof.
  apply (run_keeps logs logs_turn). unfold logs. cbn. refine (conj eq_refl (conj eq_refl (conj (ex_intro _ [] eq_refl) (conj _ (conj _ (conj (or_introl (conj eq_refl eq_refl)) _)))))).
  - congruence.
  - discriminate.
  - intros [].
Qed.
End S3.
