(** C185-C196: the websocket session and the lifespan of the test client. *)
From Verif Require Import PyStr PyStrFacts Utf8 JsonModel JsonSpec JsonProofs JsonProps WstModel WstSpec WstProofs.
Local Open Scope N_scope.
Notation session := (option str * option (list (str * str)))%type.

(** * C185: what a test sees does not depend on the schedule *)
Theorem C185_schedules_agree : forall (R : Type) own (body : session -> prog R) (a : asgi) l1 l2 r1,
  block (run own body l1 (start a)) = Some r1 ->
  (forall r2, block (run own body l2 (start a)) = Some r2 -> r2 = r1) /\
  (exists l3, block (run own body (l2 ++ l3) (start a)) = Some r1).
Proof. intros R own body a l1 l2 r1 H. exact (always_one own body a l1 r1 H l2). Qed.
Print Assumptions C185_schedules_agree.
(** An application that echoes for ever, a test that sends two texts before it reads, and two schedules. *)
CoFixpoint echo : asgi := ARecv (fun m => match m with CReceive t b => ASend (SSend t b) echo | CDisconnect _ _ => ARet | _ => ARaise 9 end).
Definition greeter : asgi := ARecv (fun _ => ASend (SAccept (Some (u "chat")) None) echo).
Definition two_texts (s : session) : prog (option str * list str) :=
  bind (send_text (u "a")) (fun _ => bind (send_text (u "b")) (fun _ => bind (receive_texts 2) (fun l => PRet (fst s, l)))).
Example C185_case :
  let l1 := [Test; App; App; Test; Test; Test; Test; App; App; App; App; Test; Test; Test] in
  let l2 := [App; Test; Test; App; App; Test; Notice; Test; Test; App; Test; App; App; App; Test; Cancel; Test; Test; Test; Test; Notice; Cancel] in
  block (run true two_texts l1 (start greeter)) = Some (inl (Some (u "chat"), [u "a"; u "b"])) /\
  block (run true two_texts l2 (start greeter)) = Some (inl (Some (u "chat"), [u "a"; u "b"])).
Proof. vm_compute. auto. Qed.

(** * C186: messages arrive in order and once *)
Theorem C186_messages_in_order : forall (R : Type) own (body : session -> prog R) (a : asgi) l,
  let c := run own body l (start a) in
  said c = heard c ++ inq c /\ given c = got c ++ outq c /\
  (heard c <> [] -> hd CConnect (heard c) = CConnect) /\
  (match at_ c with Notifying _ | Joining _ | Draining _ => exists before, said c = before ++ [CDisconnect 1000 None] | _ => True end).
Proof.
  intros R own body a l c. destruct (logs_run own body l a) as (S1 & G & _ & _ & _ & F & D). fold c in S1, G, F, D.
  refine (conj S1 (conj G (conj _ _))).
  - intros N. destruct F as [(E & _)|[m E]]; [destruct (heard c); [congruence|]; rewrite E in S1; discriminate S1|].
    rewrite E in S1. destruct (heard c) as [|x h]; [congruence|]. cbn in S1. injection S1 as X _. cbn. congruence.
  - destruct (at_ c); try exact I; exact (D I).
Qed.
Print Assumptions C186_messages_in_order.
Example C186_case :
  let c := run true two_texts [Test; App; App; Test; Test; Test; App; Test; App; App; Test; Test] (start greeter) in
  heard c = [CConnect; CReceive (Some (u "a")) None; CReceive (Some (u "b")) None] /\ inq c = [] /\ length (got c) = 2%nat /\ outq c = [].
Proof. vm_compute. auto. Qed.

(** * C187: how entering ends *)
Theorem C187_entering : forall (R : Type) own (body : session -> prog R) (a b : asgi),
  (forall p h, answers a [SAccept p h] b -> always own (fun s => PRet s) a (inl (p, h))) /\
  (forall code reason, answers a [SClose code reason] b ->
     always own body a (inr (Disconnected (match code with Some c => c | None => 1000 end) (match reason with Some r => r | None => [] end)))) /\
  (forall status headers init last flag, flag <> Some true -> answers a (refusal status headers init last flag) b ->
     always own body a (inr (Denied status headers (concat init ++ last)))) /\
  (forall n, answers a [] (ARaise n) -> always own body a (inr (AppError n))).
Proof.
  intros R own body a b. refine (conj _ (conj _ (conj _ _))).
  - intros p h A. exact (inside_ends own (fun s => PRet s) a p h [] b (inl (p, h)) [] A (conv_ret (p, h))).
  - intros code reason A. apply (opening_raises own body a _ b _ A). apply (conv_open_raise _ []). apply conv_raise.
  - intros status headers init last flag F A. apply (opening_raises own body a _ b _ A). apply conv_open_raise. cbn [raise_on_close].
    assert (X := conv_denial status headers init last flag F []). rewrite app_nil_l, concat_app in X. cbn [concat] in X. rewrite (app_nil_r last) in X. exact X.
  - intros n A. destruct (run_answers own body a [] _ A) as (l & P & B & Q & BL & _).
    set (c := run own body l (start a)) in *.
    assert (E : run own body [App] c = fail_app n (put_out (inr (AppError n)) c)) by (cbn [run turn]; unfold app_step; rewrite B; reflexivity).
    destruct (run_entering own body opening [inr (AppError n)] [] (inr (AppError n))) with (c := run own body [App] c) (q := @nil item) as (m & H).
    + apply conv_bind_raise. apply conv_receive_raise.
    + rewrite E. exact P.
    + rewrite E. cbn. rewrite Q. reflexivity.
    + apply (always_one own body a (l ++ [App] ++ m)). rewrite !(run_app own body). exact H.
Qed.
Print Assumptions C187_entering.
(** An application that refuses with a response in two parts. *)
Definition refuser : asgi :=
  ARecv (fun _ => AWait (ASend (SStart 403 [(u "a", u "b")]) (ASend (SBody (u "no") (Some true)) (ASend (SBody (u "pe") None) ARet)))).
Example C187_case : answers refuser (refusal 403 [(u "a", u "b")] [u "no"] (u "pe") None) ARet /\ answers greeter [SAccept (Some (u "chat")) None] echo.
Proof.
  split; exists [CConnect]; (split; [right; reflexivity|]).
  - apply acts_recv, acts_wait. repeat apply acts_send. apply acts_nil.
  - apply acts_recv, acts_send, acts_nil.
Qed.

(** * C188: the texts the application sends are the texts received *)
Theorem C188_texts_received : forall own a b p h ts, answers a (SAccept p h :: map (fun t => SSend (Some t) None) ts) b ->
  always own (fun _ => receive_texts (length ts)) a (inl ts).
Proof. intros own a b p h ts A. exact (inside_ends own (fun _ => receive_texts (length ts)) a p h _ b (inl ts) [] A (conv_texts ts)). Qed.
Print Assumptions C188_texts_received.
Definition talker : asgi :=
  ASend (SAccept None None) (ASend (SSend (Some (u "a")) None) (AWait (ASend (SSend (Some (u "b")) None) echo))).
Example C188_case : answers talker (SAccept None None :: map (fun t => SSend (Some t) None) [u "a"; u "b"]) echo.
Proof. exists []. split; [left; reflexivity|]. apply acts_send, acts_send, acts_wait, acts_send, acts_nil. Qed.

(** * C189: JSON values *)
Theorem C189_json_echoed : forall own m v, proper v -> presentable v ->
  always own (fun _ => bind (send_json v m) (fun _ => receive_json m)) (json_echo m) (inl v).
Proof.
  intros own m v P Q. destruct (C105_json_written v P) as (_ & _ & J & _). destruct (J (is_text m) Q) as (f & F & G).
  set (body := fun _ : session => bind (send_json v m) (fun _ => receive_json m)).
  assert (FR : exists x, frame_in x = Some f /\ send_json v m = send x /\ exists k, frame_out f = k /\ conv (receive_json m) [inl k] [] (inl v)).
  { unfold JsonModel.send_json in F. destruct (dumps v) as [t|] eqn:T; [|discriminate].
    assert (W : write false v = t) by (unfold dumps in T; destruct (finite v); [injection T as T; exact T|discriminate T]).
    destruct m; cbn [is_text] in F, G.
    - injection F as <-. exists (CReceive (Some t) None). refine (conj eq_refl (conj _ (ex_intro _ _ (conj eq_refl _)))).
      + unfold send_json. rewrite W. reflexivity.
      + cbn [JsonModel.receive_json] in G. unfold receive_json. apply (conv_bind receive _ [inl (SSend (Some t) None)] [] (SSend (Some t) None) [] []); [apply conv_receive|].
        unfold bind at 1. cbn [raise_on_close]. rewrite attempt_ret. cbn [text_of key]. unfold bind. rewrite attempt_ret. rewrite G. apply conv_ret.
    - destruct (encode t) as [b|] eqn:E; [|discriminate F]. injection F as <-. exists (CReceive None (Some b)). refine (conj eq_refl (conj _ (ex_intro _ _ (conj eq_refl _)))).
      + unfold send_json. rewrite W, E. reflexivity.
      + cbn [JsonModel.receive_json] in G. unfold receive_json. apply (conv_bind receive _ [inl (SSend None (Some b))] [] (SSend None (Some b)) [] []); [apply conv_receive|].
        unfold bind at 1. cbn [raise_on_close]. rewrite attempt_ret. cbn [bytes_of key]. unfold bind. rewrite attempt_ret. rewrite G. apply conv_ret. }
  destruct FR as (x & X1 & X2 & k & X3 & X4).
  set (wait_json := ARecv (fun x =>
    match frame_in x with
    | None => ARaise 1
    | Some f =>
        match JsonModel.receive_json (is_text m) f with
        | None => ARaise 2
        | Some v => match JsonModel.send_json (is_text m) v with Some g => ASend (frame_out g) ARet | None => ARaise 3 end
        end
    end)).
  destruct (run_answers_in own body (json_echo m) [CConnect] [SAccept None (Some [])] wait_json []) as (l & PH & B & I1 & O & _).
  { apply acts_recv, acts_send, acts_nil. }
  { reflexivity. }
  destruct (run_entering own body _ _ _ _ (conv_open_accept None (Some [])) (run own body l (start (json_echo m))) [] PH) as (l2 & PH2 & B2 & I2 & O2 & _); [exact O|].
  set (c := run own body l2 (run own body l (start (json_echo m)))) in *.
  assert (BD : body (None, Some []) = PSend x (receive_json m)).
  { unfold body, bind at 1. rewrite X2. unfold send. rewrite attempt_send, attempt_ret. reflexivity. }
  rewrite BD in PH2. rewrite I1 in I2. cbn [app] in I2. rewrite B in B2.
  assert (E : run own body [Test] c = goto (Inside (receive_json m)) (put_in x c)).
  { cbn [run turn]. unfold client_step. rewrite PH2. reflexivity. }
  destruct (run_acts own body wait_json [x] [k] ARet) with (c := run own body [Test] c) (q := @nil cmsg) as (l3 & Y1 & _ & _ & Y4 & _).
  { unfold wait_json. apply acts_recv. rewrite X1, G, F, X3. apply acts_send, acts_nil. }
  { rewrite E. exact B2. }
  { rewrite E. cbn. rewrite I2. reflexivity. }
  destruct (run_inside own body _ _ _ _ X4 (run own body l3 (run own body [Test] c)) []) as (l4 & Z).
  { rewrite Y1, E. reflexivity. }
  { rewrite Y4, E. cbn. rewrite O2. reflexivity. }
  apply (always_one own body (json_echo m) (l ++ l2 ++ [Test] ++ l3 ++ l4)). rewrite !(run_app own body). exact Z.
Qed.
Print Assumptions C189_json_echoed.
Example C189_case : let v := JObj [(u "a", JArr [JInt 1; JNull]); (u "b", JStr [233; 128512])] in proper v /\ presentable v.
Proof.
  split; cbn; unfold points, unicode; cbn.
  - split; [repeat constructor; cbn; intuition discriminate|]. repeat split; intros; lia.
  - repeat split; intros; lia.
Qed.

(** * C190: what the application raises is not lost *)
Definition C190_statement : Prop := forall (R : Type) own (body : session -> prog R) (a : asgi) l1 l2 r0 r,
  let c1 := run own body l1 (start a) in
  let c2 := run own body l2 c1 in
  at_ c1 = Closing r0 -> at_ c2 = Finished r -> (forall n, ~ In (inr (AppError n)) (got c1)) ->
  r = match raised c2 with Some n => inr (AppError n) | None => r0 end.
(** The client is used as a context manager, so that the session shares its portal. *)
Definition late_failure : asgi := ARecv (fun _ => ASend (SAccept None None) (ARecv (fun _ => ARaise 7))).
Theorem C190_refuted : ~ C190_statement.
Proof.
  intros H. specialize (H unit false (fun _ => PRet tt) late_failure [Test; App; App; Test; Test; Test] [Test; Test; Test; Test; App; App] (inl tt) (inl tt) eq_refl eq_refl).
  assert (X : @inl unit exn tt = inr (AppError 7)); [|discriminate X]. apply H. vm_compute. intros n [X|[]]. discriminate X.
Qed.
Print Assumptions C190_refuted.
Theorem C190_failure_reported_partial : forall (R : Type) (body : session -> prog R) (a : asgi) l1 l2 r0 r,
  let c1 := run true body l1 (start a) in
  let c2 := run true body l2 c1 in
  at_ c1 = Closing r0 -> at_ c2 = Finished r -> (forall n, ~ In (inr (AppError n)) (got c1)) ->
  r = match raised c2 with Some n => inr (AppError n) | None => r0 end.
Proof.
  intros R body a l1 l2 r0 r c1 c2 P1 P2 NG.
  set (K := fun c : config R => logs c /\
    match at_ c with
    | Closing r | Notifying r | Joining r => r = r0 /\ (forall n, ~ In (inr (AppError n)) (got c))
    | Draining r => r = r0 /\ (forall n, ~ In (inr (AppError n)) (got c)) /\ app c = ARet
    | Finished r => r = match raised c with Some n => inr (AppError n) | None => r0 end /\ app c = ARet
    | _ => False
    end).
  assert (KT : forall x c d, K c -> turn true body x c = Some d -> K d).
  { intros x c d (L & M) T. split; [exact (logs_turn true body x c d L T)|]. destruct x; cbn [turn] in T.
    - unfold client_step in T. destruct (at_ c) as [p|p|e|q|q|q|q|q]; try contradiction.
      + injection T as <-. exact M.
      + injection T as <-. exact M.
      + destruct (app c) eqn:A; try discriminate T. injection T as <-. cbn. tauto.
      + destruct M as (M1 & M2 & M3). destruct (outq c) as [|[m|e] o] eqn:O; injection T as <-; cbn.
        * split; [|exact M3]. destruct (raised c) as [n|] eqn:RA; [|exact M1]. exfalso.
          destruct L as (_ & G & (ms & GM) & _). rewrite RA in GM. apply (M2 n). rewrite O, app_nil_r in G. rewrite <- G, GM. apply in_or_app. right. left. reflexivity.
        * refine (conj M1 (conj _ M3)). intros n X. apply in_app_or in X. destruct X as [X|[X|[]]]; [exact (M2 n X)|discriminate X].
        * split; [|exact M3]. destruct L as (_ & G & (ms & GM) & _).
          assert (X : In (inr e) (given c)) by (rewrite G, O; apply in_or_app; right; left; reflexivity).
          rewrite GM in X. apply in_app_or in X. destruct X as [X|X]; [apply in_map_iff in X; destruct X as (? & X & _); discriminate X|].
          destruct (raised c) as [n|]; [|destruct X]. destruct X as [X|[]]. congruence.
      + discriminate.
    - unfold app_step in T. destruct (at_ c) as [p|p|e|q|q|q|q|q] eqn:P; try contradiction;
      (destruct (app c); try (destruct M as (_ & _ & M); discriminate M); try (destruct M as (_ & M); discriminate M);
       [destruct (inq c); [discriminate|]| | |discriminate|]; injection T as <-; cbn; rewrite P; exact M) || idtac.
      + destruct M as (_ & _ & M). rewrite M in T. discriminate T.
      + destruct M as (_ & M). rewrite M in T. discriminate T.
    - unfold notice_step in T. destruct (asked c && negb (closing c)); [|discriminate]. injection T as <-. exact M.
    - unfold cancel_step in T. destruct (closing c); [|discriminate]. destruct (app c) eqn:A; try discriminate; [destruct (inq c); [|discriminate]|]; injection T as <-; cbn;
      (destruct (at_ c); try contradiction; try exact M; destruct M as (M1 & M2); try (destruct M2 as (_ & M2)); congruence). }
  assert (X : K c2).
  { apply (run_keeps true body K KT). split; [apply logs_run|]. fold c1. rewrite P1. split; [reflexivity|exact NG]. }
  destruct X as (_ & X). rewrite P2 in X. exact (proj1 X).
Qed.
Print Assumptions C190_failure_reported_partial.
Example C190_case :
  let c := run true (fun _ => PRet tt) [Test; App; App; Test; Test; Test; Test; Test; Test; App; App; Test; Test] (start late_failure) in
  at_ c = Finished (inr (AppError 7)) /\ raised c = Some 7.
Proof. vm_compute. auto. Qed.

(** * C191: an application that is cancelled has heard of the disconnect *)
Definition C191_statement : Prop := forall (R : Type) own (body : session -> prog R) (a : asgi) l,
  let c := run own body l (start a) in cancelled c = true -> heard c = said c /\ In (CDisconnect 1000 None) (heard c).
Theorem C191_refuted : ~ C191_statement.
Proof.
  intros H. destruct (H unit true (fun _ => PRet tt) (ASend (SAccept None None) (AWait ARet)) [Test; App; Test; Test; Test; Test; Test; Notice; Cancel] eq_refl) as (_ & X).
  destruct X.
Qed.
Print Assumptions C191_refuted.
Theorem C191_disconnect_heard_partial : forall (R : Type) own (body : session -> prog R) (a : asgi) l, only_receives a ->
  let c := run own body l (start a) in cancelled c = true -> heard c = said c /\ In (CDisconnect 1000 None) (heard c).
Proof.
  intros R own body a l OA.
  set (K := fun c : config R => logs c /\ only_receives (app c) /\ (closing c = true -> asked c = true) /\
    (asked c = true -> match at_ c with Joining _ | Draining _ | Finished _ => In (CDisconnect 1000 None) (said c) | _ => False end) /\
    (cancelled c = true -> inq c = [] /\ asked c = true)).
  assert (KT : forall x c d, K c -> turn own body x c = Some d -> K d).
  { intros x c d (L & O & CL & AS & CA) T. split; [exact (logs_turn own body x c d L T)|]. destruct x; cbn [turn] in T.
    - assert (NA : asked c = false \/ asked c = true) by (destruct (asked c); auto).
      unfold client_step in T. destruct (at_ c) as [p|p|e|q|q|q|q|q] eqn:P.
      + destruct NA as [NA|NA]; [|destruct (AS NA)]. assert (cancelled c = false) as NC by (destruct (cancelled c); [destruct (CA eq_refl); congruence|reflexivity]).
        assert (closing c = false) as NL by (destruct (closing c); [rewrite CL in NA by reflexivity; discriminate|reflexivity]).
        destruct p; [| | |destruct (outq c); [discriminate|]]; injection T as <-; cbn; rewrite NA, NC, NL; (split; [exact O|]); repeat split; discriminate.
      + destruct NA as [NA|NA]; [|destruct (AS NA)]. assert (cancelled c = false) as NC by (destruct (cancelled c); [destruct (CA eq_refl); congruence|reflexivity]).
        assert (closing c = false) as NL by (destruct (closing c); [rewrite CL in NA by reflexivity; discriminate|reflexivity]).
        destruct p; [| | |destruct (outq c); [discriminate|]]; injection T as <-; cbn; rewrite NA, NC, NL; (split; [exact O|]); repeat split; discriminate.
      + destruct NA as [NA|NA]; [|destruct (AS NA)]. destruct (own && negb (is_done (app c))); [discriminate|]. injection T as <-. cbn.
        refine (conj O (conj CL (conj _ CA))). congruence.
      + destruct NA as [NA|NA]; [|destruct (AS NA)]. assert (cancelled c = false) as NC by (destruct (cancelled c); [destruct (CA eq_refl); congruence|reflexivity]).
        assert (closing c = false) as NL by (destruct (closing c); [rewrite CL in NA by reflexivity; discriminate|reflexivity]).
        injection T as <-. cbn. rewrite NA, NC, NL. split; [exact O|]. repeat split; discriminate.
      + injection T as <-. cbn. refine (conj O (conj (fun _ => eq_refl) (conj _ _))).
        * intros _. destruct L as (_ & _ & _ & _ & _ & _ & D). rewrite P in D. destruct (D I) as [b ->]. apply in_or_app. right. left. reflexivity.
        * intros X. destruct (CA X) as [Y _]. auto.
      + destruct (own && negb (is_done (app c))); [discriminate|]. injection T as <-. exact (conj O (conj CL (conj AS CA))).
      + destruct (outq c) as [|[m|e] o]; injection T as <-; exact (conj O (conj CL (conj AS CA))).
      + discriminate.
    - assert (NC : app c <> ARet -> cancelled c = false).
      { intros N. destruct L as (_ & _ & _ & _ & X & _). destruct (cancelled c); [destruct (N (X eq_refl))|reflexivity]. }
      unfold app_step in T. destruct (app c) as [k|m k|k| |n] eqn:A; [destruct (inq c) as [|m q]; [discriminate|]| | |discriminate|];
      injection T as <-; cbn; rewrite (NC ltac:(discriminate)); refine (conj _ (conj CL (conj AS _))); try discriminate; inversion O; auto; constructor.
    - unfold notice_step in T. destruct (asked c && negb (closing c)) eqn:E; [|discriminate]. injection T as <-. cbn. apply andb_prop in E. destruct E as [E _].
      refine (conj O (conj (fun _ => E) (conj AS CA))).
    - unfold cancel_step in T. destruct (closing c) eqn:E; [|discriminate]. destruct (app c) eqn:A; try discriminate; [destruct (inq c) eqn:Q; [|discriminate]|inversion O]; injection T as <-; cbn.
      rewrite E. refine (conj or_ret (conj CL (conj AS _))). intros _. split; [exact Q|exact (CL eq_refl)]. }
  assert (X : K (run own body l (start a))).
  { apply (run_keeps own body K KT). split; [apply (logs_run own body [])|]. cbn. refine (conj OA (conj _ (conj _ _))); discriminate. }
  intros c H. destruct X as (L & _ & _ & AS & CA). fold c in L, AS, CA. destruct (CA H) as (Q & A). specialize (AS A).
  destruct L as (S1 & _). rewrite Q, app_nil_r in S1. split; [symmetry; exact S1|]. rewrite <- S1. destruct (at_ c); try contradiction; exact AS.
Qed.
Print Assumptions C191_disconnect_heard_partial.
CoFixpoint sink : asgi := ARecv (fun _ => sink).
Example C191_case : only_receives (ASend (SAccept None None) sink) /\
  let c := run true (fun _ => send_text (u "a")) [Test; App; Test; Test; Test; Test; Test; Test; App; Notice; App; App; Cancel] (start (ASend (SAccept None None) sink)) in
  cancelled c = true /\ heard c = [CConnect; CReceive (Some (u "a")) None; CDisconnect 1000 None].
Proof.
  split; [|vm_compute; auto]. apply or_send. cofix H.
  replace sink with (match sink with ARecv k => ARecv k | ASend m k => ASend m k | AWait k => AWait k | ARet => ARet | ARaise n => ARaise n end) by (destruct sink; reflexivity).
  cbn. apply or_recv. intros _. exact H.
Qed.

(** * C192: a test that waits for an application that is over *)
Definition C192_statement : Prop := forall (R : Type) own (body : session -> prog R) (a : asgi) l,
  is_done (app (run own body l (start a))) = true -> exists l', block (run own body (l ++ l') (start a)) <> None.
Lemma stuck {R : Type} own (body : session -> prog R) c : (forall x, turn own body x c = None) -> forall l, run own body l c = c.
Proof. intros H l. induction l as [|x l IH]; cbn [run]; [reflexivity|]. rewrite H. exact IH. Qed.
Definition silent : asgi := ARecv (fun _ => ARet).
Theorem C192_refuted : ~ C192_statement.
Proof.
  intros H. destruct (H unit true (fun _ => PRet tt) silent [Test; App; App] eq_refl) as [l X]. apply X.
  rewrite (run_app true (fun _ => PRet tt)). rewrite stuck; [reflexivity|]. intros x. destruct x; reflexivity.
Qed.
Print Assumptions C192_refuted.
Theorem C192_failure_wakes_partial : forall (R : Type) own (body : session -> prog R) (a : asgi) l n,
  let c := run own body l (start a) in
  raised c = Some n -> ~ In (inr (AppError n)) (got c) -> (forall r, at_ c <> Finished r) ->
  (exists d, turn own body Test c = Some d) /\ In (inr (AppError n)) (outq c).
Proof.
  intros R own body a l n c RA NG NF. destruct (logs_run own body l a) as (_ & G & (ms & M) & AR & _). fold c in G, M, AR. rewrite RA in M.
  assert (X : In (inr (AppError n)) (outq c)).
  { assert (Y : In (inr (AppError n)) (given c)) by (rewrite M; apply in_or_app; right; left; reflexivity).
    rewrite G in Y. apply in_app_or in Y. tauto. }
  split; [|exact X]. cbn [turn]. unfold client_step. rewrite AR by congruence. cbn [is_done negb]. rewrite andb_false_r.
  destruct (at_ c) as [p|p|e|q|q|q|q|q]; try (eexists; reflexivity).
  - destruct p; try (eexists; reflexivity). destruct (outq c); [destruct X|eexists; reflexivity].
  - destruct p; try (eexists; reflexivity). destruct (outq c); [destruct X|eexists; reflexivity].
  - destruct (outq c) as [|[m|e] o]; eexists; reflexivity.
  - destruct (NF q eq_refl).
Qed.
Print Assumptions C192_failure_wakes_partial.
Example C192_case :
  let c := run true (fun _ => receive_text) [Test; App; App; Test; Test; Test; Test] (start (ARecv (fun _ => ASend (SAccept None None) (ARaise 3)))) in
  let d := run true (fun _ => receive_text) [App; Test] c in
  block c = None /\ raised d = Some 3 /\ block (run true (fun _ => receive_text) [Test] d) = Some (inr (AppError 3)).
Proof. vm_compute. auto. Qed.

(** * C193: a test whose connection is refused gets its exception *)
Definition C193_statement : Prop := forall (R : Type) own (body : session -> prog R) (a : asgi) l e,
  at_ (run own body l (start a)) = Failing e -> exists l', at_ (run own body (l ++ l') (start a)) = Finished (inr e).
Definition lingers : asgi := ARecv (fun _ => ASend (SClose (Some 1008) None) (ARecv (fun _ => ARet))).
Theorem C193_refuted : ~ C193_statement.
Proof.
  intros H. destruct (H unit true (fun _ => PRet tt) lingers [Test; App; App; Test; Test] (Disconnected 1008 []) eq_refl) as [l X].
  rewrite (run_app true (fun _ => PRet tt)) in X. rewrite stuck in X; [discriminate X|]. intros x. destruct x; reflexivity.
Qed.
Print Assumptions C193_refuted.
Theorem C193_refused_partial : forall (R : Type) own (body : session -> prog R) (a : asgi) l e,
  at_ (run own body l (start a)) = Failing e ->
  own = false \/ (exists i rest o b, inq (run own body l (start a)) = i ++ rest /\ acts (app (run own body l (start a))) i o b /\ (b = ARet \/ exists n, b = ARaise n)) ->
  exists l', at_ (run own body (l ++ l') (start a)) = Finished (inr e).
Proof.
  intros R own body a l e P [-> |(i & rest & o & b & Q & A & B)].
  - exists [Test]. rewrite (run_app false body). cbn [run turn]. unfold client_step. rewrite P. reflexivity.
  - destruct (run_acts own body _ _ _ _ A _ rest eq_refl Q) as (l2 & X1 & X2 & _).
    destruct B as [B|[n B]].
    + exists (l2 ++ [Test]). rewrite !(run_app own body). cbn [run turn]. unfold client_step. rewrite X1, P, X2, B. cbn [is_done negb]. rewrite andb_false_r. reflexivity.
    + exists (l2 ++ [App; Test]). rewrite !(run_app own body). cbn [run turn]. unfold app_step. rewrite X2, B. unfold client_step.
      cbn [at_ fail_app put_out app]. rewrite X1, P. cbn [is_done negb]. rewrite andb_false_r. reflexivity.
Qed.
Print Assumptions C193_refused_partial.
Example C193_case :
  at_ (run true (fun _ => PRet tt) [Test; App; App; App; App; App; Test; Test; Test; Test; Test; Test; Test] (start refuser)) = Finished (inr (Denied 403 [(u "a", u "b")] (u "nope"))).
Proof. vm_compute. reflexivity. Qed.

(** * C194: the subprotocols that a test asks for are offered *)
Definition C194_statement : Prop := forall copies l headers, Forall protocol_name l -> dget (u "sec-websocket-protocol") headers = None ->
  fst (connect copies (Some l) headers) = l.
Theorem C194_refuted : ~ C194_statement.
Proof. intros H. specialize (H true [] [] (Forall_nil _) eq_refl). vm_compute in H. discriminate H. Qed.
Print Assumptions C194_refuted.
Lemma set_other k v d q : q <> k -> dget q (setdefault k v d) = dget q d.
Proof. intros N. unfold setdefault. destruct (dget k d); [reflexivity|]. apply dget_dset_other. congruence. Qed.
Lemma set_new k v d : dget k d = None -> dget k (setdefault k v d) = Some v.
Proof. intros E. unfold setdefault. rewrite E. apply dget_dset_same. Qed.
Lemma prepared copies s headers : dget (u "sec-websocket-protocol") headers = None ->
  dget (u "sec-websocket-protocol") (fst (prepare copies s headers)) = match s with Some l => Some (join (u ", ") l) | None => None end.
Proof.
  intros E. unfold prepare. cbn [fst].
  match goal with |- context [match s with Some _ => setdefault _ _ ?h | None => _ end] => assert (X : dget (u "sec-websocket-protocol") h = None) end.
  { rewrite !set_other by discriminate. exact E. }
  destruct s as [l|]; [|exact X]. apply set_new, X.
Qed.
Lemma offered_join l : l <> [] -> Forall protocol_name l -> offered (Some (join (u ", ") l)) = l.
Proof.
  intros NE F. unfold offered. destruct F as [|x l P F]; [congruence|]. clear NE.
  assert (G : forall l, Forall protocol_name l -> forall pre x, forallb is_space pre = true -> protocol_name x ->
    map strip (split_char 44 (pre ++ join (u ", ") (x :: l))) = x :: l).
  { clear. induction l as [|y l IH]; intros F pre x W (N & C & T).
    - cbn [join]. rewrite split_char_free.
      + cbn [map]. f_equal. unfold strip, strip_by in *. rewrite lstrip_by_app by exact W. exact T.
      + intros I. apply in_app_or in I. destruct I as [I|I]; [|exact (C I)]. rewrite forallb_forall in W. specialize (W _ I). discriminate W.
    - inversion F as [|y' l' Y F']; subst. change (join (u ", ") (x :: y :: l)) with (x ++ 44 :: ([32] ++ join (u ", ") (y :: l))).
      rewrite app_assoc, split_char_app.
      + cbn [map]. f_equal.
        * unfold strip, strip_by in *. rewrite lstrip_by_app by exact W. exact T.
        * apply IH; [exact F'|reflexivity|exact Y].
      + intros I. apply in_app_or in I. destruct I as [I|I]; [|exact (C I)]. rewrite forallb_forall in W. specialize (W _ I). discriminate W. }
  exact (G l F [] x eq_refl P).
Qed.
Theorem C194_subprotocols_partial : forall copies s headers, dget (u "sec-websocket-protocol") headers = None ->
  match s with None => fst (connect copies s headers) = [] | Some l => l <> [] -> Forall protocol_name l -> fst (connect copies s headers) = l end.
Proof.
  intros copies s headers E. unfold connect. assert (X := prepared copies s headers E).
  destruct (prepare copies s headers) as [h left]. cbn [fst] in *. rewrite X. destruct s as [l|]; [|reflexivity].
  intros NE F. apply offered_join; assumption.
Qed.
Print Assumptions C194_subprotocols_partial.
Example C194_case : let l := [u "chat"; u "superchat"] in Forall protocol_name l /\ fst (connect false (Some l) [(u "x-a", u "b")]) = l.
Proof. split; [|vm_compute; reflexivity]. repeat constructor; try discriminate; cbn; intuition discriminate. Qed.

(** * C195: sessions that are opened with the same headers do not influence each other *)
Definition C195_statement : Prop := forall copies ls headers, dget (u "sec-websocket-protocol") headers = None ->
  Forall (fun s => forall l, s = Some l -> l <> [] /\ Forall protocol_name l) ls ->
  connects copies ls headers = map (fun s => match s with Some l => l | None => [] end) ls.
Theorem C195_refuted : ~ C195_statement.
Proof.
  intros H. assert (P : protocol_name (u "a")) by (repeat split; [discriminate|cbn; intuition discriminate]).
  assert (X : connects false [Some [u "a"]; None] [] = [[u "a"]; []]).
  { apply H; [reflexivity|]. constructor; [|constructor; [discriminate|constructor]].
    intros l E. assert (l = [u "a"]) as -> by congruence. split; [discriminate|]. constructor; [exact P|constructor]. }
  vm_compute in X. discriminate X.
Qed.
Print Assumptions C195_refuted.
Theorem C195_independent_partial : forall ls headers, dget (u "sec-websocket-protocol") headers = None ->
  Forall (fun s => forall l, s = Some l -> l <> [] /\ Forall protocol_name l) ls ->
  connects true ls headers = map (fun s => match s with Some l => l | None => [] end) ls.
Proof.
  intros ls headers E F. induction F as [|s ls P F IH]; cbn [connects map]; [reflexivity|].
  assert (X := C194_subprotocols_partial true s headers E).
  assert (Y : snd (connect true s headers) = headers) by (unfold connect, prepare; reflexivity).
  destruct (connect true s headers) as [o h]. cbn [fst snd] in *. subst h. f_equal; [|exact IH].
  destruct s as [l|]; [|exact X]. destruct (P l eq_refl) as [N Q]. exact (X N Q).
Qed.
Print Assumptions C195_independent_partial.
Example C195_case : connects true [Some [u "a"]; None; Some [u "b"; u "c"]] [] = [[u "a"]; []; [u "b"; u "c"]].
Proof. vm_compute. reflexivity. Qed.

(** * C196: the lifespan around a client *)
Definition C196_statement : Prop := forall startup shutdown, fst (lifetime startup shutdown) = Ok -> In StartupComplete (fst startup).
Theorem C196_refuted : ~ C196_statement.
Proof. intros H. specialize (H ([StartupFailed], Returns) ([], Waits) eq_refl). cbn in H. intuition discriminate. Qed.
Print Assumptions C196_refuted.
(** Such a client is never left either. *)
Theorem C196_never_left : forall shutdown, lifetime ([StartupFailed], Returns) shutdown = (Ok, Some Forever).
Proof. intros [l a]. reflexivity. Qed.
Print Assumptions C196_never_left.
Theorem C196_lifespan_partial :
  (forall l1 a1 shutdown, (In StartupFailed l1 -> l1 = [StartupFailed] /\ a1 <> Returns) -> fst (lifetime (l1, a1) shutdown) = Ok ->
     exists rest, l1 = StartupComplete :: rest) /\
  (forall l1 n shutdown, l1 = [] \/ l1 = [StartupFailed] -> lifetime (l1, Fails n) shutdown = (Raises n, None)) /\
  (forall l2 n, l2 = [] \/ l2 = [ShutdownFailed] -> lifetime ([StartupComplete], Waits) (l2, Fails n) = (Ok, Some (Raises n))) /\
  (forall n shutdown, lifetime ([StartupComplete], Fails n) shutdown = (Ok, Some (Raises n))) /\
  lifetime ([StartupComplete], Waits) ([ShutdownComplete], Returns) = (Ok, Some Ok).
Proof.
  refine (conj _ (conj _ (conj _ (conj _ eq_refl)))).
  - intros l1 a1 [l2 a2] H E. unfold lifetime, wait_startup, wait in E.
    destruct l1 as [|m l1]; [destruct a1; discriminate E|]. destruct m; try discriminate E; [eauto|].
    destruct H as [H N]; [left; reflexivity|]. injection H as ->. destruct a1; try discriminate E. congruence.
  - intros l1 n [l2 a2] [-> | -> ]; reflexivity.
  - intros l2 n [-> | -> ]; reflexivity.
  - intros n [l2 a2]. reflexivity.
Qed.
Print Assumptions C196_lifespan_partial.
Example C196_case : lifetime ([StartupFailed], Fails 3) ([ShutdownComplete], Returns) = (Raises 3, None) /\
  lifetime ([StartupComplete], Waits) ([ShutdownFailed], Fails 4) = (Ok, Some (Raises 4)).
Proof. vm_compute. auto. Qed.
(** Leaving the client without an exception means that the application answered to the shutdown. *)
Lemma stream_In l a m : In (Some m) (stream l a) -> In m l.
Proof.
  unfold stream. intros I. apply in_app_or in I as [I|I]; [apply in_map_iff in I as (x & E & I); injection E as ->; exact I|].
  destruct a; cbn in I; intuition discriminate.
Qed.
Lemma wait_rest c f q a w r : wait c f q a = (w, r) -> forall x, In x r -> In x q.
Proof.
  unfold wait. intros E x I.
  assert (T : forall q m r, take q a = Took m r -> forall x, In x r -> In x q).
  { intros [|[y|] q'] m r' E' z J; cbn in E'; [discriminate| |destruct a; try discriminate]; injection E' as <- <-; now right. }
  destruct (take q a) as [[m|] r0|n|] eqn:K; try (injection E as <- <-; destruct I; fail).
  - specialize (T _ _ _ K) as T1. destruct (c m); [injection E as <- <-; now apply T1|]. destruct (f m); [|injection E as <- <-; now apply T1].
    destruct (take r0 a) as [m' r1|n|] eqn:K2; injection E as <- <-; [|destruct I..]. apply T1. now apply (T _ _ _ K2).
  - injection E as <- <-. now apply (T _ _ _ K).
Qed.
Theorem C196_left_partial : forall startup shutdown, snd (lifetime startup shutdown) = Some Ok ->
  In ShutdownComplete (fst startup ++ fst shutdown) \/ In ShutdownFailed (fst startup ++ fst shutdown).
Proof.
  intros [l1 a1] [l2 a2] E. cbn [lifetime] in E. destruct (wait_startup (stream l1 a1) a1) as [w q] eqn:W.
  destruct w; cbn in E; try discriminate E. cbn [fst].
  set (q' := q ++ _) in E. set (t := match a1 with Waits => a2 | _ => a1 end) in E.
  assert (S : fst (wait_shutdown q' t) = Ok) by (destruct (fst (wait_shutdown q' t)); [reflexivity|discriminate E..]).
  assert (SUB : forall m, In (Some m) q' -> In m (l1 ++ l2)).
  { intros m I. apply in_or_app. unfold q' in I. apply in_app_or in I as [I|I].
    - left. apply stream_In with a1. eapply wait_rest; [exact W|exact I].
    - right. destruct a1; [now apply stream_In in I|destruct I..]. }
  unfold wait_shutdown, wait, take in S. destruct q' as [|[m|] r]; [discriminate S| |destruct t; discriminate S].
  destruct m; try discriminate S; [left|right]; apply SUB; now left.
Qed.
Print Assumptions C196_left_partial.
Example C196_left_case : snd (lifetime ([StartupComplete], Waits) ([ShutdownComplete], Returns)) = Some Ok /\
  snd (lifetime ([StartupComplete], Waits) ([ShutdownFailed; LOther], Returns)) = Some Ok.
Proof. split; reflexivity. Qed.
