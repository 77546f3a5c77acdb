(** Property theorems for [is_disconnected]: C338, a disconnect that was seen stays seen.  Over the
    model of a Request in RequestModel. *)
From Verif Require Import PyStr RequestModel RequestSpec.

(** Histories: the operations on a Request, and asking whether the client has gone; [ready] says
    whether the server has a message at hand. *)
Inductive gop := Other (o : rop) | Ask (ready : bool).
Inductive gres := Done (r : rres) | Gone (b : bool).
Definition gstep (st : rstate) (o : gop) : gres * rstate :=
  match o with
  | Other o => let '(r, st') := rstep st o in (Done r, st')
  | Ask ready => let '(b, st') := is_disconnected ready st in (Gone b, st')
  end.
Fixpoint grun (st : rstate) (os : list gop) : list gres * rstate :=
  match os with
  | [] => ([], st)
  | o :: os' => let '(r, st1) := gstep st o in let '(rs, st2) := grun st1 os' in (r :: rs, st2)
  end.

(** ** Once seen, always seen *)
Definition seen (st : rstate) : Prop := q_disc (fst st) = true.
Lemma receive_seen st : q_disc (fst (snd (req_receive st))) = q_disc (fst st).
Proof. destruct st as (q, c). unfold req_receive. destruct (q_stored q); [reflexivity|]. unfold chan_recv. destruct (ch_in c); reflexivity. Qed.
Lemma loop_seen n : forall st, seen st -> seen (snd (stream_loop n st)).
Proof.
  unfold seen. induction n as [|n IH]; intros st H; cbn [stream_loop]; [exact H|]. pose proof (receive_seen st) as R. destruct (req_receive st) as (m, (q, c)). cbn [snd fst] in R.
  destruct m as [b [|]|]; cbn.
  - specialize (IH (q, c)). destruct (stream_loop n (q, c)) as ((ys, e), st'). cbn in *. apply IH. rewrite R. exact H.
  - rewrite R. exact H.
  - reflexivity.
Qed.
Lemma stream_seen st : seen st -> seen (snd (stream st)).
Proof.
  intros H. destruct st as (q, c). unfold stream. destruct (q_body q); [exact H|]. destruct (q_consumed q); [exact H | apply loop_seen; exact H].
Qed.
Lemma body_seen st : seen st -> seen (snd (body st)).
Proof.
  intros H. destruct st as (q, c). unfold body. destruct (q_body q); [exact H|]. destruct (ch_scope_body c); [exact H|].
  pose proof (stream_seen (q, c) H) as X. destruct (stream (q, c)) as ((ys, e), (q', c')). destruct e; exact X.
Qed.
Lemma sniff_seen st : seen st -> seen (snd (sniff st)).
Proof.
  intros H. unfold sniff, seen in *. pose proof (receive_seen st) as R. destruct (req_receive st) as (m, (q, c)). cbn in R. rewrite <- R in H.
  destruct m as [[|b bs] [|]|]; exact H.
Qed.
Lemma gstep_seen st o : seen st -> seen (snd (gstep st o)) /\ (forall b, fst (gstep st o) = Gone b -> b = true).
Proof.
  intros H. destruct o as [o|ready]; cbn [gstep].
  - destruct (rstep st o) as (r, st') eqn:E. cbn [fst snd]. split; [|discriminate]. destruct o; cbn [rstep] in E.
    + pose proof (sniff_seen st H) as X. destruct (sniff st) as ((m, i), s). injection E as _ <-. exact X.
    + pose proof (body_seen st H) as X. destruct (body st) as (x, s). injection E as _ <-. exact X.
    + pose proof (stream_seen st H) as X. destruct (stream st) as ((ys, e), s). injection E as _ <-. exact X.
    + unfold json_text in E. pose proof (body_seen st H) as X. destruct (body st) as (x, s). injection E as _ <-. exact X.
  - unfold seen in H. destruct st as (q, c). cbn [fst] in H. unfold is_disconnected. rewrite H. cbn. split; [exact H | intros b X; injection X as <-; reflexivity].
Qed.
Lemma grun_seen os : forall st, seen st -> forall b, In (Gone b) (fst (grun st os)) -> b = true.
Proof.
  induction os as [|o os IH]; intros st H b I; [destruct I|]. cbn [grun] in I. destruct (gstep_seen st o H) as (X & Y).
  destruct (gstep st o) as (r, st1). cbn [fst snd] in X, Y. specialize (IH st1 X). destruct (grun st1 os) as (rs, st2). cbn [fst] in *.
  destruct I as [I|I]; [apply Y; exact I | apply IH; exact I].
Qed.
Lemma ask_true ready st : fst (is_disconnected ready st) = true -> seen (snd (is_disconnected ready st)).
Proof.
  destruct st as (q, c). unfold is_disconnected, seen. destruct (q_disc q) eqn:D; [intros _; exact D|].
  destruct (q_stored q), ready; try (cbn; discriminate); destruct (req_receive (q, c)) as ([b more|], (q', c')); cbn; (discriminate || reflexivity).
Qed.
Lemma grun_app st a b : fst (grun st (a ++ b)) = fst (grun st a) ++ fst (grun (snd (grun st a)) b).
Proof.
  revert st. induction a as [|o a IH]; intros st; [reflexivity|]. cbn [grun app]. destruct (gstep st o) as (r, st1). specialize (IH st1).
  destruct (grun st1 (a ++ b)) as (x, y), (grun st1 a) as (x', y'). cbn [fst snd] in *. rewrite IH. reflexivity.
Qed.

(** Once a Request has said that the client has gone it says so whenever it is asked, whatever was
    done with it before and is done in between. *)
Theorem C338_stays : forall st before ready between ready',
  let st1 := snd (grun st before) in
  fst (is_disconnected ready st1) = true ->
  fst (is_disconnected ready' (snd (grun (snd (is_disconnected ready st1)) between))) = true.
Proof.
  intros st before ready between ready' st1 H. apply ask_true in H. set (s := snd (is_disconnected ready st1)) in *.
  pose proof (grun_seen (between ++ [Ask ready']) s H) as X. rewrite grun_app in X. cbn [grun gstep] in X.
  destruct (is_disconnected ready' (snd (grun s between))) as (b, s'). cbn [fst] in *. apply X, in_or_app. right. left. reflexivity.
Qed.
Print Assumptions C338_stays.

(** ** Never said too early *)
Definition only_disc (l : list rmsg) : Prop := forall m, In m l -> m = MDisc.
Definition sound (st : rstate) : Prop :=
  let '(q, c) := st in
  (q_disc q = true \/ q_stored q = Some MDisc -> ch_in c = []) /\ (forall m, In m (ch_in c) -> m <> MDisc).
Lemma receive_sound st : sound st -> let '(m, (q, c)) := req_receive st in
  sound (q, c) /\ (m = MDisc -> ch_in c = []).
Proof.
  destruct st as (q, c). intros (A & B). unfold req_receive. destruct (q_stored q) as [m|] eqn:E.
  - split; [|intros ->; apply A; right; reflexivity]. split; [|exact B]. cbn. intros [D|D]; [apply A; left; exact D | discriminate D].
  - unfold chan_recv. destruct (ch_in c) as [|m r] eqn:I.
    + split; [|intros _; exact I]. split; [intros _; exact I | rewrite I; intros m []].
    + split; [|intros ->; exfalso; apply (B MDisc); [left|]; reflexivity]. split.
      * intros [D|D]; [specialize (A (or_introl D)); discriminate A | congruence].
      * cbn. intros m' J. apply B. right. exact J.
Qed.
Lemma loop_sound n : forall st, sound st -> sound (snd (stream_loop n st)).
Proof.
  induction n as [|n IH]; intros st H; cbn [stream_loop]; [exact H|]. pose proof (receive_sound st H) as R. destruct (req_receive st) as (m, (q, c)). destruct R as (R & D).
  destruct m as [b [|]|]; cbn.
  - specialize (IH (q, c) R). destruct (stream_loop n (q, c)) as ((ys, e), st'). exact IH.
  - exact R.
  - split; [intros _; apply D; reflexivity | apply R].
Qed.
Lemma stream_sound st : sound st -> sound (snd (stream st)).
Proof.
  intros H. destruct st as (q, c). unfold stream. destruct (q_body q); [exact H|]. destruct (q_consumed q); [exact H | apply loop_sound; exact H].
Qed.
Lemma body_sound st : sound st -> sound (snd (body st)).
Proof.
  intros H. destruct st as (q, c). unfold body. destruct (q_body q); [exact H|]. destruct (ch_scope_body c); [exact H|].
  pose proof (stream_sound (q, c) H) as X. destruct (stream (q, c)) as ((ys, e), (q', c')). destruct e; exact X.
Qed.
Lemma sniff_sound st : sound st -> sound (snd (sniff st)).
Proof.
  intros H. unfold sniff. pose proof (receive_sound st H) as R. destruct (req_receive st) as (m, (q, c)). destruct R as ((A & B) & D).
  assert (X : sound (set_stored q (Some m), c)).
  { split; [|exact B]. cbn. intros [Q|Q]; [apply A; left; exact Q | injection Q as ->; apply D; reflexivity]. }
  destruct m as [[|b bs] [|]|]; cbn; exact X.
Qed.
Lemma ask_sound ready st : sound st -> sound (snd (is_disconnected ready st)) /\
  (fst (is_disconnected ready st) = true -> ch_in (snd (snd (is_disconnected ready st))) = []).
Proof.
  intros H. pose proof (receive_sound st H) as R. destruct st as (q, c). unfold is_disconnected. destruct (q_disc q) eqn:D.
  - split; [exact H | intros _; apply H; left; exact D].
  - assert (G : forall x : bool * rstate, x = (let '(m, (q', c')) := req_receive (q, c) in match m with MDisc => (true, (set_disc q' true, c')) | _ => (false, (q', c')) end) ->
      sound (snd x) /\ (fst x = true -> ch_in (snd (snd x)) = [])).
    { intros x ->. destruct (req_receive (q, c)) as (m, (q', c')). destruct R as (R & M). destruct m as [b more|]; cbn [fst snd]; [split; [exact R | discriminate]|].
      split; [|intros _; apply M; reflexivity]. split; [intros _; apply M; reflexivity | apply R]. }
    destruct (q_stored q), ready; try (apply G; reflexivity). split; [exact H | discriminate].
Qed.
Lemma gstep_sound st o : sound st -> sound (snd (gstep st o)).
Proof.
  intros H. destruct o as [o|ready]; cbn [gstep].
  - destruct (rstep st o) as (r, st') eqn:E. cbn [fst snd]. destruct o; cbn [rstep] in E.
    + pose proof (sniff_sound st H) as X. destruct (sniff st) as ((m, i), s). injection E as _ <-. exact X.
    + pose proof (body_sound st H) as X. destruct (body st) as (x, s). injection E as _ <-. exact X.
    + pose proof (stream_sound st H) as X. destruct (stream st) as ((ys, e), s). injection E as _ <-. exact X.
    + unfold json_text in E. pose proof (body_sound st H) as X. destruct (body st) as (x, s). injection E as _ <-. exact X.
  - pose proof (ask_sound ready st H) as (X & _). destruct (is_disconnected ready st). exact X.
Qed.
Lemma grun_sound os : forall st, sound st -> sound (snd (grun st os)).
Proof.
  induction os as [|o os IH]; intros st H; [exact H|]. cbn [grun]. pose proof (gstep_sound st o H) as X. destruct (gstep st o) as (r, st1). cbn [snd] in X.
  specialize (IH st1 X). destruct (grun st1 os) as (rs, st2). exact IH.
Qed.

(** A Request never says that the client has gone while the server still holds a part of the body. *)
Theorem C338_not_early : forall chunks last before ready,
  let st := snd (grun (new_req, {| ch_in := delivery chunks last; ch_scope_body := None |}) before) in
  ch_in (snd (snd (is_disconnected ready st))) <> [] -> fst (is_disconnected ready st) = false.
Proof.
  intros chunks last before ready st N. assert (S0 : sound st).
  { apply grun_sound. split; [intros [D|D]; discriminate D|]. cbn. unfold delivery. intros m I. apply in_app_or in I. destruct I as [I|I].
    - apply in_map_iff in I. destruct I as (b & <- & _). discriminate.
    - destruct last as [b|]; [destruct I as [<-|[]]; discriminate | destruct I]. }
  destruct (ask_sound ready st S0) as (_ & X). destruct (fst (is_disconnected ready st)); [|reflexivity]. exfalso. apply N, X. reflexivity.
Qed.
Print Assumptions C338_not_early.

(** After the whole body was read, a client that leaves is noticed as soon as the server knows. *)
Theorem C338_noticed : forall chunks b, let st := snd (body (new_req, {| ch_in := delivery chunks (Some b); ch_scope_body := None |})) in
  fst (is_disconnected true st) = true /\ fst (is_disconnected false st) = false.
Proof.
  intros chunks b.
  assert (L : forall chunks n q c, q_stored q = None -> q_disc q = false -> (length chunks < n)%nat -> ch_in c = delivery chunks (Some b) ->
    let '(ys, e, (q', c')) := stream_loop n (q, c) in e = SEnd /\ q_stored q' = None /\ q_disc q' = false /\ ch_in c' = [] /\ ch_scope_body c' = ch_scope_body c).
  { clear. induction chunks as [|x chunks IH]; intros n q c A D N I; (destruct n as [|n]; [cbn in N; lia|]); cbn [stream_loop]; unfold req_receive, chan_recv; rewrite A, I; cbn [delivery map app].
    - repeat split; assumption.
    - specialize (IH n q (set_in c (delivery chunks (Some b))) A D). cbn [length] in N. specialize (IH ltac:(lia) eq_refl). unfold delivery in IH.
      destruct (stream_loop n _) as ((ys, e), (q', c')). exact IH. }
  cbn zeta. unfold body. cbn [q_body new_req ch_scope_body]. unfold stream. cbn [q_body new_req q_consumed ch_in].
  set (n := S (S (length (delivery chunks (Some b))))).
  specialize (L chunks n new_req {| ch_in := delivery chunks (Some b); ch_scope_body := None |} eq_refl eq_refl).
  assert (LN : (length chunks < n)%nat) by (unfold n, delivery; rewrite app_length, map_length; cbn; lia). specialize (L LN eq_refl).
  change {| q_stored := None; q_consumed := false; q_body := None; q_disc := false |} with new_req in *.
  destruct (stream_loop n _) as ((ys, e), (q', c')). destruct L as (-> & A & D & I & _). cbn [snd].
  unfold is_disconnected. cbn [q_disc q_stored set_body set_scope_body]. rewrite A, D. unfold req_receive, chan_recv. cbn. rewrite A, I. split; reflexivity.
Qed.
Print Assumptions C338_noticed.
Example C338_case : fst (grun (new_req, {| ch_in := delivery [u "a"] (Some (u "b")); ch_scope_body := None |}) [Other OSniff; Ask false; Other OStream; Ask false; Ask true; Other OSniff; Ask false])
  = [Done (RSniff (MReq (u "a") true) false); Gone false; Done (RStream [u "b"; []] SEnd); Gone false; Gone true; Done (RSniff MDisc false); Gone true].
Proof. vm_compute. reflexivity. Qed.
