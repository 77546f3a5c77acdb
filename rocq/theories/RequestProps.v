(** Theorems C18 and C26: reading the request body, replaying sniffed messages. *)
From Verif Require Import PyStr PyStrFacts RequestModel RequestSpec RequestProofs PathModel RouterModel RouterProofs.

Definition fresh_request (chunks : list str) (last : option str) : rstate :=
  (new_req, {| ch_in := delivery chunks last; ch_scope_body := None |}).

(** ** C18 *)
(** Every history of sniff/body/stream/json calls on a request: [body] gives the bytes sent, or the
    disconnect, unless they were streamed away before and not kept; [stream] likewise, with a final
    empty chunk; what [json] decodes is the body ("null" for an empty one). *)
Theorem C18_body : forall chunks last pre post,
  exists r, nth_error (fst (rrun (fresh_request chunks last) (pre ++ OBody :: post))) (length pre) = Some (RBody r) /\
  (streamed_away chunks last pre -> r = inr SConsumed) /\
  (~ streamed_away chunks last pre ->
     r = match sent_body chunks last with Some b => inl b | None => inr SDisconnect end).
Proof.
  intros chunks last pre post.
  pose proof (run_ok chunks last (pre ++ OBody :: post) Fresh _ (initial_inv chunks last)) as R.
  unfold fresh_request. destruct (rrun _ _) as (rs & st). destruct R as (_ & R).
  destruct (R pre OBody post eq_refl) as (x & R1 & R2).
  destruct x as [|r| |]; cbn [res_ok] in R2; try contradiction.
  exists r. split; [exact R1|]. pose proof (phase_gone chunks last pre) as G. unfold phase_after in G. split; intros H.
  - apply G in H. rewrite H in R2. exact R2.
  - destruct (fold_left (next chunks last) pre Fresh) eqn:E; try exact R2. exfalso. apply H, G. reflexivity.
Qed.
Print Assumptions C18_body.

Theorem C18_json : forall chunks last pre post,
  exists r, nth_error (fst (rrun (fresh_request chunks last) (pre ++ OJson :: post))) (length pre) = Some (RJson r) /\
  (streamed_away chunks last pre -> r = inr SConsumed) /\
  (~ streamed_away chunks last pre ->
     r = match sent_body chunks last with Some [] => inl (u "null") | Some b => inl b | None => inr SDisconnect end).
Proof.
  intros chunks last pre post.
  pose proof (run_ok chunks last (pre ++ OJson :: post) Fresh _ (initial_inv chunks last)) as R.
  unfold fresh_request. destruct (rrun _ _) as (rs & st). destruct R as (_ & R).
  destruct (R pre OJson post eq_refl) as (x & R1 & R2).
  destruct x as [| | |r]; cbn [res_ok] in R2; try contradiction.
  exists r. split; [exact R1|]. pose proof (phase_gone chunks last pre) as G. unfold phase_after in G. split; intros H.
  - apply G in H. rewrite H in R2. exact R2.
  - destruct (fold_left (next chunks last) pre Fresh) eqn:E; try (destruct (sent_body chunks last) as [[|]|]; exact R2).
    exfalso. apply H, G. reflexivity.
Qed.
Print Assumptions C18_json.

Theorem C18_stream : forall chunks last pre post,
  exists ys e, nth_error (fst (rrun (fresh_request chunks last) (pre ++ OStream :: post))) (length pre) = Some (RStream ys e) /\
  (streamed_away chunks last pre -> ys = [] /\ e = SConsumed) /\
  (~ streamed_away chunks last pre ->
     match sent_body chunks last with
     | Some b => concat ys = b /\ e = SEnd /\ exists zs, ys = zs ++ [[]]
     | None => e = SDisconnect /\ (first_read pre = None -> concat ys = concat chunks)
     end).
Proof.
  intros chunks last pre post.
  pose proof (run_ok chunks last (pre ++ OStream :: post) Fresh _ (initial_inv chunks last)) as R.
  unfold fresh_request. destruct (rrun _ _) as (rs & st). destruct R as (_ & R).
  destruct (R pre OStream post eq_refl) as (x & R1 & R2).
  destruct x as [| |ys e|]; cbn [res_ok] in R2; try contradiction.
  exists ys, e. split; [exact R1|]. pose proof (phase_gone chunks last pre) as G. unfold phase_after in G. split; intros H.
  - apply G in H. rewrite H in R2. exact R2.
  - destruct (fold_left (next chunks last) pre Fresh) eqn:E.
    + destruct (sent_body chunks last); [exact R2|]. destruct R2 as (A & B). split; [exact B | intros _; exact A].
    + destruct (sent_body chunks last); [exact R2|]. destruct R2 as (A & B). split; [exact B | intros _; exact A].
    + exfalso. apply H, G. reflexivity.
    + assert (L : last = None).
      { clear -E. destruct last as [b|]; [|reflexivity]. exfalso.
        assert (Q : forall p, p <> Left -> fold_left (next chunks (Some b)) pre p <> Left).
        { clear E. induction pre as [|o os IH]; intros p Hp; [exact Hp|]. cbn [fold_left]. apply IH.
          destruct p; try discriminate; try congruence. destruct o; cbn; try discriminate.
          destruct chunks; [destruct b|]; discriminate. }
        exact (Q Fresh ltac:(discriminate) E). }
      destruct R2 as (A & B). unfold sent_body. rewrite L. cbn [option_map]. split; [exact B|].
      intros F. exfalso. clear -E F.
      assert (Q : first_read pre = None -> fold_left (next chunks last) pre Fresh = Left -> False).
      { clear. intros F. assert (S : forall o, In o pre -> o = OSniff).
        { intros o Ho. pose proof (List.find_none _ _ F o Ho) as X. destruct o; try discriminate. reflexivity. }
        clear F. assert (Q : forall p, p <> Left -> fold_left (next chunks last) pre p <> Left).
        { induction pre as [|o os IH]; intros p Hp; [exact Hp|]. cbn [fold_left]. apply IH; [intros; apply S; right; assumption|].
          rewrite (S o (or_introl eq_refl)). destruct p; cbn; try discriminate; try congruence.
          destruct chunks; [destruct last as [[]|]|]; discriminate. }
        exact (Q Fresh ltac:(discriminate)). }
      exact (Q F E).
Qed.
Print Assumptions C18_stream.

(** Sniffing, once or repeatedly, before anything is read shows the first message; the flag tells
    whether that message is the whole body. *)
Theorem C18_sniff : forall chunks last n post,
  nth_error (fst (rrun (fresh_request chunks last) (repeat OSniff n ++ OSniff :: post))) n =
  Some (RSniff (match chunks, last with c :: _, _ => MReq c true | [], Some b => MReq b false | [], None => MDisc end)
               (match chunks, last with [], Some (_ :: _) => true | _, _ => false end)).
Proof.
  intros chunks last n post.
  assert (G : forall n st, coming st = delivery chunks last \/ (delivery chunks last = [] /\ (coming st = [] \/ coming st = [MDisc])) ->
    nth_error (fst (rrun st (repeat OSniff n ++ OSniff :: post))) n =
    Some (RSniff (match chunks, last with c :: _, _ => MReq c true | [], Some b => MReq b false | [], None => MDisc end)
               (match chunks, last with [], Some (_ :: _) => true | _, _ => false end))).
  { clear n. induction n as [|n IH]; intros st Hc.
    - cbn [repeat app rrun rstep]. unfold sniff. pose proof (receive_coming st) as R. destruct (req_receive st) as (m & q & c).
      destruct R as (R & _). 
      assert (Hm : m = match chunks, last with c :: _, _ => MReq c true | [], Some b => MReq b false | [], None => MDisc end).
      { unfold delivery in Hc. destruct chunks as [|x cs]; [destruct last|]; cbn in Hc; destruct Hc as [Hc|(Hd & Hc)]; try discriminate;
          [| | destruct Hc as [Hc|Hc] |]; rewrite Hc in R; destruct R as [R|(R & Rm & _)]; congruence. }
      subst m. destruct chunks as [|x cs]; [destruct last as [[|b bs]|]|destruct x]; match goal with |- context [rrun ?a post] => destruct (rrun a post) end; reflexivity.
    - cbn [repeat app rrun rstep]. unfold sniff. pose proof (receive_coming st) as R. destruct (req_receive st) as (m & q & c).
      destruct R as (R & Rs & _). cbn [fst] in Rs.
      assert (K : m :: ch_in c = delivery chunks last \/ (delivery chunks last = [] /\ m :: ch_in c = [MDisc])).
      { assert (CQ : coming (q, c) = ch_in c) by (unfold coming; cbn [fst snd]; rewrite Rs; reflexivity). rewrite CQ in R.
        destruct Hc as [Hc|(Hd & [Hc|Hc])]; rewrite Hc in R; destruct R as [R|(R & Rm & R2)]; try discriminate.
        - left. congruence.
        - right. rewrite R, Rm, R2. split; reflexivity.
        - right. rewrite Rm, R2. split; [exact Hd | reflexivity].
        - right. split; [exact Hd | congruence]. }
      assert (G : forall q' c', q_stored q' = Some m -> ch_in c' = ch_in c ->
         coming (q', c') = delivery chunks last \/ (delivery chunks last = [] /\ (coming (q', c') = [] \/ coming (q', c') = [MDisc]))).
      { intros q' c' E1 E2. unfold coming. cbn [fst snd]. rewrite E1, E2. destruct K as [K|(K1 & K2)]; [left; exact K | right; split; [exact K1 | right; exact K2]]. }
      destruct m as [[|b bs] []|]; match goal with |- context [rrun ?a (repeat OSniff n ++ OSniff :: post)] =>
        assert (X := IH a (G (fst a) (snd a) eq_refl eq_refl)); destruct (rrun a (repeat OSniff n ++ OSniff :: post)) end; exact X. }
  apply G. left. reflexivity.
Qed.
Print Assumptions C18_sniff.

(** Any number of Request objects on one scope, reading with [body] or [json]: all see the same. *)
Theorem C18_shared_body : forall chunks last os k io r,
  (forall x, In x os -> snd x = OBody \/ snd x = OJson) ->
  nth_error os k = Some io ->
  nth_error (fst (wrun (fun _ => new_req, {| ch_in := delivery chunks last; ch_scope_body := None |}) os)) k = Some r ->
  match snd io with
  | OBody => r = RBody (match sent_body chunks last with Some b => inl b | None => inr SDisconnect end)
  | _ => r = RJson (match sent_body chunks last with
                    | Some [] => inl (u "null") | Some b => inl b | None => inr SDisconnect end)
  end.
Proof.
  intros chunks last os k io r Ho Hk Hr.
  assert (W : winv chunks last (fun _ => new_req, {| ch_in := delivery chunks last; ch_scope_body := None |})).
  { split; [reflexivity|]. right. left. intros i. apply initial_inv. }
  pose proof (world_ok chunks last os _ W Ho k r io Hk Hr) as X.
  destruct (snd io); try exact X; rewrite X; destruct (sent_body chunks last) as [[|]|]; reflexivity.
Qed.
Print Assumptions C18_shared_body.

(** Not so when one of them sniffs or streams: *)
Definition C18_shared_statement : Prop := forall chunks b os i post,
  (forall x, In x os -> snd x <> OStream) ->
  let w := (fun _ => new_req, {| ch_in := delivery chunks (Some b); ch_scope_body := None |}) in
  nth_error (fst (wrun w (os ++ (i, OBody) :: post))) (length os) = Some (RBody (inl (concat chunks ++ b))).

(** One Request sniffs the first of two chunks; [body] of another returns the second chunk only. *)
Theorem C18_shared_sniff_refuted : ~ C18_shared_statement.
Proof.
  intros H. specialize (H [u "a"] (u "b") [(0, OSniff)]%nat 1%nat []).
  assert (X : Some (RBody (inl (u "b"))) = Some (RBody (inl (concat [u "a"] ++ u "b")))).
  { apply H. intros x [<-|[]]. discriminate. }
  discriminate.
Qed.
Print Assumptions C18_shared_sniff_refuted.

Definition C18_shared_stream_statement : Prop := forall chunks b i j,
  let w := (fun _ => new_req, {| ch_in := delivery chunks (Some b); ch_scope_body := None |}) in
  exists ys, nth_error (fst (wrun w [(i, OBody); (j, OStream)])) 1 = Some (RStream ys SEnd) /\ concat ys = concat chunks ++ b.

(** After [body] on one Request, [stream] (hence [form]) of another meets the disconnect. *)
Theorem C18_shared_stream_refuted : ~ C18_shared_stream_statement.
Proof.
  intros H. destruct (H [] (u "b") 0%nat 1%nat) as (ys & X & _). vm_compute in X. discriminate.
Qed.
Print Assumptions C18_shared_stream_refuted.

Definition C18_disconnected_statement : Prop := forall chunks b ready,
  let st := snd (is_disconnected ready (fresh_request chunks (Some b))) in
  fst (body st) = inl (concat chunks ++ b).

(** [is_disconnected] swallows a body message that is at hand. *)
Theorem C18_disconnected_refuted : ~ C18_disconnected_statement.
Proof. intros H. specialize (H [u "a"] (u "b") true). vm_compute in H. discriminate. Qed.
Print Assumptions C18_disconnected_refuted.

(** It is harmless when no message is at hand. *)
Theorem C18_disconnected_partial : forall chunks last,
  is_disconnected false (fresh_request chunks last) = (false, fresh_request chunks last).
Proof. reflexivity. Qed.
Print Assumptions C18_disconnected_partial.

Example C18_example :
  fst (rrun (fresh_request [u "ab"; []; u "c"] (Some (u "d"))) [OSniff; OBody; OStream; OJson]) =
    [RSniff (MReq (u "ab") true) false; RBody (inl (u "abcd")); RStream [u "abcd"; []] SEnd; RJson (inl (u "abcd"))] /\
  ~ streamed_away [u "ab"; []; u "c"] (Some (u "d")) [OSniff] /\
  streamed_away [u "ab"] (Some []) [OSniff; OStream] /\
  fst (rrun (fresh_request [u "ab"] None) [OStream; OBody]) = [RStream [u "ab"] SDisconnect; RBody (inr SDisconnect)].
Proof.
  split; [reflexivity|]. split; [intros (_ & X & _); discriminate|]. split; [|reflexivity].
  split; [discriminate|]. split; [reflexivity|]. intros (X & _). discriminate.
Qed.

(** ** C26 *)
(** Histories of a SendReceiveSniffer: receiving, and asking for a repetition. *)
Inductive sop := SReceive | SRepeat.
Fixpoint srun (s : sniffer) (inp : list str) (os : list sop) : list str :=
  match os with
  | [] => []
  | SRepeat :: os' => srun {| sn_repeat := true; sn_message := sn_message s |} inp os'
  | SReceive :: os' =>
      match recv [s] inp with
      | (m, s' :: _, inp') => m :: srun s' inp' os'
      | (m, [], inp') => [m]
      end
  end.

Definition C26_statement : Prop := forall inp n, (n <= length inp)%nat ->
  srun fresh_sniffer inp (repeat SReceive n ++ SRepeat :: repeat SReceive (length inp)) = firstn n inp ++ inp.

(** Only the last message is repeated. *)
Theorem C26_refuted : ~ C26_statement.
Proof. intros H. specialize (H [u "a"; u "b"] 2%nat ltac:(cbn; lia)). vm_compute in H. discriminate. Qed.
Print Assumptions C26_refuted.

(** What every history gives: a receive just after a repeat request gives the last message again,
    any other receive the next new one. *)
Fixpoint replay (last : option str) (again : bool) (inp : list str) (os : list sop) : list str :=
  match os with
  | [] => []
  | SRepeat :: os' => replay last true inp os'
  | SReceive :: os' =>
      match again, last with
      | true, Some m => m :: replay last false inp os'
      | _, _ => hd disconnect_msg inp :: replay (Some (hd disconnect_msg inp)) false (tl inp) os'
      end
  end.
Theorem C26_last_partial : forall inp os, srun fresh_sniffer inp os = replay None false inp os.
Proof.
  assert (G : forall os r m inp, srun {| sn_repeat := r; sn_message := m |} inp os = replay m r inp os).
  { induction os as [|[] os IH]; intros r m inp; [reflexivity| |].
    - cbn [srun replay]. destruct r, m as [m|]; cbn [recv sn_repeat sn_message].
      + rewrite IH. reflexivity.
      + destruct inp; rewrite IH; reflexivity.
      + destruct inp; rewrite IH; reflexivity.
      + destruct inp; rewrite IH; reflexivity.
    - cbn [srun replay sn_message]. apply IH. }
  intros inp os. apply G.
Qed.
Print Assumptions C26_last_partial.

(** In particular: without repeats the messages arrive as sent, and one read, repeated, loses nothing. *)
Theorem C26_one_partial : forall m inp k,
  srun fresh_sniffer (m :: inp) (SReceive :: SRepeat :: repeat SReceive k) = m :: firstn k (m :: inp ++ repeat disconnect_msg k) /\
  srun fresh_sniffer (m :: inp) (repeat SReceive k) = firstn k (m :: inp ++ repeat disconnect_msg k).
Proof.
  assert (G : forall k j l inp, (k <= j)%nat -> replay l false inp (repeat SReceive k) = firstn k (inp ++ repeat disconnect_msg j)).
  { induction k as [|k IH]; intros j l inp Hj; [reflexivity|]. cbn [repeat replay].
    destruct inp as [|x inp]; cbn [hd tl].
    - destruct j as [|j]; [lia|]. cbn [repeat app firstn]. f_equal. rewrite (IH j) by lia. reflexivity.
    - cbn [app firstn]. f_equal. apply IH. lia. }
  intros m inp k. rewrite !C26_last_partial. split.
  - cbn [replay]. f_equal. destruct k as [|k]; [reflexivity|]. cbn [repeat replay firstn hd tl]. f_equal.
    apply (G k (S k)). lia.
  - rewrite (G k k) by lia. reflexivity.
Qed.
Print Assumptions C26_one_partial.
Example C26_example : srun fresh_sniffer [u "a"; u "b"; u "c"] [SReceive; SRepeat; SReceive; SReceive; SRepeat; SRepeat; SReceive; SReceive]
  = [u "a"; u "a"; u "b"; u "b"; u "c"].
Proof. reflexivity. Qed.
