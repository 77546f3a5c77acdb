(** Mail: the properties. *)
From Coq Require Import List NArith Bool Lia.
From Verif Require Import PyStr PyStrFacts HardModel HardProofs MailModel MailSpec MailProofs.
Import ListNotations.

(** A message to one address with nothing but a subject and bodies. *)
Definition plain_mail (subj rcpt : str) (t h : option str) : mail :=
  {| subject := subj; to := [rcpt]; sender := None; body_text := t; body_html := h; alternatives := []; cc := []; bcc := [];
     reply_to := []; attachments := []; attachment_paths := []; headers := [] |}.

(** ** C146: building a message *)
(** A message with a text and an HTML body can be built, and has both. *)
Definition C146_statement : Prop :=
  forall file ml id subj rcpt c t d h, ml subj = false -> ml rcpt = false -> ml id = false ->
  exists hs p, build file ml id (plain_mail subj rcpt (Some (c :: t)) (Some (d :: h))) = Done (hs, p) /\
    In (Leaf (u "text") (u "plain") (c :: t) None false) (leaves p) /\
    In (Leaf (u "text") (u "html") (d :: h) None false) (leaves p).

Theorem C146_refuted : ~ C146_statement.
Proof.
  intros H. destruct (H (fun _ => None) (fun _ => false) (u "<1@h>") (u "Hi") (u "a@b") 104%N (u "i") 60%N (u "b>") eq_refl eq_refl eq_refl)
    as (hs & p & E & _). vm_compute in E. discriminate E.
Qed.
Print Assumptions C146_refuted.

(** No message with both bodies is ever built. *)
Theorem C146_both_fail : forall file ml id m r, both m -> build file ml id m <> Done r.
Proof.
  intros file ml id m r B E. unfold build in E. destruct (put_headers ml [] (own_headers m)); [|discriminate E].
  rewrite (body_part_both m B) in E. discriminate E.
Qed.
Print Assumptions C146_both_fail.
Example C146_both_fail_case : both (plain_mail (u "Hi") (u "a@b") (Some (u "hi")) (Some (u "<b>hi</b>"))).
Proof. split; [exists 104%N, (u "i")|exists 60%N, (u "b>hi</b>")]; reflexivity. Qed.

(** What is built has the body, the alternatives, the attachments and the files in this order and nothing else, the
    headers in order with a message id, and no header of several lines. *)
Theorem C146_built_partial : forall file ml id m hs p, build file ml id m = Done (hs, p) ->
  (exists q as' bs fs, leaves p = q :: as' ++ bs ++ fs /\ body_of m q /\ Forall2 alternative_of (alternatives m) as' /\
     Forall2 blob_of (attachments m) bs /\ Forall2 (file_of file) (attachment_paths m) fs) /\
  (exists idh, hs = own_headers m ++ idh /\ (idh = [] \/ idh = [(u "Message-Id", id)])) /\
  (exists n v, In (n, v) hs /\ lower n = u "message-id") /\
  (forall n v, In (n, v) hs -> ml v = false) /\
  ~ both m.
Proof.
  intros file ml id m hs p E. unfold build in E.
  destruct (put_headers ml [] (own_headers m)) as [h0|] eqn:H; [|discriminate E].
  destruct (body_part m) as [b|] eqn:B; [|discriminate E].
  destruct (add_alternatives b (alternatives m)) as [b1|] eqn:A; [|discriminate E].
  destruct (add_files file (add_blobs b1 (attachments m)) (attachment_paths m)) as [b2|] eqn:F; [|discriminate E].
  apply put_headers_done in H as (-> & HM). cbn [app] in E.
  apply body_part_spec in B as (NB & q & Q & BQ). apply alternatives_leaves in A as (qa & LA & FA).
  apply files_leaves in F as (qf & LF & FF). destruct (blobs_leaves (attachments m) b1) as (qb & LB & FB).
  assert (L : leaves b2 = q :: qa ++ qb ++ qf) by (rewrite LF, LB, LA, Q; cbn; rewrite <- !app_assoc; reflexivity).
  destruct (has_header (own_headers m) (u "Message-Id")) eqn:HI.
  - injection E as <- <-. split; [exists q, qa, qb, qf; auto|]. split; [exists []; rewrite app_nil_r; auto|].
    split; [|split; [exact HM|exact NB]]. apply has_header_iff in HI as (n & v & I & J). exists n, v. split; [exact I|exact J].
  - destruct (put_header ml (own_headers m) (u "Message-Id") id) as [h1|] eqn:P; [|discriminate E]. injection E as <- <-.
    unfold put_header in P. rewrite HI, andb_false_r in P. destruct (ml id) eqn:MI; [discriminate P|].
    assert (PE : h1 = own_headers m ++ [(u "Message-Id", id)]) by congruence. clear P. subst h1.
    split; [exists q, qa, qb, qf; auto|]. split; [exists [(u "Message-Id", id)]; auto|].
    split; [exists (u "Message-Id"), id; split; [apply in_or_app; right; left; reflexivity|reflexivity]|]. split; [|exact NB].
    intros n v I. apply in_app_or in I as [I|[I|[]]]; [exact (HM _ _ I)|]. apply pair_equal_spec in I as (_ & <-). exact MI.
Qed.
Print Assumptions C146_built_partial.

(** A mail has no second subject, sender, list of recipients, date or id, whatever headers of its own are asked for. *)
Theorem C146_once : forall file ml id m hs p k, build file ml id m = Done (hs, p) ->
  In k [u "subject"; u "from"; u "to"; u "cc"; u "bcc"; u "reply-to"; u "sender"; u "date"; u "message-id"] ->
  length (filter (fun h => seqb (lower (fst h)) k) hs) <= 1.
Proof.
  intros file ml id m hs p k E K. assert (O : In k once) by (cbn [In] in K; repeat (destruct K as [<- | K]; [apply smem_In; reflexivity|]); destruct K).
  unfold build in E. destruct (put_headers ml [] (own_headers m)) as [h0|] eqn:H; [|discriminate E].
  pose proof (put_headers_once ml k _ O _ _ H (Nat.le_0_l 1)) as L.
  destruct (body_part m); [|discriminate E]. destruct (add_alternatives _ _); [|discriminate E].
  destruct (add_files _ _ _); [|discriminate E]. destruct (has_header h0 (u "Message-Id")) eqn:HI.
  - injection E as <- <-. exact L.
  - destruct (put_header ml h0 (u "Message-Id") id) as [h1|] eqn:P; [|discriminate E]. injection E as <- <-.
    apply (put_headers_once ml k [(u "Message-Id", id)] O h0 h1); [cbn [put_headers]; now rewrite P|exact L].
Qed.
Print Assumptions C146_once.
(** A second subject is refused. *)
Example C146_once_case : build (fun _ => None) (fun _ => false) (u "<1@h>")
    {| subject := u "Hi"; to := [u "a@b"]; sender := None; body_text := Some (u "hi"); body_html := None; alternatives := []; cc := []; bcc := [];
       reply_to := []; attachments := []; attachment_paths := []; headers := [(u "SUBJECT", u "Ho")] |} = Fault MValue /\
  exists r, build (fun _ => None) (fun _ => false) (u "<1@h>") (plain_mail (u "Hi") (u "a@b") (Some (u "hi")) None) = Done r.
Proof. split; [reflexivity|eexists; reflexivity]. Qed.

(** What the headers say. *)
Theorem C146_headers : forall m, exists fs ts cs rs,
  own_headers m = (u "Subject", subject m) :: fs ++ ts ++ cs ++ rs ++ headers m /\
  (fs = [] <-> sender m = None \/ sender m = Some []) /\ (forall s, sender m = Some s -> s <> [] -> fs = [(u "From", s)]) /\
  (to m = [] -> ts = []) /\ (to m <> [] -> ts = [(u "To", join (u ", ") (to m))]) /\
  (cc m = [] -> cs = []) /\ (cc m <> [] -> cs = [(u "Cc", join (u ", ") (cc m))]) /\
  (reply_to m = [] -> rs = []) /\ (reply_to m <> [] -> rs = [(u "Reply-To", join (u ", ") (reply_to m))]).
Proof.
  intros m. unfold own_headers, joined. do 4 eexists. split; [reflexivity|].
  destruct (sender m) as [[|c s]|]; destruct (to m), (cc m), (reply_to m); cbn [nonempty];
    repeat split; intros; try tauto; try discriminate; try congruence;
    try (match goal with H : _ \/ _ |- _ => destruct H; discriminate end);
    match goal with H : Some _ = Some _ |- _ => injection H as <-; reflexivity end.
Qed.
Print Assumptions C146_headers.

(** It is built whenever there is one body at most, the other alternatives are not texts, the files can be read, the
    headers have one line each and no two have the same name. *)
Theorem C146_builds_partial : forall file ml id m,
  ~ both m ->
  (forall t c x, In (t, c) (alternatives m) -> t <> u "text/" ++ x \/ x = []) ->
  (forall f, In f (attachment_paths m) -> exists c, file f = Some c) ->
  (forall n v, In (n, v) (own_headers m) -> ml v = false) -> ml id = false ->
  NoDup (map (fun h => lower (fst h)) (own_headers m)) ->
  exists r, build file ml id m = Done r.
Proof.
  intros file ml id m NB A F H HI ND. unfold build. rewrite put_headers_ok by assumption. cbn [app].
  destruct (body_part_ok m NB) as (b & ->).
  assert (AO : exists b1, add_alternatives b (alternatives m) = Done b1).
  { apply alternatives_ok. intros t c I E. unfold media in E. destruct (split1 47 t) as [(x, [|y z])|] eqn:S; try discriminate E.
    apply split1_some in S as (S & _). cbn [fst] in E. subst x. destruct (A t c (y :: z) I) as [N|N]; [|discriminate N]. apply N. rewrite S. reflexivity. }
  destruct AO as (b1 & ->).
  assert (FO : exists b2, add_files file (add_blobs b1 (attachments m)) (attachment_paths m) = Done b2).
  { apply files_ok. intros f I E. destruct (F f I) as (c & X). congruence. }
  destruct FO as (b2 & ->). destruct (has_header (own_headers m) (u "Message-Id")) eqn:HH; [eexists; reflexivity|].
  unfold put_header. rewrite HH, andb_false_r, HI. eexists; reflexivity.
Qed.
Print Assumptions C146_builds_partial.
Definition sample : mail :=
  {| subject := u "Hi"; to := [u "a@b"; u "c@d"]; sender := Some (u "me@h"); body_text := Some (u "hi"); body_html := None;
     alternatives := [(u "image/png", u "PNG")]; cc := []; bcc := [u "x@y"]; reply_to := [];
     attachments := [(u "a.txt", u "A", Some (u "text/plain"))]; attachment_paths := [u "/tmp/b.bin"]; headers := [(u "X-A", u "1")] |}.
Definition one_file (f : str) : option str := if seqb f (u "/tmp/b.bin") then Some (u "BIN") else None.
Example C146_builds_partial_case :
  ~ both sample /\
  (forall t c x, In (t, c) (alternatives sample) -> t <> u "text/" ++ x \/ x = []) /\
  (forall f, In f (attachment_paths sample) -> exists c, one_file f = Some c) /\
  NoDup (map (fun h => lower (fst h)) (own_headers sample)) /\
  exists hs, build one_file (fun _ => false) (u "<1@h>") sample =
    Done (hs, Multi (u "mixed") [Leaf (u "text") (u "plain") (u "hi") None false; Leaf (u "image") (u "png") (u "PNG") None true;
      Leaf (u "text") (u "plain") (u "A") (Some (u "a.txt")) true; Leaf (u "application") (u "octet-stream") (u "BIN") (Some (u "b.bin")) true]).
Proof.
  split; [intros (_ & (c & h & E)); discriminate E|]. split.
  - intros t c x [E|[]]. left. apply pair_equal_spec in E as (<- & _). destruct x; vm_compute; discriminate.
  - split; [intros f [<-|[]]; exists (u "BIN"); reflexivity|]. split.
    + vm_compute. repeat constructor; cbn; intuition discriminate.
    + eexists. vm_compute. reflexivity.
Qed.

(** ** C147: hidden recipients and validation *)
(** The built message does not depend on the hidden recipients. *)
Theorem C147_hidden : forall file ml id m hidden,
  build file ml id {| subject := subject m; to := to m; sender := sender m; body_text := body_text m; body_html := body_html m;
    alternatives := alternatives m; cc := cc m; bcc := hidden; reply_to := reply_to m; attachments := attachments m;
    attachment_paths := attachment_paths m; headers := headers m |} = build file ml id m.
Proof. reflexivity. Qed.
Print Assumptions C147_hidden.

(** What goes to the server over SMTP: the message as built, to everyone addressed, in this order. *)
Theorem C147_delivered : forall file ml id d s m m' s' takes,
  smtp_send file ml id d s m takes = (m', s', None) ->
  exists b, build file ml id m' = Done b /\ accepted s' = accepted s ++ [(b, to m ++ cc m ++ bcc m)].
Proof.
  intros file ml id d s m m' s' takes E. unfold smtp_send in E. cbv zeta in E.
  assert (R : all_recipients (with_sender d m) = to m ++ cc m ++ bcc m).
  { unfold with_sender. destruct (some_text (sender m)); [reflexivity|]. destruct (some_text d); reflexivity. }
  destruct (build file ml id (with_sender d m)) as [b|f] eqn:B; [|discriminate E].
  apply pair_equal_spec in E as (E & E3). apply pair_equal_spec in E as (<- & <-). exists b. split; [exact B|].
  cbn [cstep] in *. rewrite R in *. destruct (client s) as [(n, w)|]; [|discriminate E3]. destruct (w && takes); [reflexivity|discriminate E3].
Qed.
Print Assumptions C147_delivered.
Example C147_delivered_case : exists m' s', smtp_send one_file (fun _ => false) (u "<1@h>") None
  (fst (cstep unconnected (COpen true))) sample true = (m', s', None).
Proof. do 2 eexists. vm_compute. reflexivity. Qed.

(** [send] hands over exactly the messages with a recipient and a content, as they are. *)
Theorem C147_validated : forall m m', mailer_send true m = Done m' <->
  m' = m /\ (exists r, In r (to m) \/ In r (cc m) \/ In r (bcc m)) /\ has_content m.
Proof.
  intros m m'. unfold mailer_send, all_recipients, has_content. cbn [negb].
  assert (R : nonempty (to m ++ cc m ++ bcc m) = true <-> exists r, In r (to m) \/ In r (cc m) \/ In r (bcc m)).
  { destruct (to m) as [|r l]; [destruct (cc m) as [|r l]; [destruct (bcc m) as [|r l]|]|]; cbn [nonempty app];
      (split; [intros E; try discriminate E; exists r; cbn; tauto|intros (x & X); cbn in X; try reflexivity; tauto]). }
  assert (C : some_text (body_text m) || some_text (body_html m) || nonempty (alternatives m) || nonempty (attachments m) || nonempty (attachment_paths m) = true <->
    (exists c t, body_text m = Some (c :: t)) \/ (exists c h, body_html m = Some (c :: h)) \/ alternatives m <> [] \/ attachments m <> [] \/ attachment_paths m <> []).
  { rewrite !orb_true_iff.
    assert (T : forall o, some_text o = true <-> exists c t, o = Some (c :: t)).
    { intros [[|c t]|]; cbn; split; intros X; try discriminate X; try reflexivity; try (destruct X as (? & ? & X); discriminate X). eauto. }
    assert (NE : forall A (l : list A), nonempty l = true <-> l <> []) by (intros A [|x l]; cbn; split; congruence).
    rewrite !T, !NE. tauto. }
  destruct (nonempty (to m ++ cc m ++ bcc m)); cbn [negb].
  - destruct (_ || _ || _ || _ || _); cbn [negb].
    + split; [intros E; injection E as <-; tauto|intros (-> & _); reflexivity].
    + split; [discriminate|]. intros (_ & _ & X). apply C in X. discriminate X.
  - split; [discriminate|]. intros (_ & X & _). apply R in X. discriminate X.
Qed.
Print Assumptions C147_validated.

(** Everything handed over by [send_many] has a recipient. *)
Definition C147_many_statement : Prop := forall ms ms', mailer_send_many true ms = Done ms' ->
  forall m, In m ms' -> exists r, In r (to m) \/ In r (cc m) \/ In r (bcc m).
Definition to_nobody : mail :=
  {| subject := []; to := []; sender := None; body_text := None; body_html := None; alternatives := []; cc := []; bcc := [];
     reply_to := []; attachments := []; attachment_paths := []; headers := [] |}.
Theorem C147_many_refuted : ~ C147_many_statement.
Proof.
  intros H. destruct (H [to_nobody] [to_nobody] eq_refl to_nobody (or_introl eq_refl)) as (r & [[]|[[]|[]]]).
Qed.
Print Assumptions C147_many_refuted.

(** ** C148: the connection over its history *)
(** A connection that has been opened can be used, if the server answers. *)
Definition C148_statement : Prop := forall os m rs,
  snd (cstep (fst (cstep (cruns unconnected os) (COpen true))) (CSend m rs true)) = None.
Definition nothing : list (str * str) * part := ([], Leaf [] [] [] None false).
(** Neither after the server has closed it, nor after a closing that failed. *)
Theorem C148_refuted : ~ C148_statement.
Proof. intros H. specialize (H [COpen true; CDrop; CClose true] nothing []). vm_compute in H. discriminate H. Qed.
Print Assumptions C148_refuted.

(** Once lost, it stays lost: nothing is delivered any more, whatever is done. *)
Theorem C148_lost_for_good : forall s n os, client s = Some (n, false) ->
  accepted (cruns s os) = accepted s /\ client (cruns s os) = Some (n, false).
Proof.
  intros s n os. revert s. induction os as [|o os IH]; intros s C; [auto|]. cbn [cruns].
  assert (K : client (fst (cstep s o)) = Some (n, false) /\ accepted (fst (cstep s o)) = accepted s).
  { destruct o as [l|a|m rs t|]; cbn [cstep]; rewrite C; cbn; auto. }
  destruct K as (K1 & K2). destruct (IH _ K1) as (I1 & I2). rewrite I1, K2. auto.
Qed.
Print Assumptions C148_lost_for_good.
Example C148_lost_for_good_case : client (cruns unconnected [COpen true; CDrop]) = Some (0, false).
Proof. reflexivity. Qed.

(** As long as it is not dropped and the server answers to QUIT, it can be used after it was opened. *)
Theorem C148_usable_partial : forall os m rs,
  (forall o, In o os -> o <> CDrop /\ o <> CClose false) ->
  snd (cstep (fst (cstep (cruns unconnected os) (COpen true))) (CSend m rs true)) = None.
Proof.
  intros os m rs.
  assert (G : forall s, (forall n w, client s = Some (n, w) -> w = true) -> (forall o, In o os -> o <> CDrop /\ o <> CClose false) ->
    forall n w, client (cruns s os) = Some (n, w) -> w = true).
  { induction os as [|o os IH]; intros s W H; [exact W|]. cbn [cruns]. apply IH; [|intros o' I; apply H; right; exact I].
    destruct (H o (or_introl eq_refl)) as (N1 & N2). destruct o as [l|a|m' rs' t|]; cbn [cstep]; [| | |destruct (N1 eq_refl)].
    - destruct (client s) eqn:C; [rewrite <- C in W; cbn [fst]; exact W|]. destruct l; cbn [fst client]; [intros n w [= _ <-]; reflexivity|rewrite C; exact W].
    - destruct a; [|destruct (N2 eq_refl)]. destruct (client s) as [(k, w)|] eqn:C; [|cbn [fst]; rewrite C; discriminate].
      rewrite (W _ _ eq_refl). cbn. discriminate.
    - destruct (client s) as [(k, w)|] eqn:C; [|cbn [fst]; rewrite C; discriminate]. destruct (w && t); cbn [fst client]; rewrite <- C in *; exact W. }
  intros H. specialize (G unconnected ltac:(discriminate) H). cbn [cstep]. destruct (client (cruns unconnected os)) as [(k, w)|] eqn:C.
  - cbn [fst]. rewrite C. rewrite (G _ _ eq_refl). reflexivity.
  - reflexivity.
Qed.
Print Assumptions C148_usable_partial.
Example C148_usable_partial_case : forall o, In o [COpen false; COpen true; CSend nothing [] false; CClose true] -> o <> CDrop /\ o <> CClose false.
Proof. intros o [<-|[<-|[<-|[<-|[]]]]]; split; discriminate. Qed.

(** The outcomes of a history, and what it delivered. *)
Fixpoint outcomes (s : conn) (os : list cop) : list (cop * option mfault) :=
  match os with [] => [] | o :: os' => (o, snd (cstep s o)) :: outcomes (fst (cstep s o)) os' end.
Definition sent (r : cop * option mfault) : list ((list (str * str) * part) * list str) :=
  match r with (CSend m rs _, None) => [(m, rs)] | _ => [] end.

(** The server accepted exactly the messages whose sending returned without exception, once each and in order. *)
Theorem C148_accepted : forall s os, accepted (cruns s os) = accepted s ++ flat_map sent (outcomes s os).
Proof.
  intros s os. revert s. induction os as [|o os IH]; intros s; [cbn; rewrite app_nil_r; reflexivity|].
  cbn [cruns outcomes flat_map]. rewrite IH, app_assoc. f_equal.
  destruct o as [l|a|m rs t|]; cbn [cstep sent].
  - destruct (client s); [cbn; rewrite app_nil_r; reflexivity|]. destruct l; cbn; rewrite app_nil_r; reflexivity.
  - destruct (client s) as [(k, w)|]; [|cbn; rewrite app_nil_r; reflexivity]. destruct (w && a); cbn; rewrite app_nil_r; reflexivity.
  - destruct (client s) as [(k, w)|] eqn:C; [|cbn; rewrite app_nil_r; reflexivity]. destruct (w && t); cbn; [reflexivity|rewrite app_nil_r; reflexivity].
  - destruct (client s) as [(k, w)|]; cbn; rewrite app_nil_r; reflexivity.
Qed.
Print Assumptions C148_accepted.

(** Nothing is sent before opening nor after closing. *)
Theorem C148_closed : forall s m rs t, client s = None -> cstep s (CSend m rs t) = (s, Some MClosed).
Proof. intros s m rs t C. cbn [cstep]. rewrite C. reflexivity. Qed.
Print Assumptions C148_closed.

(** Opening again makes no second connection. *)
Theorem C148_one_connection : forall s a b, snd (cstep s (COpen a)) = None ->
  cstep (fst (cstep s (COpen a))) (COpen b) = (fst (cstep s (COpen a)), None).
Proof.
  intros s a b. cbn [cstep]. destruct (client s) eqn:C; [cbn [fst]; rewrite C; reflexivity|]. destruct a; [reflexivity|discriminate].
Qed.
Print Assumptions C148_one_connection.
Example C148_one_connection_case : snd (cstep unconnected (COpen true)) = None. Proof. reflexivity. Qed.

(** Sending many delivers the messages before the first that fails, in order. *)
Theorem C148_many : forall file ml id d s ms s' e, smtp_send_many file ml id d s ms = (s', e) ->
  exists done rest new, ms = done ++ rest /\ accepted s' = accepted s ++ new /\
    Forall2 (fun mt x => build file ml id (with_sender d (fst mt)) = Done (fst x) /\ snd x = to (fst mt) ++ cc (fst mt) ++ bcc (fst mt)) done new /\
    (e = None -> rest = []) /\ (forall f, e = Some f -> rest <> []).
Proof.
  intros file ml id d s ms. revert s. induction ms as [|(m, t) ms IH]; intros s s' e E; cbn [smtp_send_many] in E.
  - injection E as <- <-. exists [], [], []. rewrite (app_nil_r (accepted s)). repeat split; auto; try discriminate.
  - destruct (smtp_send file ml id d s m t) as ((m', s1), [f|]) eqn:X.
    + injection E as <- <-. exists [], ((m, t) :: ms), []. rewrite (app_nil_r (accepted s)). split; [reflexivity|].
      split; [|split; [constructor|split; [discriminate|intros; discriminate]]].
      unfold smtp_send in X. cbv zeta in X. destruct (build file ml id (with_sender d m)).
      * apply pair_equal_spec in X as (X & X3). apply pair_equal_spec in X as (_ & <-). cbn [cstep] in *.
        destruct (client s) as [(n, w)|]; [destruct (w && t); [discriminate X3|reflexivity]|reflexivity].
      * apply pair_equal_spec in X as (X & _). apply pair_equal_spec in X as (_ & <-). reflexivity.
    + pose proof (C147_delivered _ _ _ _ _ _ _ _ _ X) as (b & B & A). destruct (IH _ _ _ E) as (dn & rs & nw & -> & A' & F & E1 & E2).
      assert (MM : m' = with_sender d m).
      { unfold smtp_send in X. cbv zeta in X. destruct (build file ml id (with_sender d m)); apply pair_equal_spec in X as (X & _); apply pair_equal_spec in X as (<- & _); reflexivity. }
      exists ((m, t) :: dn), rs, ((b, to m ++ cc m ++ bcc m) :: nw). split; [reflexivity|]. split; [rewrite A', A, <- app_assoc; reflexivity|].
      split; [constructor; [|exact F]; cbn [fst snd]; rewrite <- MM; auto|]. auto.
Qed.
Print Assumptions C148_many.

(** ** C149: the default sender *)
(** Each backend sends a message without sender in its own default's name. *)
Definition C149_statement : Prop := forall ds m, sender m = None -> senders ds m = ds.
Theorem C149_refuted : ~ C149_statement.
Proof.
  intros H. specialize (H [Some (u "a@h"); Some (u "b@h")] (plain_mail [] [] None None) eq_refl). vm_compute in H. discriminate H.
Qed.
Print Assumptions C149_refuted.

(** The first backend that has a default gives the message its sender for all that follow. *)
Theorem C149_first_partial : forall before d c after m, sender m = None ->
  (forall x, In x before -> x = None) -> d = Some c -> c <> [] ->
  senders (before ++ d :: after) m = map (fun _ => None) before ++ map (fun _ => Some c) (d :: after).
Proof.
  intros before d c after. induction before as [|x before IH]; intros m S B D NE.
  - cbn [app senders map]. cbv zeta. subst d. destruct c as [|c0 c]; [destruct (NE eq_refl)|].
    unfold with_sender at 1. rewrite S. cbn [some_text sender]. f_equal. unfold with_sender. rewrite S. cbn [some_text].
    clear S B NE.
    match goal with |- senders after ?m0 = _ => assert (SM : sender m0 = Some (c0 :: c)) by reflexivity; generalize dependent m0 end.
    intros m0 SM. clear m. revert m0 SM. induction after as [|y after IH]; intros m SM; [reflexivity|]. cbn [senders map].
    unfold with_sender. rewrite SM. cbn [some_text]. rewrite SM. f_equal. apply IH. exact SM.
  - cbn [app senders map]. cbv zeta. rewrite (B x (or_introl eq_refl)). unfold with_sender. rewrite S. cbn [some_text]. rewrite S. f_equal.
    apply IH; auto. intros y I. apply B. right. exact I.
Qed.
Print Assumptions C149_first_partial.

(** A message's own sender is never replaced. *)
Theorem C149_own : forall ds m c, sender m = Some c -> c <> [] -> senders ds m = map (fun _ => Some c) ds.
Proof.
  induction ds as [|d ds IH]; intros m c S NE; [reflexivity|]. cbn [senders map]. unfold with_sender. rewrite S.
  destruct c as [|c0 c]; [destruct (NE eq_refl)|]. cbn [some_text]. rewrite S. f_equal. apply IH; [exact S|discriminate].
Qed.
Print Assumptions C149_own.
Example C149_own_case : sender sample = Some (u "me@h"). Proof. reflexivity. Qed.

(** ** C150: plain text from HTML *)
(** The end of a paragraph leaves an empty line, as the code says. *)
Definition C150_statement : Prop := forall a b, proper (Txt a) -> proper (Txt b) ->
  a <> [] -> b <> [] -> words is_space a = [a] -> words is_space b = [b] ->
  html_to_text (a ++ u "</p>" ++ b) = a ++ [10%N; 10%N] ++ b.
Theorem C150_refuted : ~ C150_statement.
Proof.
  intros H. assert (P : forall c, c <> 60%N -> proper (Txt [c])) by (intros c N [E|[]]; congruence).
  specialize (H (u "a") (u "b") (P 97%N ltac:(discriminate)) (P 98%N ltac:(discriminate)) ltac:(discriminate) ltac:(discriminate) eq_refl eq_refl).
  vm_compute in H. discriminate H.
Qed.
Print Assumptions C150_refuted.

(** Nothing that looks like a tag is left. *)
Theorem C150_no_tags : forall h, ~ tag_in (html_to_text h).
Proof.
  intros h. unfold html_to_text. cbv zeta. eapply sparser_tags; [apply strip_sparser|]. eapply sparser_tags; [apply lfs_sparser|].
  eapply sparser_tags; [apply slf_sparser|]. apply tags_gone.
Qed.
Print Assumptions C150_no_tags.
Example C150_no_tags_case : tag_in (u "a<b>c"). Proof. exists (u "a"), (u "b"), (u "c"). repeat split; [discriminate|]. intros [E|[]]; discriminate E. Qed.

(** No white space stands beside a line feed, and none at the ends. *)
Theorem C150_tidy : forall h,
  (forall a x b, html_to_text h = a ++ [x; 10%N] ++ b -> is_space x = false) /\
  (forall a x b, html_to_text h = a ++ [10%N; x] ++ b -> is_space x = false) /\
  (forall x b, html_to_text h = x :: b -> is_space x = false) /\
  (forall a x, html_to_text h = a ++ [x] -> is_space x = false).
Proof.
  intros h. unfold html_to_text. cbv zeta.
  match goal with |- context [re_sub match_lf_space [10%N] (re_sub match_space_lf [10%N] ?t)] => set (t0 := t) end.
  destruct (lfs_alone _ (slf_alone t0)) as (B & A). set (t1 := re_sub match_lf_space [10%N] (re_sub match_space_lf [10%N] t0)) in *.
  destruct (strip_inside t1) as (p & q & E). repeat split.
  - intros a x b X. apply (B (p ++ a) x (b ++ q)). rewrite E at 1. rewrite X, <- !app_assoc. reflexivity.
  - intros a x b X. apply (A (p ++ a) x (b ++ q)). rewrite E at 1. rewrite X, <- !app_assoc. reflexivity.
  - intros x b X. apply (strip_ends t1). left. exists b. exact X.
  - intros a x X. apply (strip_ends t1). right. exists a. exact X.
Qed.
Print Assumptions C150_tidy.

(** The words of the text are the words a reader sees. *)
Theorem C150_words_partial : forall l, (forall s, In s l -> proper s) ->
  words is_space (html_to_text (render l)) = words is_space (shown l).
Proof.
  intros l P. unfold html_to_text. cbv zeta. rewrite (br_segments l P).
  assert (P1 : forall s, In s (map step_br l) -> proper s /\ forall b, s <> Br b).
  { intros s I. apply in_map_iff in I as (s0 & <- & I). specialize (P s0 I). destruct s0; cbn; split; try exact P; try discriminate. intros [E|[]]; discriminate E. }
  rewrite (p_segments _ P1).
  assert (P2 : forall s, In s (map step_p (map step_br l)) -> proper s /\ (forall b, s <> Br b) /\ forall b, s <> EndP b).
  { intros s I. apply in_map_iff in I as (s0 & <- & I). destruct (P1 s0 I) as (Q & NB).
    destruct s0; cbn; (split; [try exact Q; try (intros [E|[E|[]]]; discriminate E)|split; try discriminate; try exact NB]). }
  rewrite (tag_segments _ P2). rewrite words_strip. unfold words. rewrite lfs_words, slf_words.
  rewrite !map_map. clear P1 P2 P. generalize (@nil N) as cur. unfold render, shown.
  induction l as [|s l IH]; intros cur; [reflexivity|]. cbn [map flat_map].
  assert (G : forall x y z cur', (forall c, words_from is_space c y = words_from is_space c z) -> words_from is_space cur' (x ++ y) = words_from is_space cur' (x ++ z)).
  { induction x as [|c x IHx]; intros y z cur' H; [apply H|]. cbn [app words_from]. destruct (is_space c); rewrite (IHx y z _ H); reflexivity. }
  destruct s as [t|b|b|b]; cbn -[words_from is_space].
  - apply G. exact IH.
  - apply IH.
  - apply (G [10%N]). exact IH.
  - transitivity (words_from is_space cur ([10%N] ++ [10%N] ++ flat_map shown1 l)); [apply (G [10%N; 10%N]); exact IH|].
    cbn [app words_from]. replace (is_space 10) with true by reflexivity. destruct cur; reflexivity.
Qed.
Print Assumptions C150_words_partial.
Example C150_words_partial_case :
  let l := [Tag (u "p class='x'"); Txt (u "Hello"); Tag (u "b"); Txt (u "!"); Tag (u "/b"); Br (u "br /"); Txt (u "all > "); EndP (u "/P"); Txt (u "x")] in
  (forall s, In s l -> proper s) /\ words is_space (shown l) = [u "Hello!"; u "all"; u ">"; u "x"] /\
  html_to_text (render l) = u "Hello!" ++ [10%N] ++ u "all >" ++ [10%N] ++ u "x".
Proof.
  cbv zeta.
  assert (NBR : forall c b, lower_c c <> 98%N -> is_space c = false -> ~ is_br (c :: b)).
  { intros c b N1 N2 (w1 & x & y & w2 & e & E & B & _ & L & _). destruct w1 as [|c' w1]; cbn in E; injection E as -> _; [contradiction|].
    rewrite (B c' (or_introl eq_refl)) in N2. discriminate N2. }
  assert (NBR2 : ~ is_br (u "b")).
  { intros (w1 & x & y & w2 & e & E & B & _ & L & _). destruct w1 as [|c' [|c'' w1]]; cbn in E; try discriminate E. }
  assert (NP : forall c b, c <> 47%N -> ~ is_p (c :: b)).
  { intros c b N (w1 & x & w2 & E & _). injection E as -> _. contradiction. }
  assert (NP2 : ~ is_p (u "/b")).
  { intros (w1 & x & w2 & E & B & _ & L). cbn in E. injection E as E. destruct w1 as [|c [|c' w1]]; cbn in E; try discriminate E.
    injection E as <- <-. discriminate L. }
  split; [|split; vm_compute; reflexivity].
  intros s I. cbn [In] in I.
  destruct I as [<-|[<-|[<-|[<-|[<-|[<-|[<-|[<-|[<-|[]]]]]]]]]].
  1: { split; [discriminate|]. do 2 (split; [vm_compute; intuition discriminate|]).
       split; [apply NBR; vm_compute; [discriminate|reflexivity]|apply NP; discriminate]. }
  1,3,6,8: vm_compute; intuition discriminate.
  1: { split; [discriminate|]. do 2 (split; [vm_compute; intuition discriminate|]). split; [exact NBR2|apply NP; discriminate]. }
  1: { split; [discriminate|]. do 2 (split; [vm_compute; intuition discriminate|]).
       split; [apply NBR; vm_compute; [discriminate|reflexivity]|exact NP2]. }
  - exists [], 98%N, 114%N, (u " "), (u "/"). split; [reflexivity|]. repeat split; auto; [intros c []|intros c [<-|[]]; reflexivity].
  - exists [], 80%N, []. split; [reflexivity|]. repeat split; auto; intros c [].
Qed.

(** ** C151: mail kept in files *)
(** Two messages are never kept in the same file. *)
Definition C151_statement : Prop := forall alnum st s1 s2, s1 <> s2 -> file_name alnum st s1 <> file_name alnum st s2.
Theorem C151_refuted : ~ C151_statement.
Proof.
  intros H. apply (H is_word (u "20260101") (u "Hi") (u "Hi!")); [discriminate|vm_compute; reflexivity].
Qed.
Print Assumptions C151_refuted.

(** The name has no separator, whatever the subject is; it ends in ".eml" and has a bounded length. *)
Theorem C151_inside : forall alnum st subj, alnum 47%N = false -> alnum 92%N = false -> alnum 0%N = false ->
  ~ In 47%N st -> ~ In 92%N st -> ~ In 0%N st ->
  ~ In 47%N (file_name alnum st subj) /\ ~ In 92%N (file_name alnum st subj) /\ ~ In 0%N (file_name alnum st subj) /\
  (exists x, file_name alnum st subj = x ++ u ".eml") /\
  length (file_name alnum st subj) <= length st + 65.
Proof.
  intros alnum st subj A47 A92 A0 S47 S92 S0.
  assert (K : forall c, alnum c = false -> c <> 45%N -> c <> 95%N -> ~ In c (safe_subject alnum subj)).
  { intros c A N1 N2 I. unfold safe_subject in I. 
    assert (FI : forall n (l : str) x, In x (firstn n l) -> In x l).
    { clear. intros n. induction n as [|n IH]; intros [|y l] x J; cbn in J; try contradiction. destruct J as [->|J]; [left; reflexivity|right; auto]. }
    apply FI in I. apply filter_In in I as (_ & I). rewrite A in I. cbn [orb] in I.
    apply orb_true_iff in I as [I|I]; apply N.eqb_eq in I; congruence. }
  assert (G : forall c, alnum c = false -> ~ In c st -> ~ In c (u "-.eml_") -> ~ In c (file_name alnum st subj)).
  { intros c A NS NL I. unfold file_name in I. apply in_app_or in I as [I|I]; [contradiction|]. apply in_app_or in I as [I|I].
    - apply NL. destruct I as [<-|[]]. left. reflexivity.
    - apply in_app_or in I as [I|I].
      + revert I. apply K; [exact A| |]; intros ->; apply NL; vm_compute; tauto.
      + apply NL. cbn in I |- *. tauto. }
  assert (V : forall c, smem [c] (map (fun x => [x]) (u "-.eml_")) = false -> ~ In c (u "-.eml_")).
  { intros c E I. apply smem_not_In in E. apply E. apply (in_map (fun x : N => [x]) _ _ I). }
  split; [apply G; auto|]. split; [apply G; auto|]. split; [apply G; auto|]. split.
  - exists (st ++ u "-" ++ safe_subject alnum subj). unfold file_name. rewrite <- !app_assoc. reflexivity.
  - unfold file_name. rewrite !app_length. pose proof (firstn_le_length 60 (filter (fun c => alnum c || N.eqb c 45 || N.eqb c 95) (match subj with [] => u "no-subject" | _ => subj end))) as L.
    assert (L2 : length (safe_subject alnum subj) <= 60) by (unfold safe_subject; rewrite firstn_length; apply Nat.le_min_l).
    change (length (u "-")) with 1. change (length (u ".eml")) with 4. lia.
Qed.
Print Assumptions C151_inside.
Example C151_inside_case : file_name is_word (u "20260101T101010") (u "../../etc/passwd") = u "20260101T101010-etcpasswd.eml".
Proof. vm_compute. reflexivity. Qed.

(** Messages of different moments are kept in different files, if the stamps have the same length. *)
Theorem C151_apart_partial : forall alnum st1 st2 s1 s2, length st1 = length st2 -> st1 <> st2 ->
  file_name alnum st1 s1 <> file_name alnum st2 s2.
Proof.
  intros alnum st1 st2 s1 s2 L N E. apply N. unfold file_name in E. apply (f_equal (firstn (length st1))) in E.
  rewrite firstn_app, Nat.sub_diag, firstn_all, firstn_O, app_nil_r in E.
  rewrite L, firstn_app, Nat.sub_diag, firstn_all, firstn_O, app_nil_r in E. exact E.
Qed.
Print Assumptions C151_apart_partial.
Example C151_apart_partial_case : length (u "1") = length (u "2") /\ u "1" <> u "2". Proof. split; [reflexivity|discriminate]. Qed.
