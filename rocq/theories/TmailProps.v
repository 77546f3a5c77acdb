(** C357, C358: mails made from templates. *)
From Verif Require Import PyStr PyStrFacts MailModel MailSpec MailProofs MailProps TmailModel.

(** ** C357 *)
(** The bodies that the templates give: the text is that of the text template, or else made from the HTML. *)
Definition bodies {Ctx} (render : str -> Ctx -> option str) (th : str) (c : Ctx) (tt : option str) (text html : str) : Prop :=
  render th c = Some html /\ ((exists t, tt = Some t /\ t <> [] /\ render t c = Some text) \/ ((tt = None \/ tt = Some []) /\ text = html_to_text html)).
(** The message that the backend gets has the rendered bodies and everything it was told, and nothing else; it is handed over
    exactly if there are a renderer and a backend, the templates can be rendered, and there is a recipient and a content. *)
Theorem C357_handed : forall Ctx (render : str -> Ctx -> option str) ht cf th c tt l m,
  send_template render ht cf th c tt l = Handed m <->
  ht = true /\ cf = true /\ exists text html, bodies render th c tt text html
    /\ (l_to l ++ or_none (l_cc l) ++ or_none (l_bcc l) <> []) /\ (text <> [] \/ html <> [] \/ or_none (l_attachments l) <> [] \/ or_none (l_paths l) <> [])
    /\ m = {| subject := l_subject l; to := l_to l; sender := l_from l; body_text := Some text; body_html := Some html; alternatives := [];
              cc := match l_cc l with Some x => x | None => [] end; bcc := match l_bcc l with Some x => x | None => [] end;
              reply_to := match l_reply_to l with Some x => x | None => [] end; attachments := match l_attachments l with Some x => x | None => [] end;
              attachment_paths := match l_paths l with Some x => x | None => [] end; headers := match l_headers l with Some x => x | None => [] end |}.
Proof.
  intros Ctx render ht cf th c tt l m.
  assert (RP : forall text html, render_pair render th c tt = Some (text, html) <-> bodies render th c tt text html).
  { intros text html. unfold render_pair, bodies. destruct (render th c) as [h|]; [|split; [discriminate|intros [H _]; discriminate H]].
    destruct tt as [[|x t]|].
    - split; [intros H; injection H as <- <-; split; [reflexivity|right; auto]|]. intros [H [(t & T & N & _)|[_ ->]]]; [injection T as <-; destruct (N eq_refl)|injection H as <-; reflexivity].
    - destruct (render (x :: t) c) as [tx|] eqn:RT.
      + split; [intros H; injection H as <- <-; split; [reflexivity|left; exists (x :: t); split; [reflexivity|split; [discriminate|exact RT]]]|].
        intros [H [(t' & T & N & R)|[[T|T] _]]]; [|discriminate T|discriminate T]. injection T as <-. rewrite RT in R. injection R as ->. injection H as ->. reflexivity.
      + split; [discriminate|]. intros [H [(t' & T & N & R)|[[T|T] _]]]; [|discriminate T|discriminate T]. injection T as <-. rewrite RT in R. discriminate R.
    - split; [intros H; injection H as <- <-; split; [reflexivity|right; auto]|]. intros [H [(t & T & N & _)|[_ ->]]]; [discriminate T|injection H as <-; reflexivity]. }
  unfold send_template. destruct ht; cbn [negb]; [|split; [discriminate|intros [H _]; discriminate H]].
  assert (ST : forall s, some_text (Some s) = true <-> s <> []) by (intros [|a s]; cbn; split; congruence).
  assert (NE : forall (A : Type) (x : list A), nonempty x = true <-> x <> []) by (intros A [|a x]; cbn; split; congruence).
  destruct (render_pair render th c tt) as [[text html]|] eqn:RE.
  - cbn zeta. pose proof (proj1 (RP text html) eq_refl) as B. unfold mailer_send. cbn [all_recipients to cc bcc body_text body_html alternatives attachments attachment_paths].
    unfold all_recipients. cbn [to cc bcc]. destruct cf; cbn [negb]; [|split; [discriminate|intros (_ & H & _); discriminate H]].
    destruct (nonempty (l_to l ++ or_none (l_cc l) ++ or_none (l_bcc l))) eqn:R; cbn [negb].
    + apply NE in R. change (nonempty (@nil (str * str))) with false. rewrite orb_false_r.
      destruct (some_text (Some text) || some_text (Some html) || nonempty (or_none (l_attachments l)) || nonempty (or_none (l_paths l))) eqn:C; cbn [negb].
      * rewrite !orb_true_iff, !ST, !NE in C. split.
        -- intros H. injection H as <-. refine (conj eq_refl (conj eq_refl _)). exists text, html. refine (conj B (conj R (conj _ eq_refl))). tauto.
        -- intros (_ & _ & t & h & B' & _ & _ & ->). apply RP in B'. injection B' as <- <-. reflexivity.
      * split; [discriminate|]. intros (_ & _ & t & h & B' & _ & D & _). apply RP in B'. injection B' as <- <-. exfalso.
        rewrite !orb_false_iff in C. destruct C as [[[C1 C2] C3] C4]. destruct D as [D|[D|[D|D]]]; [apply ST in D|apply ST in D|apply NE in D|apply NE in D]; congruence.
    + split; [discriminate|]. intros (_ & _ & t & h & _ & D & _). apply NE in D. congruence.
  - split; [discriminate|]. intros (_ & _ & t & h & B & _). apply RP in B. discriminate B.
Qed.
Print Assumptions C357_handed.
Definition welcome : letter :=
  {| l_subject := u "Hi"; l_to := [u "a@b.c"]; l_from := None; l_reply_to := None; l_headers := Some [(u "X-A", u "1")]; l_cc := None; l_bcc := Some [u "d@e.f"]; l_attachments := None; l_paths := None |}.
Definition jinja (t : str) (name : str) : option str := if seqb t (u "w.html") then Some (u "<p>Hello " ++ name ++ u "</p>") else None.
Example C357_case : exists m, send_template jinja true true (u "w.html") (u "Ann") None welcome = Handed m /\ body_text m = Some (u "Hello Ann") /\ body_html m = Some (u "<p>Hello Ann</p>")
  /\ bcc m = [u "d@e.f"] /\ send_template jinja true true (u "w.html") (u "Ann") (Some (u "w.txt")) welcome = NoTemplate.
Proof. eexists. split; [vm_compute; reflexivity|]. vm_compute. auto. Qed.

(** ** C358 *)
(** A mail made from templates that can be rendered, to a recipient and without attachments or headers of its own, can be built for the SMTP server. *)
Definition C358_statement : Prop := forall Ctx (render : str -> Ctx -> option str) th c tt l m id,
  send_template render true true th c tt l = Handed m -> l_headers l = None -> l_paths l = None ->
  exists r, build (fun _ => None) (fun _ => false) id m = Done r.
(** It cannot be built if it has both a text and a HTML body, and so whenever the HTML has some words. *)
Theorem C358_never : forall Ctx (render : str -> Ctx -> option str) ht cf th c tt l m file multiline id r text html,
  send_template render ht cf th c tt l = Handed m -> bodies render th c tt text html -> text <> [] -> html <> [] -> build file multiline id m <> Done r.
Proof.
  intros Ctx render ht cf th c tt l m file multiline id r text html H B NT NH. apply C357_handed in H as (_ & _ & t & h & (B1 & B2) & _ & _ & ->). destruct B as [B3 B4].
  rewrite B1 in B3. injection B3 as ->. assert (t = text).
  { destruct B2 as [(a & A1 & A2 & A3)|[A ->]], B4 as [(b & E1 & E2 & E3)|[E ->]]; [congruence|destruct E; congruence|destruct A; congruence|reflexivity]. }
  subst t. apply C146_both_fail. unfold both. cbn [body_text body_html]. destruct text as [|x text]; [destruct (NT eq_refl)|]. destruct html as [|y html]; [destruct (NH eq_refl)|]. cbn. eauto 8.
Qed.
Print Assumptions C358_never.
Theorem C358_refuted : ~ C358_statement.
Proof.
  intros H. assert (E : exists m, send_template jinja true true (u "w.html") (u "Ann") None {| l_subject := u "Hi"; l_to := [u "a@b.c"]; l_from := None; l_reply_to := None; l_headers := None; l_cc := None; l_bcc := None; l_attachments := None; l_paths := None |} = Handed m) by (eexists; reflexivity).
  destruct E as (m & E). destruct (H _ _ _ _ _ _ _ [] E eq_refl eq_refl) as (r & R).
  refine (C358_never _ _ _ _ _ _ _ _ _ _ _ _ _ (u "Hello Ann") (u "<p>Hello Ann</p>") E _ _ _ R); [|vm_compute; discriminate|vm_compute; discriminate].
  split; [reflexivity|]. right. split; [left; reflexivity|vm_compute; reflexivity].
Qed.
Print Assumptions C358_refuted.
(** It can be built if one of the bodies is empty and no header has several lines. *)
Theorem C358_partial : forall Ctx (render : str -> Ctx -> option str) th c tt l m id,
  send_template render true true th c tt l = Handed m -> l_headers l = None -> l_paths l = None ->
  body_text m = Some [] \/ body_html m = Some [] -> exists r, build (fun _ => None) (fun _ => false) id m = Done r.
Proof.
  intros Ctx render th c tt l m id H HH HP B. apply C357_handed in H as (_ & _ & text & html & _ & _ & _ & ->). rewrite HH, HP. apply C146_builds_partial.
  - intros [(x & t & T) (y & h & E)]. cbn [body_text body_html] in *. destruct B as [B|B]; congruence.
  - intros t x y [].
  - intros f [].
  - reflexivity.
  - reflexivity.
  - unfold own_headers. cbn [headers subject sender to cc reply_to]. rewrite app_nil_r.
    set (cs := match l_cc l with Some x => x | None => [] end). set (rs := match l_reply_to l with Some x => x | None => [] end). clearbody cs rs.
    assert (D : forall f t c0 r : bool, NoDup (map lower ([u "Subject"] ++ (if f then [u "From"] else []) ++ (if t then [u "To"] else []) ++ (if c0 then [u "Cc"] else []) ++ (if r then [u "Reply-To"] else [])))).
    { intros [] [] [] []; vm_compute; repeat (constructor; [cbn; intuition discriminate|]); constructor. }
    assert (E : map (fun h => lower (fst h)) ([(u "Subject", l_subject l)] ++ match l_from l with Some (c0 :: s) => [(u "From", c0 :: s)] | _ => [] end ++ (if nonempty (l_to l) then [(u "To", joined (l_to l))] else []) ++ (if nonempty cs then [(u "Cc", joined cs)] else []) ++ (if nonempty rs then [(u "Reply-To", joined rs)] else []))
      = map lower ([u "Subject"] ++ (if some_text (l_from l) then [u "From"] else []) ++ (if nonempty (l_to l) then [u "To"] else []) ++ (if nonempty cs then [u "Cc"] else []) ++ (if nonempty rs then [u "Reply-To"] else []))).
    { destruct (l_from l) as [[|x s]|], (nonempty (l_to l)), (nonempty cs), (nonempty rs); reflexivity. }
    rewrite E. apply D.
Qed.
Print Assumptions C358_partial.
Definition plain_jinja (t name : str) : option str := if seqb t (u "i.html") then Some (u "<img src=x>") else None.
Example C358_case : exists m, send_template plain_jinja true true (u "i.html") [] None {| l_subject := u "Hi"; l_to := [u "a@b.c"]; l_from := Some (u "f@b.c"); l_reply_to := None; l_headers := None; l_cc := Some [u "x@y.z"]; l_bcc := None; l_attachments := None; l_paths := None |} = Handed m
  /\ body_text m = Some [] /\ body_html m = Some (u "<img src=x>").
Proof. eexists. split; [vm_compute; reflexivity|]. vm_compute. auto. Qed.
