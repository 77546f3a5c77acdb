(** Model of mails made from templates (lilya/contrib/mail/mailer.py, templates.py). *)
From Verif Require Import PyStr MailModel.

Section Templates.
(** Jinja: the text of a template in a context; [None] is its exception. *)
Context {Ctx : Type} (render : str -> Ctx -> option str).
(** templates.py:85-112 [render_pair]: the text and the HTML. *)
Definition render_pair (template_html : str) (context : Ctx) (template_text : option str) : option (str * str) :=
  match render template_html context with
  | None => None
  | Some html =>
      match template_text with
      | Some (c :: t) => match render (c :: t) context with Some text => Some (text, html) | None => None end
      | _ => Some (html_to_text html, html)
      end
  end.
(** What [send_template] is told besides the templates and the context; [None] is a parameter left out. *)
Record letter := {
  l_subject : str; l_to : list str; l_from : option str; l_reply_to : option (list str); l_headers : option (list (str * str));
  l_cc : option (list str); l_bcc : option (list str); l_attachments : option (list (str * str * option str)); l_paths : option (list str) }.
Definition or_none {A} (o : option (list A)) : list A := match o with Some l => l | None => [] end.
(** The exceptions: those of MailModel and of Jinja. *)
Inductive sending := Handed (m : mail) | Raised (f : mfault) | NoTemplate.
(** mailer.py:150-172 [Mailer.send_template]; [has_templates] and [configured] say whether there is a renderer and a backend. *)
Definition send_template (has_templates configured : bool) (template_html : str) (context : Ctx) (template_text : option str) (l : letter) : sending :=
  if negb has_templates then Raised MUnconfigured
  else
    match render_pair template_html context template_text with
    | None => NoTemplate
    | Some (text, html) =>
        let m := {| subject := l_subject l; to := l_to l; sender := l_from l; body_text := Some text; body_html := Some html; alternatives := [];
                    cc := or_none (l_cc l); bcc := or_none (l_bcc l); reply_to := or_none (l_reply_to l); attachments := or_none (l_attachments l);
                    attachment_paths := or_none (l_paths l); headers := or_none (l_headers l) |} in
        match mailer_send configured m with Done m' => Handed m' | Fault f => Raised f end
    end.
End Templates.
