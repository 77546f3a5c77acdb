(** Model of the middlewares that harden responses: lilya/middleware/security.py,
    lilya/middleware/clickjacking.py, and of the bridge to WSGI applications,
    lilya/middleware/wsgi.py. *)
From Verif Require Import PyStr HeaderModel.

(** str.split() without arguments: the runs of characters that are not [sp]. *)
Fixpoint words_from (sp : N -> bool) (cur : str) (s : str) : list str :=
  match s with
  | [] => match cur with [] => [] | _ => [cur] end
  | c :: r => if sp c then match cur with [] => words_from sp [] r | _ => cur :: words_from sp [] r end
              else words_from sp (cur ++ [c]) r
  end.
Definition words (sp : N -> bool) (s : str) : list str := words_from sp [] s.

(** The policy: a text, or a dict whose values are texts or lists of texts. *)
Inductive content := One (s : str) | Many (l : list str).
Inductive policy := PText (s : str) | PDict (d : list (str * content)).

(** security.py:37-44: the directives of a text; a later one replaces an earlier one of that name in
    its place. *)
Definition sections (s : str) : dict str :=
  fold_left (fun d part => match words is_space (strip part) with [] => d | k :: ws => dset k (join (u " ") ws) d end)
    (split_char 59 s) [].
(** security.py:46-54. *)
Definition render (l : list (str * str)) : str := join (u "; ") (map (fun e => fst e ++ u " " ++ snd e) l).
Definition flat (c : content) : str := match c with One s => s | Many l => join (u " ") l end.
(** security.py:11-54 [parse_content_policy]. *)
Definition parse_content_policy (p : policy) : str :=
  match p with
  | PText s => render (sections s)
  | PDict d => render (map (fun e => (fst e, flat (snd e))) d)
  end.

(** Messages of an application; the start of a denial response is "websocket.http.response.start". *)
Inductive message := Start (st : Z) (h : headers) | Body (b : str) (more : bool) | DenialStart (st : Z) (h : headers) | Other (t : str).

(** security.py:62-93. *)
Record config := { csp : policy; coop : str; referrer : str; hsts : str; nosniff : str; frame : str; xss : str }.
(** security.py:113-137 [process_response]. *)
Definition secured (c : config) (h : headers) : headers :=
  let p := parse_content_policy (csp c) in
  hadd (u "X-XSS-Protection") (xss c)
    (hadd (u "X-Frame-Options") (frame c)
      (hadd (u "X-Content-Type-Options") (nosniff c)
        (hadd (u "Strict-Transport-Security") (hsts c)
          (hadd (u "Referrer-Policy") (referrer c)
            (hadd (u "Cross-Origin-Opener-Policy") (coop c)
              (hadd (u "Content-Security-Policy") p h)))))).
Definition security_send (c : config) (m : message) : message :=
  match m with Start st h => Start st (secured c h) | _ => m end.
(** security.py:95-111 [__call__] on http and websocket scopes: what the application sends, in its
    order, each through [send_wrapper]. *)
Definition security (c : config) (ms : list message) : list message := map (security_send c) ms.

(** clickjacking.py:52-63 [get_xframe_options]; the setting is a text or something else. *)
Definition xframe (setting : option str) : str := match setting with Some s => upper s | None => u "DENY" end.
(** clickjacking.py:34-50. *)
Definition click_send (setting : option str) (m : message) : message :=
  match m with
  | Start st h => Start st (match hget (u "X-Frame-Options") h with None => hadd (u "X-Frame-Options") (xframe setting) h | Some _ => h end)
  | _ => m
  end.
(** clickjacking.py:13-32. *)
Definition clickjacking (setting : option str) (ms : list message) : list message := map (click_send setting) ms.

(** wsgi.py:86-135 [BufferedWSGIResponder.__call__].  [buffer] is what a2wsgi sent for the WSGI
    application (74-84); classes are numbers, [exc_class] is [exception_class], [handlers] is
    [app.exception_handlers], and [answer] is what a handler's response sends.  [decode] is the
    decoding of the body (utf-8, errors ignored). *)
Definition body_of (m : message) : str := match m with Body b _ => b | _ => [] end.
Fixpoint first_start (ms : list message) : option Z :=
  match ms with [] => None | Start st _ :: _ => Some st | _ :: r => first_start r end.
Definition handler_for (handlers : list (nat * nat)) (c : nat) : option nat := option_map snd (List.find (fun e => (fst e =? c)%nat) handlers).
Definition buffered (decode : str -> str) (answer : nat -> Z -> str -> list message) (handlers : list (nat * nat)) (exc_class : nat)
    (buffer : list message) : list message :=
  let body := concat (map body_of buffer) in
  match first_start buffer with
  | Some st =>
      if (400 <=? st)%Z then
        match handler_for handlers exc_class with
        | Some h => answer h st (decode body)
        | None => buffer
        end
      else buffer
  | None => buffer
  end.
(** wsgi.py:182-220 [WSGIMiddleware.__call__]. *)
Definition wsgi (redirect_exceptions : bool) decode answer handlers exc_class (buffer : list message) : list message :=
  if redirect_exceptions then buffered decode answer handlers exc_class buffer else buffer.
