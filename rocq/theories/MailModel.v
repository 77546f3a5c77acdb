(** Model of lilya/contrib/mail: the mailer, the building of messages, the SMTP connection, the files and the plain
    text made from HTML. *)
From Coq Require Import List NArith Bool Lia.
From Verif Require Import PyStr.
Import ListNotations.

(** message.py:12-50 [EmailMessage].  Texts and bytes are both lists of numbers.  [meta] is left out. *)
Record mail := {
  subject : str; to : list str; sender : option str; body_text : option str; body_html : option str;
  alternatives : list (str * str); cc : list str; bcc : list str; reply_to : list str;
  attachments : list (str * str * option str); attachment_paths : list str; headers : list (str * str) }.

(** message.py:52-65 [all_recipients]. *)
Definition all_recipients (m : mail) : list str := to m ++ cc m ++ bcc m.

(** Truth of an optional text. *)
Definition some_text (o : option str) : bool := match o with Some (_ :: _) => true | _ => false end.
Definition nonempty {A} (l : list A) : bool := match l with [] => false | _ => true end.

Inductive mfault := MType | MValue | MFile | MInvalid | MUnconfigured | MClosed | MServer.
Inductive mres (A : Type) := Done (a : A) | Fault (f : mfault).
Arguments Done {A}. Arguments Fault {A}.

(** Parts of a MIME message: a leaf with its type, content, file name and whether it is marked as attachment. *)
Inductive part :=
| Leaf (maintype subtype content : str) (name : option str) (attached : bool)
| Multi (subtype : str) (parts : list part).

(** email/message.py:1135-1188 of the standard library: [add_alternative] and [add_attachment] with one new part.
    The content so far is [None] before anything is set. *)
Definition add_alternative (c : option part) (p : part) : mres part :=
  match c with
  | Some (Multi s ps) =>
      if seqb s (u "alternative") then Done (Multi s (ps ++ [p]))
      else if seqb s (u "mixed") then Fault MValue
      else Done (Multi (u "alternative") [Multi s ps; p])
  | Some q => Done (Multi (u "alternative") [q; p])
  | None => Done (Multi (u "alternative") [p])
  end.
Definition add_attachment (c : part) (p : part) : part :=
  match c with
  | Multi s ps => if seqb s (u "mixed") then Multi s (ps ++ [p]) else Multi (u "mixed") [c; p]
  | _ => Multi (u "mixed") [c; p]
  end.

(** smtp.py:14-24 [_add_alternative]: the content is bytes, and the standard library's [set_bytes_content]
    (email/contentmanager.py:230) has a parameter [maintype] without default that is not given. *)
Definition add_bytes_alternative (c : part) (subtype content : str) : mres part := Fault MType.

Section World.
  (** The content of a file, or [None] if it cannot be read. *)
  Variable file : str -> option str.
  (** Whether the standard library takes a header value for several lines (email/policy.py, [header_store_parse]). *)
  Variable multiline : str -> bool.

  (** email/headerregistry.py: the names that a message has at most once. *)
  Definition once : list str :=
    [u "subject"; u "date"; u "from"; u "sender"; u "to"; u "cc"; u "bcc"; u "reply-to"; u "message-id";
     u "mime-version"; u "content-type"; u "content-transfer-encoding"; u "content-disposition"].

  Definition has_header (hs : list (str * str)) (n : str) : bool :=
    existsb (fun h => seqb (lower (fst h)) (lower n)) hs.

  (** email/message.py [__setitem__] of the standard library. *)
  Definition put_header (hs : list (str * str)) (n v : str) : mres (list (str * str)) :=
    if smem (lower n) once && has_header hs n then Fault MValue
    else if multiline v then Fault MValue
    else Done (hs ++ [(n, v)]).

  Fixpoint put_headers (hs : list (str * str)) (new : list (str * str)) : mres (list (str * str)) :=
    match new with
    | [] => Done hs
    | (n, v) :: new' => match put_header hs n v with Done hs' => put_headers hs' new' | Fault f => Fault f end
    end.

  Definition text_leaf (subtype content : str) : part := Leaf (u "text") subtype content None false.

  (** smtp.py:63-73: the body. *)
  Definition body_part (m : mail) : mres part :=
    match some_text (body_text m), some_text (body_html m), body_text m, body_html m with
    | true, true, Some t, Some h => add_bytes_alternative (text_leaf (u "plain") t) (u "html") h
    | _, true, _, Some h => add_alternative None (text_leaf (u "html") h)
    | true, _, Some t, _ => Done (text_leaf (u "plain") t)
    | _, _, _, _ => Done (text_leaf (u "plain") [])
    end.

  (** smtp.py:78-80: [partition("/")]. *)
  Definition media (t : str) : str * str :=
    match split1 47 t with
    | Some (a, c :: b) => (a, c :: b)
    | _ => (u "application", u "octet-stream")
    end.

  (** smtp.py:75-84. *)
  Fixpoint add_alternatives (p : part) (l : list (str * str)) : mres part :=
    match l with
    | [] => Done p
    | (t, c) :: l' =>
        let ab := media t in
        if seqb (fst ab) (u "text") then
          match add_bytes_alternative p (snd ab) c with Done p' => add_alternatives p' l' | Fault f => Fault f end
        else add_alternatives (add_attachment p (Leaf (fst ab) (snd ab) c None true)) l'
    end.

  (** smtp.py:87-95: [mimetype.split("/", 1)]. *)
  Definition attachment_type (t : option str) : str * str :=
    match t with
    | Some s => match split1 47 s with Some ab => ab | None => (u "application", u "octet-stream") end
    | None => (u "application", u "octet-stream")
    end.
  Definition add_blobs (p : part) (l : list (str * str * option str)) : part :=
    fold_left (fun p x => let ab := attachment_type (snd x) in
      add_attachment p (Leaf (fst ab) (snd ab) (snd (fst x)) (Some (fst (fst x))) true)) l p.

  (** smtp.py:98-106. *)
  Definition base_name (path : str) : str := last (split_char 47 path) [].
  Fixpoint add_files (p : part) (l : list str) : mres part :=
    match l with
    | [] => Done p
    | f :: l' =>
        match file f with
        | None => Fault MFile
        | Some c => add_files (add_attachment p (Leaf (u "application") (u "octet-stream") c (Some (base_name f)) true)) l'
        end
    end.

  Definition joined (l : list str) : str := join (u ", ") l.

  (** smtp.py:46-61: the headers in the order they are set.  Simplified: own headers named "Content-..." are kept
      like the others. *)
  Definition own_headers (m : mail) : list (str * str) :=
    [(u "Subject", subject m)] ++
    (match sender m with Some (c :: s) => [(u "From", c :: s)] | _ => [] end) ++
    (if nonempty (to m) then [(u "To", joined (to m))] else []) ++
    (if nonempty (cc m) then [(u "Cc", joined (cc m))] else []) ++
    (if nonempty (reply_to m) then [(u "Reply-To", joined (reply_to m))] else []) ++
    headers m.

  (** smtp.py:27-111 [build_email_message]; [id] is what [make_msgid] gives. *)
  Definition build (id : str) (m : mail) : mres (list (str * str) * part) :=
    match put_headers [] (own_headers m) with
    | Fault f => Fault f
    | Done hs =>
        match body_part m with
        | Fault f => Fault f
        | Done b =>
            match add_alternatives b (alternatives m) with
            | Fault f => Fault f
            | Done b1 =>
                match add_files (add_blobs b1 (attachments m)) (attachment_paths m) with
                | Fault f => Fault f
                | Done b2 =>
                    if has_header hs (u "Message-Id") then Done (hs, b2)
                    else match put_header hs (u "Message-Id") id with
                         | Done hs' => Done (hs', b2)
                         | Fault f => Fault f
                         end
                end
            end
        end
    end.

  (** mailer.py:72-95 [Mailer.send]: what the backend is handed, or the exception. *)
  Definition mailer_send (configured : bool) (m : mail) : mres mail :=
    if negb configured then Fault MUnconfigured
    else if negb (nonempty (all_recipients m)) then Fault MInvalid
    else if negb (some_text (body_text m) || some_text (body_html m) || nonempty (alternatives m) ||
                  nonempty (attachments m) || nonempty (attachment_paths m)) then Fault MInvalid
    else Done m.

  (** mailer.py:97-109 [Mailer.send_many]. *)
  Definition mailer_send_many (configured : bool) (ms : list mail) : mres (list mail) :=
    if negb configured then Fault MUnconfigured else Done ms.

  (** smtp.py:114-190 [_SMTPConnection]: the client, if any, with whether the server still answers it; how many have
      been opened; what the server has accepted, with the recipients. *)
  Record conn := { client : option (nat * bool); opened : nat; accepted : list ((list (str * str) * part) * list str) }.
  Definition unconnected : conn := {| client := None; opened := 0; accepted := [] |}.

  (** The operations, each with what the server does: whether it lets the client connect, answers to QUIT, or takes
      the message; and the loss of the connection. *)
  Inductive cop :=
  | COpen (lets : bool)
  | CClose (answers : bool)
  | CSend (m : list (str * str) * part) (rs : list str) (takes : bool)
  | CDrop.

  Definition cstep (s : conn) (o : cop) : conn * option mfault :=
    match o with
    | COpen lets =>
        match client s with
        | Some _ => (s, None)
        | None =>
            if lets then ({| client := Some (opened s, true); opened := S (opened s); accepted := accepted s |}, None)
            else (s, Some MServer)
        end
    | CClose answers =>
        match client s with
        | None => (s, None)
        | Some (n, works) =>
            if works && answers then ({| client := None; opened := opened s; accepted := accepted s |}, None)
            else ({| client := Some (n, false); opened := opened s; accepted := accepted s |}, Some MServer)
        end
    | CSend m rs takes =>
        match client s with
        | None => (s, Some MClosed)
        | Some (n, works) =>
            if works && takes then
              ({| client := client s; opened := opened s; accepted := accepted s ++ [(m, rs)] |}, None)
            else (s, Some MServer)
        end
    | CDrop =>
        match client s with
        | Some (n, _) => ({| client := Some (n, false); opened := opened s; accepted := accepted s |}, None)
        | None => (s, None)
        end
    end.
  Fixpoint cruns (s : conn) (os : list cop) : conn :=
    match os with [] => s | o :: os' => cruns (fst (cstep s o)) os' end.

  (** smtp.py:229-231, 245-246: the default sender is written into the message. *)
  Definition with_sender (default : option str) (m : mail) : mail :=
    if some_text (sender m) then m
    else if some_text default then
      {| subject := subject m; to := to m; sender := default; body_text := body_text m; body_html := body_html m;
         alternatives := alternatives m; cc := cc m; bcc := bcc m; reply_to := reply_to m;
         attachments := attachments m; attachment_paths := attachment_paths m; headers := headers m |}
    else m.

  (** smtp.py:222-233 [SMTPBackend.send]: the message as it is afterwards, the connection, and the exception.
      [takes] is what the server does with the message. *)
  Definition smtp_send (id : str) (default : option str) (s : conn) (m : mail) (takes : bool) :
      mail * conn * option mfault :=
    let m' := with_sender default m in
    match build id m' with
    | Fault f => (m', s, Some f)
    | Done b => let r := cstep s (CSend b (all_recipients m') takes) in (m', fst r, snd r)
    end.

  (** smtp.py:235-248 [SMTPBackend.send_many]. *)
  Fixpoint smtp_send_many (id : str) (default : option str) (s : conn) (ms : list (mail * bool)) :
      conn * option mfault :=
    match ms with
    | [] => (s, None)
    | (m, takes) :: ms' =>
        match smtp_send id default s m takes with
        | (_, s', None) => smtp_send_many id default s' ms'
        | (_, s', Some f) => (s', Some f)
        end
    end.

  (** One message sent by several backends, one after the other, over connections that work: the sender each one
      gives it. *)
  Fixpoint senders (defaults : list (option str)) (m : mail) : list (option str) :=
    match defaults with
    | [] => []
    | d :: ds => let m' := with_sender d m in sender m' :: senders ds m'
    end.
End World.

(** file.py:45-57: the name of the file, for a time stamp; [alnum] is [str.isalnum] of one character. *)
Section Files.
  Variable alnum : N -> bool.
  Definition safe_subject (s : str) : str :=
    let s := match s with [] => u "no-subject" | _ => s end in
    firstn 60 (filter (fun c => alnum c || N.eqb c 45 || N.eqb c 95) s).
  Definition file_name (stamp subject : str) : str := stamp ++ u "-" ++ safe_subject subject ++ u ".eml".
End Files.

(** templates.py:30-31: one match of [<\s*br\s*/?>] or [</\s*p\s*>] at the head of the text, ignoring case: what
    follows it. *)
Definition skip_space (s : str) : str := lstrip_by is_space s.
Definition expect (c : N) (s : str) : option str :=
  match s with a :: s' => if N.eqb (lower_c a) c then Some s' else None | [] => None end.
Definition bind {A B} (o : option A) (f : A -> option B) : option B := match o with Some a => f a | None => None end.
Definition match_br (s : str) : option str :=
  bind (expect 60 s) (fun s => bind (expect 98 (skip_space s)) (fun s => bind (expect 114 s) (fun s =>
    let s := skip_space s in
    match expect 47 s with Some s' => expect 62 s' | None => expect 62 s end))).
Definition match_p (s : str) : option str :=
  bind (expect 60 s) (fun s => bind (expect 47 s) (fun s => bind (expect 112 (skip_space s)) (fun s =>
    expect 62 (skip_space s)))).
(** templates.py:34: one match of [<[^>]+>]. *)
Definition match_tag (s : str) : option str :=
  bind (expect 60 s) (fun s =>
    match s with
    | [] => None
    | c :: _ => if N.eqb c 62 then None else match split1 62 s with Some (_, r) => Some r | None => None end
    end).

(** [re.sub] for such a match; the fuel is the length of the text. *)
Fixpoint sub (f : str -> option str) (rep : str) (n : nat) (s : str) : str :=
  match n with
  | O => s
  | S n' =>
      match f s with
      | Some r => rep ++ sub f rep n' r
      | None => match s with [] => [] | c :: s' => c :: sub f rep n' s' end
      end
  end.
Definition re_sub (f : str -> option str) (rep s : str) : str := sub f rep (length s) s.

(** templates.py:37: one match of [\s+\n]: the white space up to the last line feed of the run, which is not its
    first character. *)
Definition space_run (s : str) : str := firstn (length s - length (skip_space s)) s.
Definition match_space_lf (s : str) : option str :=
  match rsplit1 10 (space_run s) with
  | Some (_ :: _, b) => Some (b ++ skip_space s)
  | _ => None
  end.
(** templates.py:38: one match of [\n\s+]. *)
Definition match_lf_space (s : str) : option str :=
  match s with
  | 10%N :: s' => match s' with c :: _ => if is_space c then Some (skip_space s') else None | [] => None end
  | _ => None
  end.

(** templates.py:9-40 [_html_to_text_simple]. *)
Definition html_to_text (h : str) : str :=
  let h := re_sub match_br [10%N] h in
  let h := re_sub match_p [10%N; 10%N] h in
  let t := re_sub match_tag [] h in
  let t := re_sub match_space_lf [10%N] t in
  let t := re_sub match_lf_space [10%N] t in
  strip t.
