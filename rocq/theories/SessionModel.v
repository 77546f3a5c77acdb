(** Model of [SessionMiddleware] (lilya/middleware/sessions.py) over itsdangerous' [TimestampSigner],
    of [SessionFixingMiddleware] (lilya/middleware/session_fixing.py) and of [SessionContextMiddleware]
    (lilya/middleware/session_context.py). *)
From Verif Require Import PyStr Utf8 Asgi HeaderModel CookieModel Base64.

Section Sessions.
Context {V : Type}.

(** What the code calls: HMAC with the secret key and the serializer ([dumps] gives bytes).  [None] is an
    exception of theirs. *)
Record senv := { mac : str -> str; dumps : dict V -> option str; loads : str -> option (dict V) }.
(** itsdangerous [TimestampSigner]: the text of a time, and the time of a text. *)
Definition ts_text (t : N) : str := base64_encode (int_to_bytes t).
Definition ts_parse (s : str) : option N := match base64_decode s with Some b => Some (bytes_to_int b) | None => None end.

(** itsdangerous [TimestampSigner.sign] at a time. *)
Definition sign (e : senv) (now : N) (d : str) : str :=
  let p := d ++ u "." ++ ts_text now in p ++ u "." ++ base64_encode (mac e p).
(** itsdangerous [TimestampSigner.unsign] at a time; [None] is a BadSignature (also of an expired text,
    a text without timestamp or one from the future). *)
Definition unsign (e : senv) (now : N) (max : option N) (s : str) : option str :=
  match rsplit1 46 s with
  | None => None
  | Some (p, sig) =>
      match base64_decode sig with
      | None => None
      | Some x =>
          if seqb x (mac e p) then
            match rsplit1 46 p with
            | None => None
            | Some (v, ts) =>
                match ts_parse ts with
                | None => None
                | Some t => match max with
                            | Some m => if (t + m <? now)%N || (now <? t)%N then None else Some v
                            | None => Some v
                            end
                end
            end
          else None
      end
  end.

(** sessions.py:20-64: the settings; [s_max_age] is not negative. *)
Record sconfig := {
  s_cookie : str; s_max_age : option N; s_path : str; s_same_site : str; s_https : bool; s_domain : option str }.
(** sessions.py:55-59. *)
Definition security_flags (c : sconfig) : str :=
  u "httponly; samesite=" ++ s_same_site c ++ (if s_https c then u "; secure" else [])
  ++ match s_domain c with Some d => u "; domain=" ++ d | None => [] end.

(** sessions.py:99-117 [load_session_data] and 90-91 [decode_session]: the session and whether it was
    empty or invalid; [None] is an exception that leaves the middleware. *)
Definition load_session (order : list str -> list str) (e : senv) (c : sconfig) (now : N) (h : headers) : option (dict V * bool) :=
  match dget (s_cookie c) (request_cookies order h) with
  | None => Some ([], true)
  | Some data =>
      match unsign e now (s_max_age c) (utf8_enc data) with
      | None => Some ([], true)
      | Some v => match b64decode v with
                  | None => None
                  | Some j => match loads e j with None => None | Some s => Some (s, false) end
                  end
      end
  end.

(** sessions.py:137-158, the two Set-Cookie lines. *)
Definition session_line (c : sconfig) (data : str) : str :=
  s_cookie c ++ u "=""" ++ data ++ u """; path=" ++ s_path c ++ u "; "
  ++ match s_max_age c with Some m => if N.eqb m 0 then [] else u "Max-Age=" ++ dec m ++ u "; " | None => [] end
  ++ security_flags c.
Definition deletion_line (c : sconfig) : str :=
  s_cookie c ++ u "=null; path=" ++ s_path c ++ u "; expires=Thu, 01 Jan 1970 00:00:00 GMT; " ++ security_flags c.
(** sessions.py:119-160 [process_response] on the headers of a start message; [None]: the session could
    not be serialized. *)
Definition process_start (e : senv) (c : sconfig) (now : N) (was_empty : bool) (session : dict V) (h : headers) : option headers :=
  if forallb (fun l => negb (prefixb (s_cookie c ++ u "=") l)) (hgetall (u "set-cookie") h) then
    match session with
    | [] => Some (if was_empty then h else hadd (u "set-cookie") (deletion_line c) h)
    | _ => match dumps e session with
           | None => None
           | Some j => Some (hadd (u "set-cookie") (session_line c (sign e now (b64encode j))) h)
           end
    end
  else Some h.

(** What an application does with its session and its [send]: it gives the session a content, or sends a
    message. *)
Inductive act := Sets (s : dict V) | Emits (m : amsg).
(** sessions.py:84-88: the application with [send_wrapper].  The result: what was sent, the session at the
    end, and whether a message could not be processed (the run then ends with the exception). *)
Fixpoint run_app (order : list str -> list str) (e : senv) (c : sconfig) (now : N) (was_empty : bool) (acts : list act) (session : dict V)
  : list amsg * dict V * bool :=
  match acts with
  | [] => ([], session, true)
  | Sets s :: r => run_app order e c now was_empty r s
  | Emits (AStart st h) :: r =>
      match process_start e c now was_empty session h with
      | None => ([], session, false)
      | Some h' => let '(out, s, ok) := run_app order e c now was_empty r session in (AStart st (wire order h') :: out, s, ok)
      end
  | Emits m :: r => let '(out, s, ok) := run_app order e c now was_empty r session in (m :: out, s, ok)
  end.
(** sessions.py:66-88 [__call__] for a http request; [pop] is what populate_session returns for it, if it
    is given.  The result: the session the application finds, then that of [run_app]. *)
Definition serve (order : list str -> list str) (e : senv) (c : sconfig) (now : N) (pop : option (dict V)) (h : headers) (app : dict V -> list act)
  : option (dict V * (list amsg * dict V * bool)) :=
  match load_session order e c now h with
  | None => None
  | Some (s, was_empty) =>
      let s := match pop with Some d => if was_empty then dupdate s d else s | None => s end in
      Some (s, run_app order e c now was_empty (app s) s)
  end.

(** ** session_fixing.py:34-79 *)
Inductive notice := Notice (old_session : dict V) (old_ip : option V) (new_session : dict V) (new_ip : V).
(** The session the application gets and the call of notify_fn, if it is given.  [eqv] is Python's
    equality of values, [is_none] tests for None. *)
Definition fix_session (eqv : V -> V -> bool) (is_none : V -> bool) (notify : bool) (ip : V) (s : dict V) : dict V * list notice :=
  let key := u "real-clientip" in
  let fresh := dset key ip s in
  let other old := ([(key, ip)], if notify then [Notice s (Some old) [(key, ip)] ip] else []) in
  match dget key s with
  | None => (fresh, if notify then [Notice fresh None fresh ip] else [])
  | Some old => if is_none old then (fresh, if notify then [Notice fresh None fresh ip] else [])
                else if eqv old ip then (s, []) else other old
  end.
(** session_fixing.py:34-79 around an application: the session is changed before the application runs. *)
Definition fixing (eqv : V -> V -> bool) (is_none : V -> bool) (notify : bool) (ip : V) (app : dict V -> list act) (s : dict V) : list act :=
  let s' := fst (fix_session eqv is_none notify ip s) in Sets s' :: app s'.
End Sessions.
Arguments senv : clear implicits.
Arguments act : clear implicits.
Arguments notice : clear implicits.

(** ** session_context.py *)
(** Session values here: a part of the session, or another value. *)
Inductive sval (A : Type) := Part (d : dict A) | Plain (a : A).
Arguments Part {A}. Arguments Plain {A}.
(** What the application does: gives its part of the session a content, or sends a message. *)
Inductive sact (A : Type) := Fill (d : dict A) | Sent (m : amsg).
Arguments Fill {A}. Arguments Sent {A}.
(** session_context.py:46-60: the clean-up, once. *)
Definition clean_part {A} (sub : str) (part : dict A) (global : dict (sval A)) : dict (sval A) :=
  match part with [] => ddel sub global | _ => dset sub (Part part) global end.
(** session_context.py:23-69 with a sub path.  The part is one object: what the application writes to it is
    at once in the global session, if it is still there.  The result lists the messages, each with the
    global session as it is when the message is sent on, and the global session at the end. *)
Fixpoint run_part {A} (sub : str) (started : bool) (acts : list (sact A)) (part : dict A) (global : dict (sval A))
  : list (amsg * dict (sval A)) * dict (sval A) :=
  match acts with
  | [] => ([], if started then global else clean_part sub part global)
  | Fill d :: r => run_part sub started r d (if dmem sub global then dset sub (Part d) global else global)
  | Sent m :: r =>
      let g := if started then global else clean_part sub part global in
      let '(out, g') := run_part sub true r part g in ((m, g) :: out, g')
  end.
(** [global_session.setdefault(sub, {})]; [None]: the value there is not a part (and is used as one). *)
Definition with_part {A} (sub : str) (global : dict (sval A)) (app : dict A -> list (sact A))
  : option (list (amsg * dict (sval A)) * dict (sval A)) :=
  match dget sub global with
  | Some (Plain _) => None
  | Some (Part d) => Some (run_part sub false (app d) d global)
  | None => Some (run_part sub false (app []) [] (dset sub (Part []) global))
  end.
