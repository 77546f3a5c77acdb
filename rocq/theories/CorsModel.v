(** Model of [CORSMiddleware] (lilya/middleware/cors.py). *)
From Verif Require Import PyStr Asgi HeaderModel.

(** The arguments (cors.py:16-27); None is the empty list.  The regular expression is given as the
    set of texts it matches in full; [c_sorted] is Python's [sorted] of a set of texts. *)
Record config := {
  c_origins : list str; c_methods : list str; c_headers : list str; c_credentials : bool;
  c_regex : option (str -> bool); c_private : bool; c_expose : list str; c_max_age : Z;
  c_sorted : list str -> list str }.

Definition acao : str := u "Access-Control-Allow-Origin".
(** lilya/enums.py:114-126, 129-137. *)
Definition cors_methods : list str :=
  [u "GET"; u "QUERY"; u "POST"; u "PUT"; u "PATCH"; u "DELETE"; u "HEAD"; u "OPTIONS"].
Definition standard_headers : list str := [u "Accept"; u "Accept-Language"; u "Content-Language"; u "Content-Type"].

(** cors.py:42-82 [__init__]. *)
Definition all_origins (c : config) : bool := smem (u "*") (c_origins c).
Definition all_headers (c : config) : bool := smem (u "*") (c_headers c).
Definition methods (c : config) : list str :=
  let m := match c_methods c with [] => [u "GET"] | m => m end in
  if smem (u "*") m then cors_methods else m.
Definition header_names (c : config) : list str := c_sorted c (standard_headers ++ c_headers c).
Definition explicit (c : config) : bool := negb (all_origins c) || c_credentials c.

(** cors.py:273-302 [get_simple_headers]. *)
Definition simple_headers (c : config) : dict str :=
  let d := [] in
  let d := if all_origins c then dset acao (u "*") d else d in
  let d := if c_credentials c then dset (u "Access-Control-Allow-Credentials") (u "true") d else d in
  let d := match c_expose c with [] => d | e => dset (u "Access-Control-Expose-Headers") (join (u ", ") e) d end in
  if c_private c then dset (u "Access-Control-Allow-Private-Network") (u "true") d else d.
(** cors.py:304-352 [get_preflight_headers]. *)
Definition preflight_headers (c : config) : dict str :=
  let d := [] in
  let d := if all_origins c then dset acao (u "*") d else d in
  let d := if c_credentials c then dset (u "Access-Control-Allow-Credentials") (u "true") d else d in
  let d := if c_private c then dset (u "Access-Control-Allow-Private-Network") (u "true") d else d in
  let d := if all_headers c then dset (u "Access-Control-Allow-Headers") (u "*") d
           else match header_names c with [] => d | h => dset (u "Access-Control-Allow-Headers") (join (u ", ") h) d end in
  let d := if explicit c then dset (u "Vary") (u "Origin") d else d in
  dset (u "Access-Control-Max-Age") (decz (c_max_age c)) (dset (u "Access-Control-Allow-Methods") (join (u ", ") (methods c)) d).

(** cors.py:117-133 [validate_origin]. *)
Definition validate_origin (c : config) (origin : str) : bool :=
  if all_origins c then true
  else if match c_regex c with Some re => re origin | None => false end then true
  else smem origin (c_origins c).

(** A [PlainText] response; the headers are a dict. *)
Definition plain_text (order : list str -> list str) (st : Z) (body : str) (h : dict str) : list amsg :=
  respond order st (fst (make_headers st body (u "utf-8") (Some (u "text/plain")) h)) body.

(** cors.py:135-173 [preflight_response]. *)
Definition headers_refused (c : config) (requested : str) : bool :=
  existsb (fun h => negb (smem (strip (lower h)) (map lower (header_names c)))) (split_char 44 requested).
Definition preflight_response (order : list str -> list str) (c : config) (origin method : str) (requested : option str) : list amsg :=
  let h := preflight_headers c in
  let '(h, f1) := if validate_origin c origin then (if explicit c then dset acao origin h else h, []) else (h, [u "origin"]) in
  let f2 := if smem method (methods c) then [] else [u "method"] in
  let '(h, f3) := match requested with
                  | Some r => if all_headers c then (dset (u "Access-Control-Allow-Headers") r h, [])
                              else (h, if headers_refused c r then [u "headers"] else [])
                  | None => (h, [])
                  end in
  match f1 ++ f2 ++ f3 with
  | [] => plain_text order 200 (u "OK") h
  | f => plain_text order 400 (u "Disallowed CORS " ++ join (u ", ") f) h
  end.
(** cors.py:175-214 [preflight_private_network_response]. *)
Definition private_response (order : list str -> list str) (c : config) (origin wanted : str) : list amsg :=
  let h := preflight_headers c in
  let e1 := if validate_origin c origin then [] else [u "origin"] in
  let e2 := if seqb wanted (u "true") && negb (c_private c) then [u "private-network"] else [] in
  match e1 ++ e2 with
  | [] => plain_text order 200 (u "Allowed") (dset acao origin h)
  | e => plain_text order 400 (u "Disallowed Private Network Access " ++ join (u ", ") e) h
  end.

(** [headers.update(d)]. *)
Definition hupdate (h : headers) (d : dict str) : headers := fold_left (fun h e => hset (fst e) (snd e) h) d h.
(** cors.py:257-271 [set_explicit_origin]. *)
Definition set_explicit_origin (h : headers) (origin : str) : headers :=
  let h := add_vary_header (u "Origin") (hset acao origin h) in
  match hget (u "Access-Control-Expose-Headers") h with
  | Some (_ :: _) => add_vary_header (u "Access-Control-Expose-Headers") h
  | _ => h
  end.
(** cors.py:231-255 [send] for a response start. *)
Definition simple_send (c : config) (req : headers) (origin : str) (h : headers) : headers :=
  let h := hupdate h (simple_headers c) in
  if all_origins c && hcontains (u "cookie") req then set_explicit_origin h origin
  else if negb (all_origins c) && validate_origin c origin then set_explicit_origin h origin
  else h.

(** cors.py:84-115 [__call__] of an http request around an application that would send [sent]: what
    the client gets, and whether the application was called. *)
Definition cors (order : list str -> list str) (c : config) (method : str) (req : headers) (sent : list amsg) : list amsg * bool :=
  match hget (u "origin") req with
  | None => (sent, true)
  | Some origin =>
      match seqb method (u "OPTIONS"), hget (u "access-control-request-method") req, hget (u "access-control-request-private-network") req with
      | true, Some m, _ => (preflight_response order c origin m (hget (u "access-control-request-headers") req), false)
      | true, None, Some w => (private_response order c origin w, false)
      | _, _, _ =>
          (map (fun m => match m with AStart st h => AStart st (wire order (simple_send c req origin h)) | b => b end) sent, true)
      end
  end.
