(** Model of [get_or_set_csrf_token] and [ensure_csrf_cookie] (lilya/contrib/security/csrf.py:58-152) called by a handler
    behind [CSRFMiddleware], over CsrfModel. *)
From Coq Require Import List NArith.
From Verif Require Import PyStr HeaderModel CookieModel CsrfModel.
Import ListNotations.

(** security/csrf.py:83-114 [ensure_csrf_cookie], with the secret and the cookie of the middleware; the headers are those
    of the response, if one is given.  [random] is what [secrets.token_hex] gave. *)
Definition ensure (e : env) (c : config) (random : str) (response : option headers) : str * option headers :=
  let t := generate e (s_secret c) random in
  (t, match response with
      | Some h => Some (hadd (u "set-cookie") (strip (u " " ++ output_string (token_cookie c t))) h)
      | None => None
      end).
(** security/csrf.py:117-152 [get_or_set_csrf_token]: the token and the headers of the response afterwards. *)
Definition get_or_set (e : env) (c : config) (order : list str -> list str) (req : headers) (random : str) (response : option headers)
  : str * option headers :=
  match dget (s_cookie c) (request_cookies order req) with
  | Some (x :: r) => (x :: r, response)
  | _ => ensure e c random response
  end.
