(** Model of the security schemes (lilya/contrib/security/utils.py:13-19, errors.py, api_key/api_key.py,
    http/http.py, oauth2/oauth.py:350-369, 480-500, 605-621, open_id/openid_connect.py:55-75).
    Simplified: the text of the 401 is not modelled. *)
From Verif Require Import PyStr UrlModel HeaderModel CookieModel Base64.

(** What a scheme answers: the credentials, None, or a 401 with its WWW-Authenticate header. *)
Inductive answer (A : Type) := Found (x : A) | Nothing | Unauthorized (challenge : str).
Arguments Found {A} _. Arguments Nothing {A}. Arguments Unauthorized {A} _.
Definition refused {A} (auto_error : bool) (challenge : str) : answer A := if auto_error then Unauthorized challenge else Nothing.

(** utils.py:13-19 [get_authorization_scheme_param]. *)
Definition scheme_param (v : option str) : str * str :=
  match v with None => ([], []) | Some v => if empty v then ([], []) else partition 32 v end.
Definition authorization (h : headers) : option str := hget (u "Authorization") h.
Definition absent (v : option str) : bool := match v with None => true | Some v => empty v end.

(** api_key.py:51-60, 98-107, 147-156: the value found under the scheme's name. *)
Definition api_key (auto_error : bool) (v : option str) : answer str :=
  match v with
  | Some k => if empty k then refused auto_error (u "APIKey") else Found k
  | None => refused auto_error (u "APIKey")
  end.
(** A multidict's [get]: the first value. *)
Definition mget (k : str) (l : list (str * str)) : option str :=
  match List.find (fun e => seqb (fst e) k) l with Some e => Some (snd e) | None => None end.
Definition api_key_in_query (auto_error : bool) (name : str) (query : str) : answer str :=
  api_key auto_error (mget name (parse_qsl query)).
Definition api_key_in_header (auto_error : bool) (name : str) (h : headers) : answer str := api_key auto_error (hget name h).
Definition api_key_in_cookie (order : list str -> list str) (auto_error : bool) (name : str) (h : headers) : answer str :=
  api_key auto_error (dget name (request_cookies order h)).
(** http.py:78-98 [HTTPBase.__call__]. *)
Definition http_base (auto_error : bool) (challenge : str) (h : headers) : answer (str * str) :=
  if absent (authorization h) then refused auto_error challenge
  else
    let '(scheme, credentials) := scheme_param (authorization h) in
    if empty scheme || empty credentials then refused auto_error challenge else Found (scheme, credentials).
(** http.py:123-157 [HTTPBasic]. *)
Definition basic_challenge (realm : str) : str := if empty realm then u "Basic" else u "Basic realm=""" ++ realm ++ u """".
Definition ascii (s : str) : bool := forallb (fun c => N.ltb c 128) s.
Definition http_basic (auto_error : bool) (realm : str) (h : headers) : answer (str * str) :=
  let '(scheme, param) := scheme_param (authorization h) in
  if absent (authorization h) || negb (seqb (lower scheme) (u "basic")) then refused auto_error (basic_challenge realm)
  else
    match (if ascii param then b64decode param else None) with
    | None => Unauthorized (basic_challenge realm)
    | Some data =>
        if negb (ascii data) then Unauthorized (basic_challenge realm)
        else match split1 58 data with
             | None => Unauthorized (basic_challenge realm)
             | Some (username, password) => Found (username, password)
             end
    end.
(** http.py:186-203 [HTTPBearer]. *)
Definition http_bearer (auto_error : bool) (h : headers) : answer (str * str) :=
  if absent (authorization h) then refused auto_error (u "Bearer")
  else
    let '(scheme, credentials) := scheme_param (authorization h) in
    if (empty scheme || empty credentials) || negb (seqb (lower scheme) (u "bearer")) then refused auto_error (u "Bearer")
    else Found (scheme, credentials).
(** http.py:224-237 [HTTPDigest]. *)
Definition http_digest (auto_error : bool) (h : headers) : answer (str * str) :=
  let '(scheme, credentials) := scheme_param (authorization h) in
  if absent (authorization h) || empty scheme || empty credentials then refused auto_error (u "Digest")
  else if negb (seqb (lower scheme) (u "digest")) then Unauthorized (u "Digest")
  else Found (scheme, credentials).
(** oauth.py:360-369, openid_connect.py:66-75: the header itself.  The challenges differ. *)
Definition raw_authorization (auto_error : bool) (challenge : str) (h : headers) : answer str :=
  match authorization h with
  | Some v => if empty v then refused auto_error challenge else Found v
  | None => refused auto_error challenge
  end.
Definition oauth2 (auto_error : bool) (h : headers) : answer str := raw_authorization auto_error (u "Bearer") h.
Definition open_id (auto_error : bool) (h : headers) : answer str := raw_authorization auto_error (u "APIKey") h.
(** oauth.py:490-500, 612-621 [OAuth2PasswordBearer], [OAuth2AuthorizationCodeBearer]. *)
Definition oauth2_bearer (auto_error : bool) (h : headers) : answer str :=
  let '(scheme, param) := scheme_param (authorization h) in
  if negb (absent (authorization h)) && seqb (lower scheme) (u "bearer") then Found param else refused auto_error (u "Bearer").
