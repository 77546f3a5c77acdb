(** Model of [TrustedHostMiddleware] (lilya/middleware/trustedhost.py), [TrustedReferrerMiddleware]
    (lilya/middleware/trustedreferrer.py), [HTTPSRedirectMiddleware] (lilya/middleware/httpsredirect.py)
    and of client addresses (lilya/clientip.py, lilya/middleware/clientip.py). *)
From Verif Require Import PyStr Utf8 Asgi HeaderModel CorsModel UrlModel.

(** What a middleware does with a connection: calls the application, with the flag it put in the scope
    if any; answers itself; or lets an exception out. *)
Inductive outcome := Through (flag : option bool) | Answer (ms : list amsg) | Fails.

(** ** trustedhost.py *)
(** trustedhost.py:37-40: the assertions on the patterns ([__init__] fails otherwise). *)
Definition pattern_ok (p : str) : bool :=
  negb (cmem 42 (skipn 1 p)) && (negb (prefixb (u "*") p) || seqb p (u "*") || prefixb (u "*.") p).
Record host_config := { h_hosts : list str; h_www : bool; h_block : bool }.
(** [host.split(":")[0]]. *)
Definition first_part (c : N) (s : str) : str := match split_char c s with [] => [] | p :: _ => p end.
Definition host_of (s : scope) : str := first_part 58 (match hget (u "host") (s_headers s) with Some v => v | None => [] end).
Definition pattern_matches (host p : str) : bool :=
  seqb host p || (prefixb (u "*") p && suffixb (skipn 1 p) host).
(** trustedhost.py:71-89 [validate_host]; the list is the set of patterns in the order it is iterated. *)
Fixpoint validate_host (host : str) (ps : list str) (www : bool) : bool * bool :=
  match ps with
  | [] => (false, www)
  | p :: r => if pattern_matches host p then (true, www) else validate_host host r (www || seqb (u "www." ++ host) p)
  end.
(** responses.py:487-506 [RedirectResponse].  On a websocket scope the same messages carry the prefix
    "websocket."; it is left out. *)
Definition redirect (order : list str -> list str) (st : Z) (location : str) : list amsg :=
  respond order st (hset (u "location") (quote_location location) (fst (make_headers st [] (u "utf-8") None []))) [].
(** [url.replace(netloc=n)] and [url.replace(scheme=s, netloc=n)]. *)
Definition set_netloc (sch : option str) (n : str) : changes :=
  {| c_scheme := sch; c_netloc := Some n; c_path := None; c_query := None; c_fragment := None;
     c_host := None; c_port := None; c_user := None; c_pass := None |}.
Definition connection (s : scope) : bool := seqb (s_type s) (u "http") || seqb (s_type s) (u "websocket").
(** trustedhost.py:48-69 [__call__] and 91-113 [handle_invalid_host]. *)
Definition trusted_host (order : list str -> list str) (ip_ok : str -> bool) (c : host_config) (s : scope) : outcome :=
  if smem (u "*") (h_hosts c) || negb (connection s) then Through None
  else
    match validate_host (host_of s) (h_hosts c) false with
    | (true, _) => Through (Some true)
    | (false, www) =>
        if www && h_www c then
          match build_from_scope ip_ok s with
          | None => Fails
          | Some x => match url_replace ip_ok (set_netloc None (u "www." ++ p_netloc (split x))) x with
                      | None => Fails
                      | Some y => Answer (redirect order 303 (text y))
                      end
          end
        else if h_block c then Answer (plain_text order 400 (u "Invalid host header") [])
        else Through (Some false)
    end.

(** ** trustedreferrer.py *)
Record ref_config := { r_hosts : list str; r_same : bool; r_block : bool }.
(** trustedreferrer.py:72-101 [validate_referrer]; [None] is an exception. *)
Definition validate_referrer (ip_ok : str -> bool) (c : ref_config) (referrer host : str) : option bool :=
  if smem (u "*") (r_hosts c) then Some true
  else if empty referrer then Some (smem [] (r_hosts c))
  else
    match url_of ip_ok referrer with
    | None => None
    | Some x =>
        match hostname (p_netloc (split x)) with
        | None => Some false
        | Some n =>
            let rh := first_part 58 n in
            if r_same c && seqb rh host then Some true else Some (existsb (pattern_matches rh) (r_hosts c))
        end
    end.
(** trustedreferrer.py:49-70 [__call__]. *)
Definition trusted_referrer (order : list str -> list str) (ip_ok : str -> bool) (c : ref_config) (s : scope) : outcome :=
  if negb (connection s) then Through None
  else
    match validate_referrer ip_ok c (match hget (u "referer") (s_headers s) with Some v => v | None => [] end) (host_of s) with
    | None => Fails
    | Some ok => if r_block c && negb ok then Answer (plain_text order 400 (u "Invalid referrer") []) else Through (Some ok)
    end.

(** ** httpsredirect.py *)
(** httpsredirect.py:30-43 [_should_redirect]. *)
Definition should_redirect (s : scope) : bool :=
  connection s && (seqb (s_scheme s) (u "http") || seqb (s_scheme s) (u "ws")).
(** httpsredirect.py:45-59 [_build_redirect_url]; [netloc=None] prints as an empty authority. *)
Definition secure_scheme (s : str) : option str :=
  if seqb s (u "http") then Some (u "https") else if seqb s (u "ws") then Some (u "wss") else None.
Definition build_redirect_url (ip_ok : str -> bool) (s : scope) : option url :=
  match build_from_scope ip_ok s with
  | None => None
  | Some x =>
      let p := split x in
      match secure_scheme (if empty (p_scheme p) then u "http" else p_scheme p) with
      | None => None
      | Some sch =>
          let n := match port (p_netloc p) with
                   | Some (Some q) => if N.eqb q 80 || N.eqb q 443
                                      then match hostname (p_netloc p) with Some h => h | None => [] end
                                      else p_netloc p
                   | _ => p_netloc p
                   end in
          url_replace ip_ok (set_netloc (Some sch) n) x
      end
  end.
(** httpsredirect.py:14-28 [__call__]. *)
Definition https_redirect (order : list str -> list str) (ip_ok : str -> bool) (s : scope) : outcome :=
  if should_redirect s then
    match build_redirect_url ip_ok s with None => Fails | Some y => Answer (redirect order 307 (text y)) end
  else Through None.

(** ** clientip.py *)
(** The characters the two patterns stop at: a quote, ";", "," and a space. *)
Definition ends_token (c : N) : bool := N.eqb c 34 || N.eqb c 59 || N.eqb c 44 || N.eqb c 32.
(** clientip.py:9: [for="?([^";, ]+)], ignoring case, searched from the left. *)
Fixpoint forwarded_search (s : str) : option str :=
  match s with
  | [] => None
  | _ :: r =>
      if prefixb (u "for=") (lower s) then
        let t := skipn 4 s in
        let t := match t with c :: t' => if N.eqb c 34 then t' else t | [] => t end in
        match fst (span ends_token t) with [] => forwarded_search r | ip => Some ip end
      else forwarded_search r
  end.
(** clientip.py:10: [[ "]*([^";, ]+)], searched: the first run of other characters. *)
Fixpoint x_forwarded_search (s : str) : option str :=
  match s with
  | [] => None
  | c :: r => if ends_token c then x_forwarded_search r else Some (fst (span ends_token s))
  end.
(** clientip.py:15-26 [get_trusted_proxies]: everyone if "*" is listed. *)
Definition trusted (proxies : list str) (ip : str) : bool := smem (u "*") proxies || smem ip proxies.
(** clientip.py:12: [":[0-9]+$"] removed.  (The "$" also stands before a final line end, which an
    address does not have.) *)
Definition drop_port (s : str) : str :=
  match rsplit1 58 s with Some (a, d) => if negb (empty d) && forallb is_digit d then a else s | None => s end.
(** clientip.py:11: the same after a "]". *)
Definition drop_port6 (s : str) : str :=
  match rsplit1 58 s with
  | Some (a, d) => if negb (empty d) && forallb is_digit d && suffixb (u "]") a then a else s
  | None => s
  end.
Definition count (c : N) (s : str) : nat := length (filter (N.eqb c) s).
(** clientip.py:74-78. *)
Definition strip_port (ip : str) : str :=
  if cmem 46 ip && (count 58 ip <=? 1)%nat then drop_port ip
  else if cmem 58 ip then strip_by (fun c => N.eqb c 91 || N.eqb c 93) (drop_port6 ip)
  else ip.
(** clientip.py:29-80 [get_ip]; [peer] is the first item of scope["client"] ([None] without one); [None]
    is the ValueError. *)
Definition get_ip (proxies : list str) (clean_client clean_proxy : str -> str) (peer : option str) (h : headers) : option str :=
  let ip := match peer with Some (c :: r) => c :: r | _ => u "unix" end in
  let ip :=
    if trusted proxies (clean_proxy ip) then
      match hget (u "forwarded") h with
      | Some v => match forwarded_search v with Some x => x | None => ip end
      | None => match hget (u "x-forwarded-for") h with
                | Some v => match x_forwarded_search v with Some x => x | None => ip end
                | None => ip
                end
      end
    else ip in
  if seqb ip (u "unix") then None else Some (clean_client (strip_port ip)).
(** middleware/clientip.py:41-66: what [ClientIPMiddleware] puts in the scope, and the headers the
    application then sees. *)
Definition client_ip_scope (proxies : list str) (clean_client clean_proxy : str -> str) (peer : option str) (h : headers)
  : option (str * headers) :=
  match get_ip proxies clean_client clean_proxy peer h with
  | None => None
  | Some ip => Some (ip, hset (u "x-real-ip") ip h)
  end.
