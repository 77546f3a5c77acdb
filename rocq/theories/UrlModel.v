(** Model of [URL] (lilya/datastructures.py:312-640) over urllib.parse's [urlsplit] and [urlunsplit]
    (CPython 3.11).  A result [None] is the ValueError the Python code raises. *)
From Verif Require Import PyStr Utf8 HeaderModel.

(** ** urllib.parse (library behaviour) *)
Record parts := { p_scheme : str; p_netloc : str; p_path : str; p_query : str; p_fragment : str }.
Definition is_letter (c : N) : bool := between 65 90 c || between 97 122 c.
(** [scheme_chars]. *)
Definition scheme_char (c : N) : bool := is_letter c || is_digit c || N.eqb c 43 || N.eqb c 45 || N.eqb c 46.
Definition scheme_ok (s : str) : bool := match s with [] => false | c :: _ => is_letter c && forallb scheme_char s end.
(** Control characters and spaces are stripped on the left; tabs and line ends are removed. *)
Definition unsafe (c : N) : bool := N.eqb c 9 || N.eqb c 10 || N.eqb c 13.
Definition clean (s : str) : str := filter (fun c => negb (unsafe c)) (lstrip_by (fun c => (c <=? 32)%N) s).
(** The longest prefix without a character of a class. *)
Fixpoint span (stop : N -> bool) (s : str) : str * str :=
  match s with
  | [] => ([], [])
  | c :: r => if stop c then ([], s) else let (a, b) := span stop r in (c :: a, b)
  end.
Definition net_end (c : N) : bool := N.eqb c 47 || N.eqb c 63 || N.eqb c 35.
(** [s.partition(c)] without the separator, [s.rpartition(c)[2]]. *)
Definition partition (c : N) (s : str) : str * str := match split1 c s with Some p => p | None => (s, []) end.
Definition after_last (c : N) (s : str) : str := match rsplit1 c s with Some (_, b) => b | None => s end.
(** The test of brackets; [ip_ok] is [_check_bracketed_host], which refuses what is not an IP address. *)
Definition brackets_ok (ip_ok : str -> bool) (n : str) : bool :=
  if cmem 91 n && cmem 93 n then ip_ok (fst (partition 93 (snd (partition 91 n))))
  else negb (cmem 91 n) && negb (cmem 93 n).
(** [urlsplit].  [_checknetloc], which looks at non-ASCII netlocs only, is left out. *)
Definition urlsplit (ip_ok : str -> bool) (url : str) : option parts :=
  let s := clean url in
  let (scheme, r) := match split1 58 s with
                     | Some (a, b) => if scheme_ok a then (lower a, b) else ([], s)
                     | None => ([], s)
                     end in
  let (netloc, r) := if prefixb (u "//") r then span net_end (skipn 2 r) else ([], r) in
  if negb (brackets_ok ip_ok netloc) then None
  else
    let (r, fragment) := partition 35 r in
    let (path, query) := partition 63 r in
    Some {| p_scheme := scheme; p_netloc := netloc; p_path := path; p_query := query; p_fragment := fragment |}.

Definition uses_netloc : list str :=
  [u ""; u "ftp"; u "http"; u "gopher"; u "nntp"; u "telnet"; u "imap"; u "wais"; u "file"; u "mms"; u "https"; u "shttp";
   u "snews"; u "prospero"; u "rtsp"; u "rtsps"; u "rtspu"; u "rsync"; u "svn"; u "svn+ssh"; u "sftp"; u "nfs"; u "git";
   u "git+ssh"; u "ws"; u "wss"].
Definition empty (s : str) : bool := match s with [] => true | _ => false end.
(** [urlunsplit]. *)
Definition urlunsplit (p : parts) : str :=
  let url := p_path p in
  let url := if negb (empty (p_netloc p)) || (negb (empty (p_scheme p)) && smem (p_scheme p) uses_netloc) || prefixb (u "//") url
             then u "//" ++ p_netloc p ++ (if negb (empty url) && negb (prefixb (u "/") url) then u "/" ++ url else url)
             else url in
  let url := if empty (p_scheme p) then url else p_scheme p ++ u ":" ++ url in
  let url := if empty (p_query p) then url else url ++ u "?" ++ p_query p in
  if empty (p_fragment p) then url else url ++ u "#" ++ p_fragment p.

(** [SplitResult._hostinfo], [hostname], [port], [username] and [password]. *)
Definition hostinfo (netloc : str) : str * str :=
  let h := after_last 64 netloc in
  match split1 91 h with
  | Some (_, b) => let (host, rest) := partition 93 b in (host, snd (partition 58 rest))
  | None => partition 58 h
  end.
Definition hostname (netloc : str) : option str :=
  match fst (hostinfo netloc) with
  | [] => None
  | h => match split1 37 h with
         | Some (a, zone) => Some (lower a ++ u "%" ++ zone)
         | None => Some (lower h)
         end
  end.
(** Outer [None] is the ValueError. *)
Definition port (netloc : str) : option (option N) :=
  match snd (hostinfo netloc) with
  | [] => Some None
  | d => if forallb is_digit d && (digits_val d <=? 65535)%N then Some (Some (digits_val d)) else None
  end.
Definition username (netloc : str) : option str :=
  match rsplit1 64 netloc with Some (i, _) => Some (fst (partition 58 i)) | None => None end.
Definition password (netloc : str) : option str :=
  match rsplit1 64 netloc with
  | Some (i, _) => match split1 58 i with Some (_, p) => Some p | None => None end
  | None => None
  end.

(** [quote(s, safe=":/%#?=@[]!$&'()*+,;")], the encoding of a Location. *)
Definition safe_in_location (b : N) : bool :=
  unreserved b || cmem b (u ":/%#?=@[]!$&'()*+,;").
Definition quote_location (s : str) : str :=
  flat_map (fun b => if safe_in_location b then [b] else [37%N; hexdigit (b / 16); hexdigit (b mod 16)]) (utf8_enc s).

(** ** datastructures.py *)
(** datastructures.py:361-394 [URL(text)]: the text and its parts; reading [port] may raise. *)
Record url := { text : str; split : parts }.
Definition url_of (ip_ok : str -> bool) (s : str) : option url :=
  match urlsplit ip_ok s with
  | None => None
  | Some p => match port (p_netloc p) with None => None | Some _ => Some {| text := s; split := p |} end
  end.

(** What the code reads of a scope.  The query string is ASCII text; header names are in lower case,
    as ASGI wants them ([build_from_scope] compares them with b"host" exactly). *)
Record scope := {
  s_type : str; s_scheme : str; s_server : option (str * option N); s_path : str; s_query : str; s_headers : headers }.
(** enums.py:24-31 [DefaultPort.to_dict]. *)
Definition default_port (scheme : str) : option N :=
  if seqb scheme (u "http") || seqb scheme (u "ws") then Some 80%N
  else if seqb scheme (u "https") || seqb scheme (u "wss") then Some 443%N
  else None.
(** [f"{port}"] of an int or [None]. *)
Definition port_text (o : option N) : str := match o with Some n => dec n | None => u "None" end.
(** datastructures.py:397-432 [build_from_scope].  [None] is also the KeyError for a scheme without
    default port. *)
Definition scope_text (s : scope) : option str :=
  let base :=
    match hget (u "host") (s_headers s) with
    | Some h => Some (s_scheme s ++ u "://" ++ h ++ s_path s)
    | None =>
        match s_server s with
        | None => Some (s_path s)
        | Some (host, p) =>
            match default_port (s_scheme s) with
            | None => None
            | Some d =>
                if match p with Some n => N.eqb n d | None => false end
                then Some (s_scheme s ++ u "://" ++ host ++ s_path s)
                else Some (s_scheme s ++ u "://" ++ host ++ u ":" ++ port_text p ++ s_path s)
            end
        end
    end in
  match base with
  | None => None
  | Some b => Some (if empty (s_query s) then b else b ++ u "?" ++ s_query s)
  end.
Definition build_from_scope (ip_ok : str -> bool) (s : scope) : option url :=
  match scope_text s with None => None | Some t => url_of ip_ok t end.

(** datastructures.py:505-510, the host of an authority without user: the port is cut off. *)
Definition cut_port (h : str) : str :=
  match rev h with
  | [] => h
  | c :: _ => if N.eqb c 93 then h else match rsplit1 58 h with Some (a, _) => a | None => h end
  end.
(** datastructures.py:484-518 [_build_netloc]; a port is given as its text. *)
Definition build_netloc (netloc : str) (host port user pass : option str) : str :=
  let h := match host with Some h => h | None => cut_port (after_last 64 netloc) end in
  let n := match port with Some p => h ++ u ":" ++ p | None => h end in
  match user with
  | None => n
  | Some us => match pass with Some pw => us ++ u ":" ++ pw ++ u "@" ++ n | None => us ++ u "@" ++ n end
  end.

(** The keyword arguments of [replace]: absent or a value ([None] for a port, user or password that is
    to be dropped). *)
Record changes := {
  c_scheme : option str; c_netloc : option str; c_path : option str; c_query : option str; c_fragment : option str;
  c_host : option (option str); c_port : option (option str); c_user : option (option str); c_pass : option (option str) }.
Definition no_changes : changes :=
  {| c_scheme := None; c_netloc := None; c_path := None; c_query := None; c_fragment := None;
     c_host := None; c_port := None; c_user := None; c_pass := None |}.
Definition given {A} (o : option A) : bool := match o with Some _ => true | None => false end.
Definition dflt {A} (d : A) (o : option A) : A := match o with Some x => x | None => d end.
(** datastructures.py:520-543 [replace]. *)
Definition replace_parts (c : changes) (p : parts) : parts :=
  let n0 := p_netloc p in
  let netloc :=
    if given (c_user c) || given (c_pass c) || given (c_host c) || given (c_port c) then
      build_netloc n0 (dflt None (c_host c))
        (dflt (match port n0 with Some (Some n) => Some (dec n) | _ => None end) (c_port c))
        (dflt (username n0) (c_user c)) (dflt (password n0) (c_pass c))
    else dflt n0 (c_netloc c) in
  {| p_scheme := dflt (p_scheme p) (c_scheme c); p_netloc := netloc; p_path := dflt (p_path p) (c_path c);
     p_query := dflt (p_query p) (c_query c); p_fragment := dflt (p_fragment p) (c_fragment c) |}.
Definition url_replace (ip_ok : str -> bool) (c : changes) (x : url) : option url :=
  url_of ip_ok (urlunsplit (replace_parts c (split x))).

(** datastructures.py:361-394 [URL(SplitResult)]: [base_url] is read before the parts are set. *)
Definition url_of_split (p : parts) : url :=
  {| text := urlunsplit {| p_scheme := []; p_netloc := []; p_path := []; p_query := []; p_fragment := [] |}; split := p |}.

(** [parse_qsl(query, keep_blank_values=True)] and [urlencode]. *)
Definition qsl_pair (piece : str) : str * str := let (k, v) := partition 61 piece in (unquote_plus k, unquote_plus v).
Definition parse_qsl (query : str) : list (str * str) :=
  map qsl_pair (filter (fun p => negb (empty p)) (split_char 38 query)).
Definition urlencode (l : list (str * str)) : str :=
  join (u "&") (map (fun e => quote_plus (fst e) ++ u "=" ++ quote_plus (snd e)) l).
(** [MultiDict.update] with a dict: each key replaces its first entry and drops the others, or is added. *)
Fixpoint mset (k v : str) (l : list (str * str)) : list (str * str) :=
  match l with
  | [] => [(k, v)]
  | (a, b) :: r => if seqb a k then (k, v) :: filter (fun e => negb (seqb (fst e) k)) r else (a, b) :: mset k v r
  end.
Definition mupdate (d l : list (str * str)) : list (str * str) := fold_left (fun l e => mset (fst e) (snd e) l) d l.
(** [MultiDict.pop(key, None)]: removes the first entry. *)
Fixpoint mpop (k : str) (l : list (str * str)) : list (str * str) :=
  match l with [] => [] | (a, b) :: r => if seqb a k then r else (a, b) :: mpop k r end.
Definition with_query (ip_ok : str -> bool) (q : str) (x : url) : option url :=
  url_replace ip_ok {| c_scheme := None; c_netloc := None; c_path := None; c_query := Some q; c_fragment := None;
                       c_host := None; c_port := None; c_user := None; c_pass := None |} x.
(** datastructures.py:545-558 [include_query_params]; the keyword arguments are a dict of texts and
    [sorted_items] is [sorted(params.multi_items())]. *)
Definition include_query_params (ip_ok : str -> bool) (sorted_items : list (str * str) -> list (str * str)) (d : dict str) (x : url)
  : option url :=
  with_query ip_ok (urlencode (sorted_items (mupdate d (parse_qsl (p_query (split x)))))) x.
(** datastructures.py:560-576 [remove_query_params]. *)
Definition remove_query_params (ip_ok : str -> bool) (sorted_items : list (str * str) -> list (str * str)) (keys : list str) (x : url)
  : option url :=
  with_query ip_ok (urlencode (sorted_items (fold_left (fun l k => mpop k l) keys (parse_qsl (p_query (split x)))))) x.
(** datastructures.py:578-590 [replace_query_params]. *)
Definition replace_query_params (ip_ok : str -> bool) (d : list (str * str)) (x : url) : option url :=
  with_query ip_ok (urlencode d) x.
(** datastructures.py:592-608 [relative_url]. *)
Definition relative_url (ip_ok : str -> bool) (x : url) : option url :=
  url_of ip_ok (urlunsplit {| p_scheme := []; p_netloc := []; p_path := p_path (split x); p_query := p_query (split x);
                              p_fragment := p_fragment (split x) |}).
