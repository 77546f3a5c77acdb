(** Model of [CSRFMiddleware] (lilya/middleware/csrf.py) and of the token functions
    (lilya/contrib/security/csrf.py), for http requests. *)
From Verif Require Import PyStr Utf8 Asgi HeaderModel CookieModel RequestModel.

(** Library functions: the hexadecimal HMAC-SHA256 of a text under a key, and
    [bytes.decode("utf-8", errors="ignore")]. *)
Record env := { mac : str -> str -> str; decode_ignore : str -> str }.

(** The arguments of the middleware after its defaults (csrf.py:31-58). *)
Record config := {
  s_secret : str; s_cookie : str; s_header : str; s_path : option str; s_safe : list str; s_secure : bool;
  s_httponly : bool; s_samesite : option str; s_domain : option str; s_field : str; s_max : nat }.

(** ** Tokens *)
Definition token_length : nat := 64.
(** security/csrf.py:18-30 [generate_csrf_token]; [random] is what [secrets.token_hex] gave. *)
Definition generate (e : env) (secret random : str) : str := random ++ mac e secret random.
(** [secrets.compare_digest] of two texts; [None] is a TypeError, which it raises unless both are ASCII. *)
Definition ascii (s : str) : bool := forallb (fun c => (c <? 128)%N) s.
Definition compare_digest (a b : str) : option bool := if ascii a && ascii b then Some (seqb a b) else None.
(** security/csrf.py:33-44 [decode_csrf_token]; outer [None] is a TypeError.  Texts that cannot be
    encoded (surrogates) are left out. *)
Definition decode_token (e : env) (secret token : str) : option (option str) :=
  if (length token <? token_length + 1)%nat then Some None
  else
    let token_secret := firstn token_length token in
    match compare_digest (skipn token_length token) (mac e secret token_secret) with
    | None => None
    | Some false => Some None
    | Some true => Some (Some token_secret)
    end.
(** security/csrf.py:47-55 [tokens_match]. *)
Definition tokens_match (e : env) (secret : str) (a b : option str) : option bool :=
  match a, b with
  | Some (x :: a'), Some (y :: b') =>
      match decode_token e secret (x :: a'), decode_token e secret (y :: b') with
      | Some (Some da), Some (Some db) => compare_digest da db
      | None, _ | _, None => None
      | _, _ => Some false
      end
  | _, _ => Some false
  end.

(** ** The body *)
Definition multipart : str := u "multipart/form-data".
Definition urlencoded : str := u "application/x-www-form-urlencoded".
(** csrf.py:96-104 [_is_form_content_type]. *)
Definition is_form (ctype : str) : bool := containsb multipart (lower ctype) || containsb urlencoded (lower ctype).
(** csrf.py:106-150 [_read_and_replay_body].  [NeverReads]: the client is gone, and the loop goes on
    receiving http.disconnect for ever. *)
Inductive reading := NeverReads | TooLarge | Read (body : str).
Fixpoint read_body (max : nat) (chunks : str) (msgs : list rmsg) : reading :=
  match msgs with
  | [] => NeverReads
  | MDisc :: r => read_body max chunks r
  | MReq b more :: r =>
      if (0 <? length b)%nat && (max <? length chunks + length b)%nat then TooLarge
      else if more then read_body max (chunks ++ b) r else Read (chunks ++ b)
  end.

(** [urllib.parse.parse_qs(text, keep_blank_values=True).get(field)], first value. *)
Definition qs_pair (piece : str) : str * str :=
  match split1 61 piece with
  | Some (n, v) => (unquote_plus n, unquote_plus v)
  | None => (unquote_plus piece, [])
  end.
Definition qs_first (field text : str) : option str :=
  option_map snd (List.find (fun p => seqb (fst p) field) (map qs_pair (filter (fun p => negb (seqb p [])) (split_char 38 text)))).

(** csrf.py:179 [re.search(r"boundary=([^;]+)", ctype)], the group. *)
Fixpoint take_until (c : N) (s : str) : str := match s with [] => [] | x :: r => if N.eqb x c then [] else x :: take_until c r end.
Fixpoint search_boundary (s : str) : option str :=
  match s with
  | [] => None
  | _ :: r => match (if prefixb (u "boundary=") s then take_until 59 (skipn 9 s) else []) with
              | [] => search_boundary r
              | b => Some b
              end
  end.
(** csrf.py:207, the pattern [name="field"(;|$)]: "$" is the end, or before a last newline. *)
Fixpoint names_field (field s : str) : bool :=
  let p := u "name=" ++ [34%N] ++ field ++ [34%N] in
  (prefixb p s && match skipn (length p) s with [] => true | c :: r => N.eqb c 59 || N.eqb c 10 && seqb r [] end)
  || match s with [] => false | _ :: r => names_field field r end.
(** csrf.py:191-211, the loop over the parts. *)
Definition is_crlf (c : N) : bool := N.eqb c 13 || N.eqb c 10.
Fixpoint part_field (e : env) (field end_delimiter : str) (parts : list str) : option str :=
  match parts with
  | [] => None
  | p :: r =>
      if seqb p [] || prefixb (u "--") p || seqb p end_delimiter then part_field e field end_delimiter r
      else match (match find [13; 10; 13; 10]%N p with Some i => Some i | None => find [10; 10]%N p end) with
           | None => part_field e field end_delimiter r
           | Some i =>
               if names_field field (decode_ignore e (firstn i p))
               then Some (decode_ignore e (strip_by is_crlf (skipn (i + 4) p)))
               else part_field e field end_delimiter r
           end
  end.
(** csrf.py:152-214 [_extract_token_from_body]. *)
Definition encode_ignore (s : str) : str := filter (fun c => (c <? 128)%N) s.
Definition extract (e : env) (body ctype field : str) : option str :=
  let ct := lower ctype in
  if containsb urlencoded ct then qs_first field (decode_ignore e body)
  else if containsb multipart ct then
    match search_boundary ct with
    | None => None
    | Some g =>
        match strip_by (N.eqb 34) (strip g) with
        | [] => None
        | b => part_field e field (encode_ignore (u "--" ++ b ++ u "--")) (split_str (encode_ignore (u "--" ++ b)) body)
        end
    end
  else None.

(** ** The middleware *)
(** What happens to a request: the application is called and reads these messages, or it is not. *)
Inductive outcome := Called (msgs : list rmsg) | Denied | Fails | Hangs.
Definition truthy (o : option str) : bool := match o with Some (_ :: _) => true | _ => false end.
(** csrf.py:60-94 [__call__].  The replayed body is one message (146-149); the empty messages that
    follow it are left out. *)
Definition csrf (e : env) (c : config) (order : list str -> list str) (method : str) (req : headers) (msgs : list rmsg) : outcome :=
  let cookie := dget (s_cookie c) (request_cookies order req) in
  let verdict t src := match tokens_match e (s_secret c) t cookie with Some true => Called src | Some false => Denied | None => Fails end in
  let token := hget (s_header c) req in
  if smem method (s_safe c) then Called msgs
  else if truthy token then verdict token msgs
  else
    let ctype := match hget (u "content-type") req with Some t => t | None => [] end in
    if is_form ctype then
      match read_body (s_max c) [] msgs with
      | NeverReads => Hangs
      | TooLarge => verdict token msgs
      | Read b => verdict (extract e b ctype (s_field c)) [MReq b false]
      end
    else verdict token msgs.

(** csrf.py:216-265: the headers of the response to a request with a safe method. *)
Definition token_cookie (c : config) (token : str) : cookie :=
  {| c_key := s_cookie c; c_value := token; c_path := s_path c; c_domain := s_domain c; c_secure := s_secure c;
     c_max_age := None; c_expires := None; c_httponly := s_httponly c; c_samesite := s_samesite c |}.
Definition send_wrapper (e : env) (c : config) (order : list str -> list str) (req : headers) (random : str) (h : headers) : headers :=
  match dget (s_cookie c) (request_cookies order req) with
  | Some _ => h
  | None => if hcontains (u "set-cookie") h then h
            else hadd (u "set-cookie") (strip (u " " ++ output_string (token_cookie c (generate e (s_secret c) random)))) h
  end.
