(** Model of cookies: [Response.set_cookie] and [delete_cookie] (lilya/responses.py), the standard
    library's SimpleCookie they use (http/cookies.py, Python 3.11), [cookie_parser]
    (lilya/_internal/_parsers.py) and [Connection.cookies] (lilya/_internal/_connection.py).
    Header values are texts; that a character above 255 cannot be written to a header (and fails
    there) is left out. *)
From Verif Require Import PyStr Utf8 HeaderModel.

(** http/cookies.py [_LegalChars], [_UnescapedChars], [_is_legal_key]. *)
Definition legal_chars : str := u "abcdefghijklmnopqrstuvwxyzABCDEFGHIJKLMNOPQRSTUVWXYZ0123456789!#$%&'*+-.^_`|~:".
Definition unescaped_chars : str := legal_chars ++ u " ()/<=>?@[]{}".
Definition is_legal_key (s : str) : bool := match s with [] => false | _ => forallb (fun c => cmem c legal_chars) s end.
(** http/cookies.py [Morsel._reserved]. *)
Definition reserved : list str :=
  [u "expires"; u "path"; u "comment"; u "domain"; u "max-age"; u "secure"; u "httponly"; u "version"; u "samesite"].

(** http/cookies.py [_Translator]: an octal escape for the other characters below 256. *)
Definition octal (c : N) : str := [92; 48 + c / 64; 48 + (c / 8) mod 8; 48 + c mod 8]%N.
Definition translate (c : N) : str :=
  if N.eqb c 34 then [92; 34]%N
  else if N.eqb c 92 then [92; 92]%N
  else if (c <? 256)%N && negb (cmem c unescaped_chars) then octal c
  else [c].
(** http/cookies.py [_quote]. *)
Definition cquote (s : str) : str := if is_legal_key s then s else [34%N] ++ flat_map translate s ++ [34%N].

(** http/cookies.py [_unquote_sub]: replaces a backslash with three octal digits, or with any
    character but a newline. *)
Definition oct3 (a b c : N) : bool := between 48 51 a && between 48 55 b && between 48 55 c.
Fixpoint unescape (s : str) : str :=
  match s with
  | [] => []
  | x :: r =>
      if N.eqb x 92 then
        match r with
        | [] => [x]
        | a :: r1 =>
            let other := if N.eqb a 10 then x :: unescape r else a :: unescape r1 in
            match r1 with
            | b :: r2 => match r2 with
                         | c :: r3 => if oct3 a b c then ((a - 48) * 64 + (b - 48) * 8 + (c - 48))%N :: unescape r3 else other
                         | [] => other
                         end
            | [] => other
            end
        end
      else x :: unescape r
  end.
(** http/cookies.py [_unquote]. *)
Definition cunquote (s : str) : str :=
  if (2 <=? length s)%nat && prefixb [34%N] s && suffixb [34%N] s then unescape (firstn (length s - 2) (skipn 1 s)) else s.

(** The arguments of responses.py:240-252 [set_cookie]; [expires] as the text that is written. *)
Record cookie := {
  c_key : str; c_value : str; c_path : option str; c_domain : option str; c_secure : bool;
  c_max_age : option Z; c_expires : option str; c_httponly : bool; c_samesite : option str }.

(** http/cookies.py [Morsel.OutputString]: attributes in the order of their names; those with an
    empty text are left out. *)
Definition attr (name : str) (v : option str) : list str :=
  match v with Some [] => [] | Some t => [name ++ u "=" ++ t] | None => [] end.
Definition flag (name : str) (b : bool) : list str := if b then [name] else [].
Definition output_string (c : cookie) : str :=
  join (u "; ") ([c_key c ++ u "=" ++ cquote (c_value c)]
    ++ attr (u "Domain") (c_domain c) ++ attr (u "expires") (c_expires c) ++ flag (u "HttpOnly") (c_httponly c)
    ++ attr (u "Max-Age") (option_map decz (c_max_age c)) ++ attr (u "Path") (c_path c)
    ++ attr (u "SameSite") (c_samesite c) ++ flag (u "Secure") (c_secure c)).

(** responses.py:240-295 [set_cookie]: [None] is a CookieError (bad name) or an AssertionError (bad
    samesite). *)
Definition set_cookie (c : cookie) (h : headers) : option headers :=
  if smem (lower (c_key c)) reserved || negb (is_legal_key (c_key c)) then None
  else match c_samesite c with
       | Some s => if smem (lower s) [u "strict"; u "lax"; u "none"]
                   then Some (hadd (u "set-cookie") (strip (u " " ++ output_string c)) h) else None
       | None => Some (hadd (u "set-cookie") (strip (u " " ++ output_string c)) h)
       end.
(** responses.py:297-325 [delete_cookie]; [now] is the text of the date [expires=0] gives. *)
Definition deleting (now : str) (c : cookie) : cookie :=
  {| c_key := c_key c; c_value := []; c_path := c_path c; c_domain := c_domain c; c_secure := c_secure c;
     c_max_age := Some 0%Z; c_expires := Some now; c_httponly := c_httponly c; c_samesite := c_samesite c |}.

(** _parsers.py:20-38 [cookie_parser] of a text. *)
Definition cookie_parser (s : str) : dict str :=
  fold_left (fun d piece =>
    let '(k, v) := match split1 61 piece with Some kv => kv | None => ([], piece) end in
    dset (strip k) (unquote (cunquote (strip v))) d) (split_char 59 s) [].
(** _connection.py:126-137 [cookies], first access. *)
Definition request_cookies (order : list str -> list str) (h : headers) : dict str :=
  fold_left (fun d line => dupdate d (cookie_parser line)) (getlist order (u "cookie") h) [].
