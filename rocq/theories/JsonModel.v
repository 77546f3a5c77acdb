(** Model of the JSON that lilya reads and writes: lilya/serializers.py:69-103 ([CompactSerializer]) over Python's
    json module (json/encoder.py, json/decoder.py, json/scanner.py), used by requests.py:227-237 [Request.json],
    websockets.py:145-197 [send_json], [receive_json], responses.py:462-485 [JSONResponse.make_response] and
    1534-1576 [NDJSONResponse.stream].
    Simplified: floats are represented by their literals; the limits on digits and on recursion are left out. *)
From Verif Require Import PyStr Utf8.
Local Open Scope N_scope.

Inductive jvalue :=
  | JNull | JBool (b : bool) | JInt (z : Z) | JFloat (literal : str) | JStr (s : str)
  | JArr (l : list jvalue) | JObj (l : list (str * jvalue)).

(** ** Writing *)
(** A lower case hexadecimal digit, and [\uXXXX]. *)
Definition hexlow (v : N) : N := if v <? 10 then 48 + v else 87 + v.
Definition u_escape (c : N) : str :=
  [92; 117; hexlow (c / 4096); hexlow (c / 256 mod 16); hexlow (c / 16 mod 16); hexlow (c mod 16)].
(** json/encoder.py:14-30 [ESCAPE_DCT]: the characters written as a backslash and a letter. *)
Definition short_escape (c : N) : option N :=
  if c =? 34 then Some 34 else if c =? 92 then Some 92 else if c =? 10 then Some 110 else if c =? 13 then Some 114
  else if c =? 9 then Some 116 else if c =? 12 then Some 102 else if c =? 8 then Some 98 else None.
(** json/encoder.py:33-63 [py_encode_basestring], [py_encode_basestring_ascii]. *)
Definition write_char (ascii : bool) (c : N) : str :=
  match short_escape c with
  | Some e => [92; e]
  | None =>
      if c <? 32 then u_escape c
      else if ascii && (126 <? c) then
        if c <? 65536 then u_escape c
        else u_escape (55296 + (c - 65536) / 1024 mod 1024) ++ u_escape (56320 + (c - 65536) mod 1024)
      else [c]
  end.
Definition write_string (ascii : bool) (s : str) : str := 34 :: flat_map (write_char ascii) s ++ [34].
(** json/encoder.py:257-419 [_make_iterencode] with separators "," and ":" and no indent. *)
Fixpoint write (ascii : bool) (v : jvalue) : str :=
  match v with
  | JNull => u "null"
  | JBool b => if b then u "true" else u "false"
  | JInt z => decz z
  | JFloat t => t
  | JStr s => write_string ascii s
  | JArr l => u "[" ++ join (u ",") (map (write ascii) l) ++ u "]"
  | JObj l => u "{" ++ join (u ",") (map (fun e => write_string ascii (fst e) ++ u ":" ++ write ascii (snd e)) l) ++ u "}"
  end.
(** The floats json.dumps rejects with [allow_nan=False], by the literals the reader gives them. *)
Fixpoint finite (v : jvalue) : bool :=
  match v with
  | JFloat t => negb (smem t [u "NaN"; u "Infinity"; u "-Infinity"])
  | JArr l => forallb finite l
  | JObj l => forallb (fun e => finite (snd e)) l
  | _ => true
  end.
(** serializers.py:80-103: [ensure_ascii] and [allow_nan] are off unless asked for; [None] is a ValueError. *)
Definition dumps (v : jvalue) : option str := if finite v then Some (write false v) else None.

(** ** Reading *)
Definition is_ws (c : N) : bool := (c =? 32) || (c =? 9) || (c =? 10) || (c =? 13).
Definition skip (s : str) : str := lstrip_by is_ws s.
Definition hex4 (a b c d : N) : option N :=
  match hexval a, hexval b, hexval c, hexval d with
  | Some w, Some x, Some y, Some z => Some (((w * 16 + x) * 16 + y) * 16 + z)
  | _, _, _, _ => None
  end.
(** json/decoder.py:61-69 [BACKSLASH]. *)
Definition unescape (e : N) : option N :=
  if e =? 34 then Some 34 else if e =? 92 then Some 92 else if e =? 47 then Some 47 else if e =? 98 then Some 8
  else if e =? 102 then Some 12 else if e =? 110 then Some 10 else if e =? 114 then Some 13 else if e =? 116 then Some 9 else None.
Definition high (c : N) : bool := between 55296 56319 c.
Definition low (c : N) : bool := between 56320 57343 c.
Definition add (c : N) (o : option (str * str)) : option (str * str) := match o with Some (s, r) => Some (c :: s, r) | None => None end.
(** json/decoder.py:84-148 [py_scanstring], strict, after the opening quote. *)
Fixpoint scan_string (s : str) : option (str * str) :=
  match s with
  | [] => None
  | c :: r =>
      if c =? 34 then Some ([], r)
      else if c <? 32 then None
      else if c =? 92 then
        match r with
        | [] => None
        | e :: r1 =>
            if e =? 117 then
              match r1 with
              | a1 :: a2 :: a3 :: a4 :: r2 =>
                  match hex4 a1 a2 a3 a4 with
                  | None => None
                  | Some h =>
                      if high h then
                        match r2 with
                        | b1 :: b2 :: r3 =>
                            if (b1 =? 92) && (b2 =? 117) then
                              match r3 with
                              | c1 :: c2 :: c3 :: c4 :: r4 =>
                                  match hex4 c1 c2 c3 c4 with
                                  | None => None
                                  | Some l => if low l then add (65536 + (h - 55296) * 1024 + (l - 56320)) (scan_string r4)
                                              else add h (scan_string r2)
                                  end
                              | _ => None
                              end
                            else add h (scan_string r2)
                        | _ => add h (scan_string r2)
                        end
                      else add h (scan_string r2)
                  end
              | _ => None
              end
            else match unescape e with Some x => add x (scan_string r1) | None => None end
        end
      else add c (scan_string r)
  end.

(** Modules/_json.c [_match_number_unicode]: the longest number. *)
Fixpoint digits (s : str) : str * str :=
  match s with
  | c :: r => if is_digit c then let (d, t) := digits r in (c :: d, t) else ([], s)
  | [] => ([], [])
  end.
Definition fraction (s : str) : str * str :=
  match s with
  | c :: r => if c =? 46 then match digits r with ([], _) => ([], s) | (d, t) => (46 :: d, t) end else ([], s)
  | [] => ([], [])
  end.
Definition exponent (s : str) : str * str :=
  match s with
  | c :: r =>
      if (c =? 101) || (c =? 69) then
        match r with
        | g :: r' => if (g =? 43) || (g =? 45) then match digits r' with ([], _) => ([], s) | (d, t) => (c :: g :: d, t) end
                     else match digits r with ([], _) => ([], s) | (d, t) => (c :: d, t) end
        | [] => ([], s)
        end
      else ([], s)
  | [] => ([], [])
  end.
Definition whole (s : str) : option (str * str) :=
  match s with
  | c :: r => if c =? 48 then Some ([48], r) else if is_digit c then Some (digits s) else None
  | [] => None
  end.
Definition number (s : str) : option (jvalue * str) :=
  let (sign, r) := match s with c :: r => if c =? 45 then ([45], r) else ([], s) | [] => ([], []) end in
  match whole r with
  | None => None
  | Some (i, r1) =>
      let (f, r2) := fraction r1 in
      let (e, r3) := exponent r2 in
      Some (match f, e with
            | [], [] => JInt (match sign with [] => Z.of_N (digits_val i) | _ => - Z.of_N (digits_val i) end)
            | _, _ => JFloat (sign ++ i ++ f ++ e)
            end, r3)
  end.
(** A fixed word. *)
Definition word (w : str) (v : jvalue) (s : str) : option (jvalue * str) :=
  if prefixb w s then Some (v, skipn (length w) s) else None.
Definition either (a b : option (jvalue * str)) : option (jvalue * str) := match a with Some x => Some x | None => b end.
Definition head (s : str) : N := match s with c :: _ => c | [] => 0 end.
(** json/scanner.py:14-73 [py_make_scanner]; json/decoder.py:154-250 [JSONObject], [JSONArray].  The number of
    steps is bounded by the text. *)
Fixpoint value (n : nat) (s : str) : option (jvalue * str) :=
  match n with
  | O => None
  | S n =>
      match s with
      | [] => None
      | c :: r =>
          if c =? 34 then match scan_string r with Some (x, t) => Some (JStr x, t) | None => None end
          else if c =? 123 then
            if head (skip r) =? 125 then Some (JObj [], tl (skip r))
            else match members n (skip r) with Some (l, t) => Some (JObj (dupdate [] l), t) | None => None end
          else if c =? 91 then
            if head (skip r) =? 93 then Some (JArr [], tl (skip r))
            else match elements n (skip r) with Some (l, t) => Some (JArr l, t) | None => None end
          else
            either (word (u "null") JNull s) (either (word (u "true") (JBool true) s) (either (word (u "false") (JBool false) s)
              (either (number s) (either (word (u "NaN") (JFloat (u "NaN")) s) (either (word (u "Infinity") (JFloat (u "Infinity")) s)
                (word (u "-Infinity") (JFloat (u "-Infinity")) s))))))
      end
  end
with elements (n : nat) (s : str) : option (list jvalue * str) :=
  match n with
  | O => None
  | S n =>
      match value n s with
      | None => None
      | Some (v, r) =>
          let r := skip r in
          if head r =? 93 then Some ([v], tl r)
          else if head r =? 44 then match elements n (skip (tl r)) with Some (l, t) => Some (v :: l, t) | None => None end
          else None
      end
  end
with members (n : nat) (s : str) : option (list (str * jvalue) * str) :=
  match n with
  | O => None
  | S n =>
      if head s =? 34 then
        match scan_string (tl s) with
        | None => None
        | Some (k, r) =>
            if head (skip r) =? 58 then
              match value n (skip (tl (skip r))) with
              | None => None
              | Some (v, r) =>
                  let r := skip r in
                  if head r =? 125 then Some ([(k, v)], tl r)
                  else if head r =? 44 then match members n (skip (tl r)) with Some (l, t) => Some ((k, v) :: l, t) | None => None end
                  else None
              end
            else None
        end
      else None
  end.
(** json/decoder.py:341-363 [decode], [raw_decode]. *)
Definition loads (s : str) : option jvalue :=
  match value (length s) (skip s) with
  | Some (v, r) => match skip r with [] => Some v | _ => None end
  | None => None
  end.

(** json/__init__.py:241-269, 299-345: bytes in UTF-8, which is what [detect_encoding] finds unless the text has
    null bytes or a byte order mark; [errors="surrogatepass"] is left out. *)
Definition utf8_strict (b : str) : option str := let t := utf8_dec b in if seqb (utf8_enc t) b then Some t else None.
Definition loads_bytes (b : str) : option jvalue := match utf8_strict b with Some t => loads t | None => None end.

(** requests.py:227-237 [Request.json] of a body. *)
Definition request_json (body : str) : option jvalue := loads_bytes (match body with [] => u "null" | _ => body end).
(** [str.encode("utf-8")]; [None] is a UnicodeEncodeError for half a surrogate pair. *)
Definition encode (t : str) : option str := if forallb (fun c => (c <? 55296) || (57343 <? c)) t then Some (utf8_enc t) else None.
(** responses.py:462-485 [JSONResponse.make_response] of a content that is JSON already. *)
Definition json_body (v : jvalue) : option str := match dumps v with Some t => encode t | None => None end.
(** websockets.py:187-197 [send_json] and 145-158 [receive_json]: text or bytes. *)
Inductive frame := Text (s : str) | Binary (b : str).
Definition send_json (text_mode : bool) (v : jvalue) : option frame :=
  match dumps v with
  | None => None
  | Some t => if text_mode then Some (Text t) else match encode t with Some b => Some (Binary b) | None => None end
  end.
(** A frame of the other kind is a KeyError ([None]). *)
Definition receive_json (text_mode : bool) (f : frame) : option jvalue :=
  match text_mode, f with
  | true, Text s => loads s
  | false, Binary b => loads_bytes b
  | _, _ => None
  end.
(** responses.py:1534-1576 [NDJSONResponse.stream]: the bodies of the messages with [more_body], and whether the
    stream ends without an error. *)
Fixpoint nd_loop (last_row : option str) (rows : list jvalue) : list (str * bool) * bool :=
  match rows with
  | [] => ([(match last_row with Some b => b | None => [] end, false)], true)
  | v :: r =>
      let sent := match last_row with Some b => [(b ++ [10], true)] | None => [] end in
      match json_body v with
      | None => (sent, false)
      | Some b => let (m, ok) := nd_loop (Some b) r in (sent ++ m, ok)
      end
  end.
Definition ndjson (rows : list jvalue) : list (str * bool) * bool := nd_loop None rows.
