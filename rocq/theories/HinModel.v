(** Model of how header containers are made, read as attributes, searched and given on as bytes:
    lilya/datastructures.py:143-255 (Header).  Over HeaderModel. *)
From Verif Require Import PyStr Utf8 Asgi HeaderModel.

(** bytes and str. *)
Inductive btext := Bytes (b : str) | Text (t : str).
(** A value of a dict: one text, a list or tuple of texts, or something else. *)
Inductive item := One (x : btext) | Many (l : list btext) | Alien.
(** What a Header is made from: nothing, a dict, pairs (a list, a generator, a Header), or a mapping that is no dict. *)
Inductive source :=
| SNone
| SDict (l : list (btext * item))
| SPairs (l : list (btext * btext))
| SMapping (l : list (str * str)).
Inductive fault := UnicodeDecodeError | AssertionError | ValueError | UnicodeEncodeError.
Inductive res (A : Type) := Good (x : A) | Bad (f : fault).
Arguments Good {A}. Arguments Bad {A}.
Definition rbind {A B} (x : res A) (f : A -> res B) : res B := match x with Good a => f a | Bad e => Bad e end.

(** [b.decode("utf-8")]: bytes that are no UTF-8 raise.  The decoding that replaces, written again, is the same
    bytes exactly if nothing had to be replaced by another character. *)
Definition decode_strict (b : str) : res str := let t := utf8_dec b in if seqb (utf8_enc t) b then Good t else Bad UnicodeDecodeError.
(** 171, 175-179, 185-186. *)
Definition as_text (x : btext) : res str := match x with Bytes b => decode_strict b | Text t => Good t end.

(** 174-181: the values of one key of a dict. *)
Fixpoint dict_values (key : str) (l : list btext) : res headers :=
  match l with
  | [] => Good []
  | x :: r => rbind (as_text x) (fun v => rbind (dict_values key r) (fun rest => Good ((key, v) :: rest)))
  end.
(** 169-181. *)
Fixpoint from_dict (l : list (btext * item)) : res headers :=
  match l with
  | [] => Good []
  | (k, v) :: r =>
      rbind (as_text k) (fun key =>
      rbind (match v with One x => dict_values key [x] | Many xs => dict_values key xs | Alien => Bad AssertionError end) (fun a =>
      rbind (from_dict r) (fun b => Good (a ++ b))))
  end.
(** 182-188. *)
Fixpoint from_pairs (l : list (btext * btext)) : res headers :=
  match l with
  | [] => Good []
  | (k, v) :: r =>
      rbind (as_text k) (fun key => rbind (as_text v) (fun x => rbind (from_pairs r) (fun rest => Good ((key, x) :: rest))))
  end.
(** 182-183 for a mapping that is no dict: the loop runs over its keys, and a key is unpacked into two characters. *)
Fixpoint from_keys (l : list (str * str)) : res headers :=
  match l with
  | [] => Good []
  | ([a; b], _) :: r => rbind (from_keys r) (fun rest => Good (([a], [b]) :: rest))
  | _ :: _ => Bad ValueError
  end.
(** 147-190 [__init__], [parse_headers]; 202-207 [from_scope], 209-219 [ensure_header_instance] with headers that are not
    parsed yet. *)
Definition make (s : source) : res headers :=
  match s with
  | SNone => Good []
  | SDict l => from_dict l
  | SPairs l => from_pairs l
  | SMapping l => from_keys l
  end.

(** [str.encode("utf-8")] and with [errors="surrogateescape"]: U+DC80 to U+DCFF stand for the bytes 80 to FF. *)
Definition surrogate (c : N) : bool := between 55296 57343 c.
Definition encode_strict (t : str) : res str := if existsb surrogate t then Bad UnicodeEncodeError else Good (utf8_enc t).
Fixpoint encode_escape (t : str) : res str :=
  match t with
  | [] => Good []
  | c :: r =>
      if between 56448 56575 c then rbind (encode_escape r) (fun b => Good ((c - 56320)%N :: b))
      else if surrogate c then Bad UnicodeEncodeError
      else rbind (encode_escape r) (fun b => Good (enc1 c ++ b))
  end.
(** 227-236 [encoded_multi_items], [__iter__]. *)
Fixpoint encode_items (l : list (str * str)) : res (list (str * str)) :=
  match l with
  | [] => Good []
  | (k, v) :: r =>
      rbind (encode_strict k) (fun kb => rbind (encode_escape v) (fun vb => rbind (encode_items r) (fun rest => Good ((kb, vb) :: rest))))
  end.
Definition to_wire (order : list str -> list str) (h : headers) : res (list (str * str)) := encode_items (multi_items order h).

(** [b.decode("utf-8", errors="surrogateescape")]. *)
Definition escaped (b : N) : N := (56320 + b)%N.
Fixpoint decode_escape (s : str) : str :=
  match s with
  | [] => []
  | b0 :: r =>
      if (b0 <? 128)%N then b0 :: decode_escape r
      else if between 194 223 b0 then
        match r with
        | b1 :: r1 => if cont b1 then ((b0 - 192) * 64 + (b1 - 128))%N :: decode_escape r1 else escaped b0 :: decode_escape r
        | [] => [escaped b0]
        end
      else if between 224 239 b0 then
        match r with
        | b1 :: b2 :: r2 =>
            if ok3 b0 b1 && cont b2 then ((b0 - 224) * 4096 + (b1 - 128) * 64 + (b2 - 128))%N :: decode_escape r2
            else escaped b0 :: decode_escape r
        | _ => escaped b0 :: decode_escape r
        end
      else if between 240 244 b0 then
        match r with
        | b1 :: b2 :: b3 :: r3 =>
            if ok4 b0 b1 && cont b2 && cont b3
            then ((b0 - 240) * 262144 + (b1 - 128) * 4096 + (b2 - 128) * 64 + (b3 - 128))%N :: decode_escape r3
            else escaped b0 :: decode_escape r
        | _ => escaped b0 :: decode_escape r
        end
      else escaped b0 :: decode_escape r
  end.
(** 238-255 [__contains__]: a text, bytes, a tuple of two, or something else. *)
Inductive query := QText (x : btext) | QPair (k v : btext) | QOther.
Definition loose (x : btext) : str := match x with Bytes b => decode_escape b | Text t => t end.
Definition contains (q : query) (h : headers) : bool :=
  match q with
  | QText x => hcontains (loose x) h
  | QPair k v => existsb (seqb (loose v)) (hgetall (loose k) h)
  | QOther => false
  end.

(** 192-196 [__getattr__], for a name that is no attribute and has no underscore in front. *)
Definition attribute (key : str) (h : headers) : str :=
  join (u ",") (hgetall (map (fun c => if N.eqb c 95 then 45%N else c) (rstrip_by (N.eqb 95) key)) h).
