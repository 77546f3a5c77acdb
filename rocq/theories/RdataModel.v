(** Model of the parts of [Request] that look at the Content-Type header (lilya/requests.py:90-101, 147-183,
    239-264) and of its push promises (364-376).  Headers are the texts datastructures.py:163-189 makes of the
    server's bytes, which it takes as UTF-8. *)
From Verif Require Import PyStr Utf8 HeaderModel JsonModel MultipartModel.

(** requests.py:155-158 [media]: the options have bytes as keys; the one added has a text. *)
Inductive mkey := BytesKey (s : str) | TextKey (s : str).
Definition mkey_eqb (a b : mkey) : bool :=
  match a, b with BytesKey x, BytesKey y | TextKey x, TextKey y => seqb x y | _, _ => false end.
(** multipart/utils.py:31: [encode("latin-1", "ignore")], characters beyond are left out. *)
Definition latin (h : str) : str := filter (fun c => c <? 256)%N h.
(** multipart/utils.py:35-36: the main value. *)
Definition main_value (h : str) : str := lower (bstrip (hd [] (split_char 59 (latin h)))).
Definition media (h : str) : list (mkey * str) :=
  map (fun e => (BytesKey (fst e), snd e)) (header_options (Some (latin h))) ++ [(TextKey (u "content_type"), main_value h)].
(** requests.py:161-166 [charset]. *)
Definition charset (h : str) : str :=
  match List.find (fun e => mkey_eqb (fst e) (TextKey (u "charset"))) (media h) with Some (_, v) => v | None => u "utf-8" end.

(** [header] is the first Content-Type header, [None] if there is none: requests.py:156, 180 take an empty one. *)
Definition content_header (header : option str) : str := match header with Some h => h | None => [] end.

Section Codecs.
(** [bytes.decode] for the names of other encodings; [None] is a LookupError or UnicodeDecodeError. *)
Variable codec : str -> str -> option str.
Definition decode_in (name b : str) : option str := if seqb name (u "utf-8") then utf8_strict b else codec name b.
(** requests.py:168-183 [content_type]; [None] is a UnicodeDecodeError, which is a ValueError. *)
Definition content_type (header : option str) : option str := decode_in (charset (content_header header)) (main_value (content_header header)).
(** requests.py:90-101 [is_form], [is_json]. *)
Definition form_types : list str := [u "multipart/form-data"; u "application/x-www-form-urlencoded"].
Definition is_form (header : option str) : option bool := option_map (fun ct => smem ct form_types) (content_type header).
Definition is_json (header : option str) : option bool := option_map (fun ct => seqb ct (u "application/json")) (content_type header).
(** requests.py:239-247 [text] of a body. *)
Definition text (header : option str) (body : str) : option str := decode_in (charset (content_header header)) body.

(** What [Request.form] does: the form, a ValueError, or another exception. *)
Inductive form_result (F : Type) := FormOk (f : F) | FormValueError | FormError.
(** What [data] gives; [BadValue] is a ValueError and [Broken] another exception. *)
Inductive datum (F : Type) := IsForm (f : F) | IsJson (v : jvalue) | IsText (t : str) | IsBytes (b : str) | BadValue | Broken.
Arguments FormOk {F}. Arguments FormValueError {F}. Arguments FormError {F}.
Arguments IsForm {F}. Arguments IsJson {F}. Arguments IsText {F}. Arguments IsBytes {F}. Arguments BadValue {F}. Arguments Broken {F}.
(** requests.py:249-264 [data]; [read] is whether the body was read before: if not, a form has used up the stream. *)
Definition data {F} (raise_exception read : bool) (header : option str) (body : str) (form : form_result F) : datum F :=
  match content_type header with
  | None => if raise_exception then BadValue else IsBytes body
  | Some ct =>
      if smem ct form_types then
        match form with
        | FormOk f => IsForm f
        | FormValueError => if raise_exception then BadValue else if read then IsBytes body else Broken
        | FormError => Broken
        end
      else if seqb ct (u "application/json") then
        match request_json body with
        | Some v => IsJson v
        | None => if raise_exception then BadValue else IsBytes body
        end
      else match text header body with Some t => IsText t | None => BadValue end
  end.
End Codecs.
Arguments FormOk {F}. Arguments FormValueError {F}. Arguments FormError {F}.
Arguments IsForm {F}. Arguments IsJson {F}. Arguments IsText {F}. Arguments IsBytes {F}. Arguments BadValue {F}. Arguments Broken {F}.

(** _connection.py:17-23: a set, iterated in some order. *)
Definition push_headers : list str := [u "accept"; u "accept-encoding"; u "accept-language"; u "cache-control"; u "user-agent"].
(** requests.py:364-376 [send_push_promise]: the messages sent, a path and headers in bytes. *)
Definition send_push_promise (order : list str -> list str) (extension : bool) (path : str) (h : headers) : list (str * list (str * str)) :=
  if extension then [(path, flat_map (fun n => map (fun v => (n, utf8_enc v)) (getlist order n h)) (order push_headers))] else [].
