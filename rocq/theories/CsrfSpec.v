(** What C34, C66 and C67 say. *)
From Verif Require Import PyStr Utf8 Asgi HeaderModel HeaderSpec CookieModel RequestModel CsrfModel.

(** An authentic token: 64 characters and their signature. *)
Definition authentic (e : env) (secret t : str) : Prop := exists r, length r = 64 /\ t = r ++ mac e secret r.

(** The body that was sent, if all of it has arrived. *)
Fixpoint arrived (msgs : list rmsg) : option str :=
  match msgs with
  | MReq b true :: r => option_map (app b) (arrived r)
  | MReq b false :: _ => Some b
  | _ => None
  end.

(** A body holds the token [t] in the field: as [name=value] between "&" signs, or as a part that
    names the field and ends in [t] up to line ends. *)
Definition occurs (p s : str) : Prop := exists x y, s = x ++ p ++ y.
Inductive holds (e : env) (field : str) : str -> str -> Prop :=
| h_url body piece n v : In piece (split_char 38 (decode_ignore e body)) -> piece = n ++ 61%N :: v \/ (piece = n /\ v = []) ->
    unquote_plus n = field -> holds e field body (unquote_plus v)
| h_part body head raw : occurs head body -> occurs raw body ->
    occurs (u "name=" ++ [34%N] ++ field ++ [34%N]) (decode_ignore e head) -> holds e field body (decode_ignore e raw).

(** The request submits [t]: in the header or, without the header, in the field of a form. *)
Definition submits (e : env) (c : config) (req : headers) (msgs : list rmsg) (t : str) : Prop :=
  hget (s_header c) req = Some t \/
  ((hget (s_header c) req = None \/ hget (s_header c) req = Some []) /\
   exists b, arrived msgs = Some b /\ holds e (s_field c) b t).

(** A client that is connected until its body has arrived: no http.disconnect before. *)
Definition complete (msgs : list rmsg) : Prop := arrived msgs <> None.

(** ** Forms *)
(** A form as a browser writes it: fields of a multipart form. *)
Definition field_part (boundary name value : str) : str :=
  u "--" ++ boundary ++ [13; 10]%N ++ u "Content-Disposition: form-data; name=" ++ [34%N] ++ name ++ [34%N] ++ [13; 10; 13; 10]%N ++ value ++ [13; 10]%N.
Definition multipart_form (boundary : str) (fields : list (str * str)) : str :=
  concat (map (fun f => field_part boundary (fst f) (snd f)) fields) ++ u "--" ++ boundary ++ u "--" ++ [13; 10]%N.
(** Characters of a boundary: letters, digits, "-" and "_". *)
Definition boundary_char (c : N) : bool :=
  (((48 <=? c) && (c <=? 57)) || ((65 <=? c) && (c <=? 90)) || ((97 <=? c) && (c <=? 122)) || (c =? 45) || (c =? 95))%N.
Definition good_boundary (b : str) : Prop := b <> [] /\ forallb boundary_char b = true.
(** Names and values: ASCII; names without quotes and line ends; no delimiter in them. *)
Definition good_field (boundary : str) (f : str * str) : Prop :=
  (forall c, In c (fst f) -> (c < 128)%N /\ c <> 34%N /\ c <> 13%N /\ c <> 10%N) /\ ~ occurs (u "--" ++ boundary) (fst f) /\
  ~ occurs (u "--" ++ boundary) (snd f).
(** The decoder leaves ASCII alone, the signature is a non-empty hexadecimal text. *)
Definition good_env (e : env) : Prop :=
  (forall s, (forall c, In c s -> (c < 128)%N) -> decode_ignore e s = s) /\
  (forall k m, mac e k m <> [] /\ forall c, In c (mac e k m) -> In c (u "0123456789abcdef")).

(** After a disconnect a server delivers nothing else. *)
Definition settled (msgs : list rmsg) : Prop := forall a b, msgs = a ++ MDisc :: b -> forall m, In m b -> m = MDisc.
Definition ascii_text (s : str) : Prop := forall c, In c s -> (c < 128)%N.
Definition hex_text (s : str) : Prop := forall c, In c s -> In c (u "0123456789abcdef").
