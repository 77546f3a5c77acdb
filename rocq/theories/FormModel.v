(** Model of the urlencoded form parser: lilya/contrib/multipart/parsers.py [QuerystringParser] and
    lilya/_internal/_parsers.py [FormParser], with [Request.form] of lilya/requests.py for that
    content type. *)
From Verif Require Import PyStr Utf8 RequestModel.

(** The messages of _parsers.py:44-59 [FormMessage], with their bytes. *)
Inductive fmsg := FStart | FName (b : str) | FData (b : str) | FEnd | FDone.

(** [raw.partition(b"=")]: what precedes the first "=" and what follows it. *)
Fixpoint partition_eq (raw : str) : str * str :=
  match raw with
  | [] => ([], [])
  | c :: r => if N.eqb c 61 then ([], r) else let '(k, v) := partition_eq r in (c :: k, v)
  end.

(** parsers.py:37-65 [callback] with data: nothing is called for an empty slice. *)
Definition data_callback (mk : str -> fmsg) (b : str) : list fmsg := match b with [] => [] | _ => [mk b] end.

(** parsers.py:165-180 [_flush_field], after the split and decoding of 197-202 (and 215-219).
    Strict parsing is off and [max_size] infinite, as FormParser creates it (_parsers.py:153). *)
Definition flush_field (raw : str) : list fmsg :=
  let '(key, val) := partition_eq raw in
  FStart :: data_callback FName (utf8_enc (unquote (utf8_dec key)))
  ++ data_callback FData (utf8_enc (unquote (utf8_dec val))) ++ [FEnd].

(** parsers.py:192-208, the scan of [write]: [seen] is the buffer up to [index].  The messages and
    the buffer left. *)
Fixpoint scan (seen rest : str) : list fmsg * str :=
  match rest with
  | [] => ([], seen)
  | c :: r => if N.eqb c 38 then let '(ms, b) := scan [] r in (flush_field seen ++ ms, b)
              else scan (seen ++ [c]) r
  end.

(** parsers.py:182-209 [write]. *)
Definition qs_write (buffer data : str) : list fmsg * str :=
  match data with [] => ([], buffer) | _ => scan [] (buffer ++ data) end.

(** parsers.py:211-221 [finalize]; the buffer is kept. *)
Definition qs_finalize (buffer : str) : list fmsg :=
  match buffer with [] => [FDone] | _ => flush_field buffer ++ [FDone] end.

(** _parsers.py:176-186, the messages of one chunk: field name and value so far, items so far. *)
Definition fstate : Type := (str * str * list (str * str))%type.
Definition on_msg (st : fstate) (m : fmsg) : fstate :=
  let '(name, value, items) := st in
  match m with
  | FStart => ([], [], items)
  | FName b => (name ++ b, value, items)
  | FData b => (name, value ++ b, items)
  | FEnd => (name, value, items ++ [(unquote_plus (utf8_dec name), unquote_plus (utf8_dec value))])
  | FDone => st
  end.

(** _parsers.py:164-188, the chunks of the stream. *)
Fixpoint form_loop (buffer : str) (st : fstate) (chunks : list str) : list (str * str) :=
  match chunks with
  | [] => snd st
  | c :: r =>
      let '(ms, buffer') := match c with [] => (qs_finalize buffer, buffer) | _ => qs_write buffer c end in
      form_loop buffer' (fold_left on_msg ms st) r
  end.
Definition form_parse (chunks : list str) : list (str * str) := form_loop [] ([], [], []) chunks.

(** requests.py:266-307 [_get_form] for application/x-www-form-urlencoded on a request without a
    parsed form: the items, or how the stream failed.  The items are wrapped in a FormData, not
    modelled. *)
Definition get_form (st : rstate) : (list (str * str) + send) * rstate :=
  let '(ys, e, st') := stream st in
  match e with SEnd => (inl (form_parse ys), st') | _ => (inr e, st') end.
