(** The names of the parts of a multipart form: RFC 5987 decoding as Request.form uses it.  The parser itself
    is MultipartModel. *)
From Verif Require Import PyStr Utf8 FormModel MultipartModel PushModel.

(** [bytes.decode("ascii", "ignore")]. *)
Definition ascii_part (s : str) : str := filter (fun c => (c <? 128)%N) s.

(** contrib/multipart/utils.py:79-101 [_decode_rfc5987].  The codecs of Python by name are outside, as in
    PushModel; decoding no bytes asks no codec.  A charset that is not UTF-8 itself is an unknown one. *)
Definition decode_raw (codecs : codecs_t) (charset raw : str) : str :=
  let '(cs, encoded) := match find (u "''") raw with
                        | Some i => (firstn i raw, skipn (i + 2) raw)
                        | None => (raw, [])
                        end in
  match unquote_bytes (ascii_part encoded) with
  | [] => []
  | b =>
      match codecs (match cs with [] => charset | _ => cs end) b with
      | Some t => t
      | None =>
          match codecs (match charset with [] => u "utf-8" | _ => charset end) b with
          | Some t => t
          | None => unquote raw
          end
      end
  end.

(** _parsers.py:321-334 with that decoder: the parameters of the form parser of a request whose content type
    names [charset]. *)
Definition request_env (codecs : codecs_t) (charset : str) (decode : str -> option str) (files fields : nat) : env :=
  {| codec := decode; rfc5987 := decode_raw codecs charset; max_files := files; max_fields := fields |}.
