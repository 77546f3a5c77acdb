(** Model of the standalone form parser: lilya/contrib/multipart/form.py, with [OctetStreamParser] of
    parsers.py and [decode_rfc5987_param] of utils.py.  Its two other parsers are those of FormModel
    ([QuerystringParser]) and MultipartModel ([MultipartParser]). *)
From Verif Require Import PyStr Utf8 FormModel MultipartModel.

(** form.py:41-105 [File]: what a callback can read of it.  The spooled file is its content, which
    [read] (form.py:97-105) returns whole wherever the cursor stands. *)
Record upload := {
  up_filename : str; up_field : str; up_type : option str; up_headers : option (dict str);
  up_content : str; up_size : nat }.
(** form.py:69-73 [File.write]. *)
Definition upload_write (b : str) (f : upload) : upload :=
  {| up_filename := up_filename f; up_field := up_field f; up_type := up_type f; up_headers := up_headers f;
     up_content := up_content f ++ b; up_size := up_size f + length b |}.

(** The calls made to the caller: [on_field] with a field's name and value, [on_file], [on_end].  All
    three callbacks are given. *)
Inductive call := CField (name value : str) | CFile (f : upload) | CEnd.

(** FormParserError, MultipartParseError and AssertionError. *)
Inductive perr := EForm | EMultipart | EAssert.

(** utils.py:12-50 [parse_options_header]: the main value and the parameters, for a text.  Characters
    outside Latin-1 are left out. *)
Definition latin1 (s : str) : str := filter (fun c => (c <? 256)%N) s.
Definition options_header (h : str) : str * dict str :=
  (lower (bstrip (hd [] (split_char 59 (latin1 h)))), header_options (Some (latin1 h))).

(** What a parser is built for. *)
Inductive kind := KMulti (boundary : str) | KOctet | KUrl.

(** form.py:184-246 [FormParser.__init__] and 475-485: the kind of parser for a content type; [None]
    is FormParserError. *)
Definition form_kind (content_type : str) : option kind :=
  let '(ctype, params) := options_header content_type in
  if seqb ctype (u "multipart/form-data") then
    match dget (u "boundary") params with
    | None | Some [] => None
    | Some b => Some (KMulti b)
    end
  else if seqb ctype (u "application/octet-stream") then Some KOctet
  else if seqb ctype (u "application/x-www-form-urlencoded") || seqb ctype (u "text/plain") then Some KUrl
  else None.

(** form.py:470-474: the headers by lower-case name, later ones winning; the content type or "". *)
Definition content_type_of (headers : list (str * str)) : str :=
  match dget (u "content-type") (fold_left (fun d h => dset (lower (fst h)) (snd h) d) headers []) with
  | Some v => v
  | None => []
  end.

(** The codecs of Python by name are outside: [codecs name bytes] decodes with "replace", or is [None]
    for an unknown name.  Decoding no bytes asks no codec. *)
Definition codecs_t : Type := str -> str -> option str.

(** utils.py:53-76 [decode_rfc5987_param] with "utf-8" as default. *)
Definition decode_5987 (codecs : codecs_t) (value : str) : str :=
  let '(charset, encoded) := match find (u "''") value with
                             | Some i => (firstn i value, skipn (i + 2) value)
                             | None => (value, [])
                             end in
  match latin1 (unquote encoded) with
  | [] => []
  | b => match charset with
         | [] => utf8_dec b
         | _ => match codecs charset b with Some t => t | None => unquote value end
         end
  end.

(** [params.get(k)] when it is not empty. *)
Definition truthy (o : option str) : option str := match o with Some [] => None | _ => o end.

(** form.py:264-272: the field name. *)
Definition push_name (codecs : codecs_t) (params : dict str) : str :=
  match truthy (match truthy (dget (u "name") params) with Some n => Some n | None => dget (u "name*") params end) with
  | None => []
  | Some raw => if suffixb (u "*") raw then decode_5987 codecs (utf8_dec raw) else utf8_dec raw
  end.
(** form.py:274-280: the file name, if any. *)
Definition push_filename (codecs : codecs_t) (params : dict str) : option str :=
  match truthy (dget (u "filename") params) with
  | Some raw => Some (utf8_dec raw)
  | None => match dget (u "filename*") params with
            | Some v => Some (decode_5987 codecs (utf8_dec v))
            | None => None
            end
  end.

(** form.py:234-235: the part being read.  [on_part_begin] clears both and [on_headers_finished] sets
    one of them, so they are never both set. *)
Inductive current := NoPart | AField (name buffer : str) | AFile (f : upload).

(** form.py:259-292 [on_headers_finished]; [hs] is [parser._headers]. *)
Definition headers_finished (codecs : codecs_t) (hs : dict str) : current :=
  let params := snd (options_header (match dget (u "content-disposition") hs with Some v => v | None => [] end)) in
  let name := push_name codecs params in
  match push_filename codecs params with
  | Some fn => AFile {| up_filename := fn; up_field := name; up_type := dget (u "content-type") hs; up_headers := Some hs;
                        up_content := []; up_size := 0 |}
  | None => AField name []
  end.

(** form.py:294-323 and Field (form.py:108-133), the callbacks on a part; the headers emitted since the part began are
    [parser._headers]. *)
Definition pcur : Type := (current * dict str)%type.
Definition push_ev (codecs : codecs_t) (st : pcur) (e : ev) : list call * pcur :=
  let '(cur, hs) := st in
  match e with
  | EBegin => ([], (NoPart, []))
  | EHeader n v => ([], (cur, hs ++ [(n, v)]))
  | EHeadersDone => ([], (headers_finished codecs hs, hs))
  | EData b => ([], (match cur with
                     | AFile f => AFile (upload_write b f)
                     | AField n d => AField n (d ++ b)
                     | NoPart => NoPart
                     end, hs))
  | EPartEnd => match cur with
                | AFile f => ([CFile f], (NoPart, hs))
                | AField n d => ([CField n (utf8_dec d)], (NoPart, hs))
                | NoPart => ([], st)
                end
  | EEnd => ([CEnd], st)
  end.
Fixpoint push_evs (codecs : codecs_t) (st : pcur) (es : list ev) : list call * pcur :=
  match es with
  | [] => ([], st)
  | e :: r => let '(cs, st') := push_ev codecs st e in
              let '(cs', st'') := push_evs codecs st' r in (cs ++ cs', st'')
  end.

(** form.py:341-371, the callbacks of the urlencoded parser: name and value so far. *)
Definition push_msg (st : str * str) (m : fmsg) : list call * (str * str) :=
  let '(k, v) := st in
  match m with
  | FStart => ([], ([], []))
  | FName b => ([], (k ++ b, v))
  | FData b => ([], (k, v ++ b))
  | FEnd => ([CField (utf8_dec k) (utf8_dec (utf8_enc (utf8_dec v)))], st)
  | FDone => ([CEnd], st)
  end.
Fixpoint push_msgs (st : str * str) (ms : list fmsg) : list call * (str * str) :=
  match ms with
  | [] => ([], st)
  | m :: r => let '(cs, st') := push_msg st m in
              let '(cs', st'') := push_msgs st' r in (cs ++ cs', st'')
  end.

(** The parser: its kind, MAX_BODY_SIZE ([None] is infinity) and the name for an octet stream are
    fixed, the rest is state. *)
Record setup := { s_kind : kind; s_limit : option nat; s_file_name : option str; s_codecs : codecs_t }.
Record pstate := {
  p_consumed : nat;                       (* _consumed_size *)
  p_multi : phase * dict str * str;       (* MultipartParser *)
  p_cur : pcur;
  p_query : str;                          (* QuerystringParser._buffer *)
  p_pair : str * str;                     (* key_buffer and value_buffer *)
  p_octet : option upload }.              (* _current_file of an octet stream *)
Definition start : pstate :=
  {| p_consumed := 0; p_multi := (Pre, [], []); p_cur := (NoPart, []); p_query := []; p_pair := ([], []); p_octet := None |}.

(** parsers.py:127-131, 186-191 and 278-282: the bytes of a chunk below the limit. *)
Definition admitted (limit : option nat) (consumed : nat) (data : str) : str :=
  match limit with None => data | Some m => firstn (m - consumed) data end.

(** form.py:380-393 [on_start]. *)
Definition octet_file (s : setup) : upload :=
  {| up_filename := match s_file_name s with None | Some [] => u "upload" | Some n => n end; up_field := u "file";
     up_type := None; up_headers := None; up_content := []; up_size := 0 |}.

Definition set_octet (st : pstate) (n : nat) (f : upload) : pstate :=
  {| p_consumed := n; p_multi := p_multi st; p_cur := p_cur st; p_query := p_query st; p_pair := p_pair st; p_octet := Some f |}.
Definition set_query (st : pstate) (n : nat) (b : str) (kv : str * str) : pstate :=
  {| p_consumed := n; p_multi := p_multi st; p_cur := p_cur st; p_query := b; p_pair := kv; p_octet := p_octet st |}.
Definition set_multi (st : pstate) (n : nat) (m : phase * dict str * str) (c : pcur) : pstate :=
  {| p_consumed := n; p_multi := m; p_cur := c; p_query := p_query st; p_pair := p_pair st; p_octet := p_octet st |}.

(** form.py:418-426 [FormParser.write] with parsers.py:120-134 and form.py:395-398, 182-209 and 274-349: the calls made,
    the exception if any, the number returned and the state. *)
Definition write (s : setup) (st : pstate) (data : str) : list call * option perr * nat * pstate :=
  match data with
  | [] => ([], None, 0, st)
  | _ =>
      let d := admitted (s_limit s) (p_consumed st) data in
      let n := p_consumed st + length d in
      match s_kind s with
      | KOctet =>
          let f := match p_octet st with Some f => f | None => octet_file s end in
          ([], None, length d, set_octet st n (match d with [] => f | _ => upload_write d f end))
      | KUrl =>
          match d with
          | [] => ([], None, 0, st)
          | _ => let '(ms, b) := qs_write (p_query st) d in
                 let '(cs, kv) := push_msgs (p_pair st) ms in
                 (cs, None, length d, set_query st n b kv)
          end
      | KMulti boundary =>
          match d with
          | [] => ([], None, 0, st)
          | _ => let '(es, w, m) := mp_write (u "--" ++ boundary) (p_multi st) d in
                 let '(cs, c) := push_evs (s_codecs s) (p_cur st) es in
                 (cs, match w with WBad => Some EMultipart | _ => None end, length d, set_multi st n m c)
          end
      end
  end.

(** form.py:428-435 [FormParser.finalize] with parsers.py:136-138 and form.py:400-407, 211-221 and 351-355. *)
Definition finalize (s : setup) (st : pstate) : list call * option perr :=
  match s_kind s with
  | KMulti _ => (fst (push_evs (s_codecs s) (p_cur st) (data_ev (snd (p_multi st)))), None)
  | KUrl => (fst (push_msgs (p_pair st) (qs_finalize (p_query st))), None)
  | KOctet => match p_octet st with
              | None => ([], Some EAssert)
              | Some f => ([CFile f; CEnd], None)
              end
  end.

(** Chunks written one after the other, then [finalize]; an exception ends it. *)
Fixpoint feed (s : setup) (st : pstate) (chunks : list str) : list call * option perr :=
  match chunks with
  | [] => finalize s st
  | c :: r => match write s st c with
              | (cs, Some e, _, _) => (cs, Some e)
              | (cs, None, _, st') => let '(cs', e) := feed s st' r in (cs ++ cs', e)
              end
  end.

(** form.py:447-495 [create_form_parser]. *)
Definition create (codecs : codecs_t) (headers : list (str * str)) (file_name : option str) (limit : option nat) : option setup :=
  match form_kind (content_type_of headers) with
  | None => None
  | Some k => Some {| s_kind := k; s_limit := limit; s_file_name := file_name; s_codecs := codecs |}
  end.

(** The chunks read before the stream says it is empty. *)
Fixpoint until_empty (reads : list str) : list str :=
  match reads with
  | [] | [] :: _ => []
  | c :: r => c :: until_empty r
  end.
Definition no_end (c : call) : bool := match c with CEnd => false | _ => true end.
(** form.py:498-523 [parse_form], given what [read] returns; there is no [on_end]. *)
Definition parse_form (codecs : codecs_t) (headers : list (str * str)) (reads : list str) : list call * option perr :=
  match create codecs headers None None with
  | None => ([], Some EForm)
  | Some s => let '(cs, e) := feed s start (until_empty reads) in (filter no_end cs, e)
  end.
