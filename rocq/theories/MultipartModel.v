(** Model of multipart form parsing: lilya/contrib/multipart/parsers.py [MultipartParser] and
    lilya/_internal/_parsers.py [MultiPartParser]. *)
From Verif Require Import PyStr Utf8.

Definition crlf : str := [13%N; 10%N].

(** parsers.py:263-270: [_started] and [_in_headers] (the fourth combination never occurs). *)
Inductive phase := Pre | Hdr | Bod.

(** The callbacks made.  [EHeader] stands for header_begin, header_field, header_value and
    header_end (parsers.py:262-272): MultiPartParser only collects the two slices and resets them
    at the end (_parsers.py:275-306), so that an omitted empty slice makes no difference. *)
Inductive ev := EBegin | EHeader (name value : str) | EHeadersDone | EData (b : str) | EPartEnd | EEnd.

(** How a [write] ends: it waits for more, it has met the end, or MultipartParseError. *)
Inductive wstatus := WWait | WEnd | WBad.
Definition wout : Type := (list ev * wstatus * (phase * dict str * str))%type.

(** parsers.py:37-65 [callback] with an empty slice calls nothing. *)
Definition data_ev (b : str) : list ev := match b with [] => [] | _ => [EData b] end.
(** parsers.py:262-272 [_emit_headers]; header text is Latin-1, one code point per byte. *)
Definition emit_headers (hs : dict str) : list ev := map (fun h => EHeader (fst h) (snd h)) hs ++ [EHeadersDone].
Definition emit (es : list ev) (o : wout) : wout := let '(es', s, st) := o in (es ++ es', s, st).
Definition drop_crlf (b : str) : str := if prefixb crlf b then skipn 2 b else b.
Definition term (bd : str) : str := bd ++ u "--".

(** parsers.py:286-349, the loops of [write] on a buffer; [bd] is "--" and the boundary.  The size
    limit is infinite, as MultiPartParser creates it.  [n] bounds the number of iterations, each of
    which takes bytes from the buffer. *)
Fixpoint run (n : nat) (bd : str) (ph : phase) (hs : dict str) (buf : str) : wout :=
  match n with
  | O => ([], WWait, (ph, hs, buf))
  | S n' =>
      match ph with
      | Pre =>
          match find crlf buf with
          | None => ([], WWait, (Pre, hs, buf))
          | Some i =>
              let line := firstn (i + 2) buf in
              let rest := skipn (i + 2) buf in
              if prefixb bd line then
                if prefixb (term bd) line then ([EEnd], WEnd, (Pre, hs, rest))
                else emit [EBegin] (run n' bd Hdr hs rest)
              else run n' bd Pre hs rest
          end
      | Hdr =>
          match find crlf buf with
          | None => ([], WWait, (Hdr, hs, buf))
          | Some i =>
              let line := firstn (i + 2) buf in
              let rest := skipn (i + 2) buf in
              if seqb line crlf then emit (emit_headers hs) (run n' bd Bod hs rest)
              else match split1 58 line with
                   | None => ([], WBad, (Hdr, hs, rest))
                   | Some (name, val) => run n' bd Hdr (dset (lower (strip name)) (strip val) hs) rest
                   end
          end
      | Bod =>
          match find (crlf ++ bd) buf with
          | None => (data_ev buf, WWait, (Bod, hs, []))
          | Some i =>
              let rest := skipn (i + 2) buf in
              if prefixb (term bd) rest then
                (data_ev (firstn i buf) ++ [EPartEnd; EEnd], WEnd, (Bod, hs, drop_crlf (skipn (length (term bd)) rest)))
              else emit (data_ev (firstn i buf) ++ [EPartEnd; EBegin])
                        (run n' bd Hdr [] (drop_crlf (skipn (length bd) rest)))
          end
      end
  end.

(** parsers.py:274-349 [write]. *)
Definition mp_write (bd : str) (st : phase * dict str * str) (data : str) : wout :=
  let '(ph, hs, buf) := st in
  match data with [] => ([], WWait, st) | _ => run (S (length (buf ++ data))) bd ph hs (buf ++ data) end.

(** utils.py:12-50 [parse_options_header], bytes only: the parameters. *)
Definition unquote_value (v : str) : str :=
  if prefixb [34%N] v && suffixb [34%N] v && (2 <=? length v)%nat then firstn (length v - 2) (skipn 1 v) else v.
Definition header_options (h : option str) : dict str :=
  match h with
  | None => []
  | Some h =>
      fold_left (fun d seg =>
        let seg := bstrip seg in
        match split1 61 seg with
        | None => d
        | Some (k, v) => dset (lower (bstrip k)) (unquote_value (bstrip v)) d
        end) (tl (split_char 59 h)) []
  end.

(** An uploaded file: datastructures.py:727-758 [DataUpload] over a temporary file, here its
    content and position. *)
Record file := { f_name : str; f_headers : list (str * str); f_content : str; f_pos : nat; f_size : nat }.
Definition file_write (d : str) (f : file) : file :=
  {| f_name := f_name f; f_headers := f_headers f;
     f_content := firstn (f_pos f) (f_content f) ++ d ++ skipn (f_pos f + length d) (f_content f);
     f_pos := f_pos f + length d; f_size := f_size f + length d |}.
Definition file_seek0 (f : file) : file :=
  {| f_name := f_name f; f_headers := f_headers f; f_content := f_content f; f_pos := 0; f_size := f_size f |}.

(** _parsers.py:40-46 [MultipartPart]; a file is given by its number among the files created. *)
Record part := { p_disp : option str; p_name : str; p_data : str; p_file : option nat; p_headers : list (str * str) }.
Definition new_part : part := {| p_disp := None; p_name := []; p_data := []; p_file := None; p_headers := [] |}.
Definition pset_data p x := {| p_disp := p_disp p; p_name := p_name p; p_data := x; p_file := p_file p; p_headers := p_headers p |}.
Definition pset_name p x := {| p_disp := p_disp p; p_name := x; p_data := p_data p; p_file := p_file p; p_headers := p_headers p |}.
Definition pset_file p x := {| p_disp := p_disp p; p_name := p_name p; p_data := p_data p; p_file := x; p_headers := p_headers p |}.
Definition padd_header p n v :=
  {| p_disp := if seqb n (u "content-disposition") then Some v else p_disp p; p_name := p_name p; p_data := p_data p;
     p_file := p_file p; p_headers := p_headers p ++ [(n, v)] |}.

(** _parsers.py:221-237, the state of the form parser. *)
Record ast := {
  a_part : part; a_items : list (str * (str + nat)); a_files : list file;
  a_nfiles : nat; a_nfields : nat; a_write : list (nat * str); a_finish : list nat }.
Definition new_ast : ast := {| a_part := new_part; a_items := []; a_files := []; a_nfiles := 0; a_nfields := 0; a_write := []; a_finish := [] |}.
Definition aset_part s x := {| a_part := x; a_items := a_items s; a_files := a_files s; a_nfiles := a_nfiles s; a_nfields := a_nfields s; a_write := a_write s; a_finish := a_finish s |}.
Definition aadd_write s i d := {| a_part := a_part s; a_items := a_items s; a_files := a_files s; a_nfiles := a_nfiles s; a_nfields := a_nfields s; a_write := a_write s ++ [(i, d)]; a_finish := a_finish s |}.
Definition aadd_item s x fin := {| a_part := a_part s; a_items := a_items s ++ [x]; a_files := a_files s; a_nfiles := a_nfiles s; a_nfields := a_nfields s; a_write := a_write s; a_finish := a_finish s ++ fin |}.
Definition aset_files s x := {| a_part := a_part s; a_items := a_items s; a_files := x; a_nfiles := a_nfiles s; a_nfields := a_nfields s; a_write := a_write s; a_finish := a_finish s |}.

(** Exceptions of the callbacks, and MultipartParseError. *)
Inductive merr := TooManyFiles | TooManyFields | NoName | BadText | BadHeaderLine.

(** The charset of the request's content type and RFC 5987 decoding (utils.py:78-101) are outside:
    [codec] decodes with that charset or fails, [rfc5987] decodes a "name*" parameter.  The limits
    are numbers. *)
Record env := { codec : str -> option str; rfc5987 : str -> str; max_files : nat; max_fields : nat }.

Definition utf8_strict (b : str) : option str := if seqb (utf8_enc (utf8_dec b)) b then Some (utf8_dec b) else None.
(** _parsers.py:49-53 [_user_safe_decode]; [None] is UnicodeDecodeError. *)
Definition user_safe_decode (e : env) (b : str) : option str :=
  match codec e b with Some t => Some t | None => utf8_strict b end.

(** _parsers.py:321-334 [_set_field_name]. *)
Definition field_name (e : env) (o : dict str) : str + merr :=
  match dget (u "name") o with
  | Some n => match user_safe_decode e n with Some t => inl t | None => inr BadText end
  | None => match dget (u "name*") o with Some n => inl (rfc5987 e n) | None => inr NoName end
  end.

(** _parsers.py:308-348 [on_headers_finished], [_handle_filename], [_handle_no_filename]. *)
Definition headers_done (e : env) (s : ast) : ast + merr :=
  let o := header_options (p_disp (a_part s)) in
  match field_name e o with
  | inr x => inr x
  | inl n =>
      let p := pset_name (a_part s) n in
      match dget (u "filename") o with
      | Some fn =>
          if (max_files e <? S (a_nfiles s))%nat then inr TooManyFiles
          else match user_safe_decode e fn with
               | None => inr BadText
               | Some fn =>
                   inl {| a_part := pset_file p (Some (length (a_files s))); a_items := a_items s;
                          a_files := a_files s ++ [{| f_name := fn; f_headers := p_headers p; f_content := []; f_pos := 0; f_size := 0 |}];
                          a_nfiles := S (a_nfiles s); a_nfields := a_nfields s; a_write := a_write s; a_finish := a_finish s |}
               end
      | None =>
          if (max_fields e <? S (a_nfields s))%nat then inr TooManyFields
          else inl {| a_part := pset_file p None; a_items := a_items s; a_files := a_files s;
                      a_nfiles := a_nfiles s; a_nfields := S (a_nfields s); a_write := a_write s; a_finish := a_finish s |}
      end
  end.

(** _parsers.py:239-319, the callbacks. *)
Definition on_ev (e : env) (s : ast) (x : ev) : ast + merr :=
  match x with
  | EBegin => inl (aset_part s new_part)
  | EHeader n v => inl (aset_part s (padd_header (a_part s) n v))
  | EHeadersDone => headers_done e s
  | EData b =>
      inl (match p_file (a_part s) with
           | None => aset_part s (pset_data (a_part s) (p_data (a_part s) ++ b))
           | Some i => aadd_write s i b
           end)
  | EPartEnd =>
      match p_file (a_part s) with
      | None => match user_safe_decode e (p_data (a_part s)) with
                | Some t => inl (aadd_item s (p_name (a_part s), inl t) [])
                | None => inr BadText
                end
      | Some i => inl (aadd_item s (p_name (a_part s), inr i) [i])
      end
  | EEnd => inl s
  end.
Fixpoint on_evs (e : env) (s : ast) (xs : list ev) : ast + merr :=
  match xs with
  | [] => inl s
  | x :: r => match on_ev e s x with inl s' => on_evs e s' r | inr x => inr x end
  end.

Fixpoint upd {A} (i : nat) (f : A -> A) (l : list A) : list A :=
  match l, i with
  | [], _ => []
  | x :: r, O => f x :: r
  | x :: r, S j => x :: upd j f r
  end.

(** _parsers.py:508-521 [_write_file_data]. *)
Definition write_file_data (s : ast) : ast :=
  let files := fold_left (fun fs w => upd (fst w) (file_write (snd w)) fs) (a_write s) (a_files s) in
  let files := fold_left (fun fs i => upd i file_seek0 fs) (a_finish s) files in
  {| a_part := a_part s; a_items := a_items s; a_files := files; a_nfiles := a_nfiles s; a_nfields := a_nfields s; a_write := []; a_finish := [] |}.

(** _parsers.py:428-436: one chunk, then the rest; [finalize] (parsers.py:351-355) at the end. *)
Fixpoint mp_loop (e : env) (bd : str) (st : phase * dict str * str) (s : ast) (chunks : list str) : ast + merr :=
  match chunks with
  | [] => on_evs e s (data_ev (snd st))
  | c :: r =>
      let '(es, w, st') := mp_write bd st c in
      match on_evs e s es with
      | inr x => inr x
      | inl s' => match w with
                  | WBad => inr BadHeaderLine
                  | _ => mp_loop e bd st' (write_file_data s') r
                  end
      end
  end.

(** The items given to FormData: texts and files. *)
Definition resolve (s : ast) (x : str * (str + nat)) : str * (str + option file) :=
  (fst x, match snd x with inl t => inl t | inr i => inr (nth_error (a_files s) i) end).
(** _parsers.py:414-437 [parse], the boundary being found in the content type. *)
Definition mp_parse (e : env) (boundary : str) (chunks : list str) : list (str * (str + option file)) + merr :=
  match mp_loop e (u "--" ++ boundary) (Pre, [], []) new_ast chunks with
  | inl s => inl (map (resolve s) (a_items s))
  | inr x => inr x
  end.
