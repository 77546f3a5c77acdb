(** What a multipart body means, and where it may safely be cut. *)
From Verif Require Import PyStr MultipartModel.

(** ** Bodies *)
(** A part to be sent; [m_name] and [m_filename] are bytes in the form's charset. *)
Record mpart := { m_name : str; m_filename : option str; m_headers : list (str * str); m_body : str }.
Definition quoted (s : str) : str := [34%N] ++ s ++ [34%N].
Definition disposition (p : mpart) : str :=
  u "form-data; name=" ++ quoted (m_name p) ++
  match m_filename p with Some f => u "; filename=" ++ quoted f | None => [] end.
Definition header_line (h : str * str) : str := fst h ++ u ": " ++ snd h ++ crlf.
Definition encode_part (bd : str) (p : mpart) : str :=
  bd ++ crlf ++ concat (map header_line ((u "Content-Disposition", disposition p) :: m_headers p)) ++ crlf ++ m_body p ++ crlf.
Definition encode_form (boundary : str) (ps : list mpart) : str :=
  concat (map (encode_part (u "--" ++ boundary)) ps) ++ u "--" ++ boundary ++ u "--" ++ crlf.

(** [p] occurs in [s]. *)
Definition occurs (p s : str) : Prop := exists x y, s = x ++ p ++ y.
Definition trimmed (s : str) : Prop := strip s = s.

(** What is asked of a part: names without CR and ";", headers of different names that fit on
    lines, a body without the delimiter. *)
Definition good_part (boundary : str) (p : mpart) : Prop :=
  (forall c, In c (m_name p) \/ (exists f, m_filename p = Some f /\ In c f) -> c <> 13%N /\ c <> 59%N) /\
  (forall n v, In (n, v) (m_headers p) -> ~ In 13%N n /\ ~ In 58%N n /\ ~ In 13%N v /\ trimmed n /\ trimmed v) /\
  NoDup (u "content-disposition" :: map (fun h => lower (fst h)) (m_headers p)) /\
  ~ occurs (crlf ++ u "--" ++ boundary) (m_body p).

(** The item of a part: the name with the text of a field, or with the stored file, rewound. *)
Definition item_of (e : env) (p : mpart) (it : str * (str + option file)) : Prop :=
  exists name, user_safe_decode e (m_name p) = Some name /\
  match m_filename p with
  | None => exists t, user_safe_decode e (m_body p) = Some t /\ it = (name, inl t)
  | Some f => exists fn, user_safe_decode e f = Some fn /\
      it = (name, inr (Some {| f_name := fn;
                               f_headers := (u "content-disposition", disposition p) :: map (fun h => (lower (fst h), snd h)) (m_headers p);
                               f_content := m_body p; f_pos := 0; f_size := length (m_body p) |}))
  end.
Definition is_file (p : mpart) : bool := match m_filename p with Some _ => true | None => false end.
Definition count {A} (f : A -> bool) (l : list A) : nat := length (filter f l).

(** ** Cuts *)
(** Cutting a body into [a] and [b] is safe when each delimiter (a line start "--boundary") that
    starts before the cut is followed, before the cut, by two bytes other than "--". *)
Definition safe_cut (boundary a b : str) : Prop :=
  forall x y, crlf ++ a ++ b = x ++ (crlf ++ u "--" ++ boundary) ++ y ->
    length (crlf ++ a) <= length x \/
    (length x + length (crlf ++ u "--" ++ boundary) + 2 <= length (crlf ++ a) /\ prefixb (u "--") y = false).
Definition safe_chunks (boundary : str) (chunks : list str) : Prop :=
  forall c1 c2, chunks = c1 ++ c2 -> concat c1 <> [] -> concat c2 <> [] -> safe_cut boundary (concat c1) (concat c2).

(** ** Limits *)
(** At most [max_fields] texts and at most [max_files] files. *)
Definition within_limits (e : env) (items : list (str * (str + option file))) : Prop :=
  count (fun it => match snd it with inl _ => true | inr _ => false end) items <= max_fields e /\
  count (fun it => match snd it with inl _ => false | inr _ => true end) items <= max_files e.
(** No chunk with content arrives after the closing delimiter. *)
Definition ends_last (boundary : str) (chunks : list str) : Prop :=
  forall c1 c2, chunks = c1 ++ c2 -> concat c2 <> [] ->
    ~ occurs (crlf ++ u "--" ++ boundary ++ u "--") (crlf ++ concat c1).
