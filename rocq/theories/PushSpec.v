(** What a form sent to the standalone parser means; the urlencoded and multipart encodings are those
    of FormSpec and MultipartSpec. *)
From Verif Require Import PyStr Utf8 FormSpec MultipartModel MultipartSpec PushModel.

(** The last content type among the headers is [t], followed by the parameters [params]: nothing, or a
    ";" and more. *)
Definition declares (headers : list (str * str)) (t params : str) : Prop :=
  exists pre n raw post, headers = pre ++ (n, raw ++ params) :: post /\
    lower n = u "content-type" /\ Forall (fun h => lower (fst h) <> u "content-type") post /\
    (params = [] \/ exists r, params = 59%N :: r) /\ ~ In 59%N raw /\
    Forall (fun c => (c < 256)%N) (raw ++ params) /\ lower (bstrip raw) = t.

(** A boundary that needs no quotes. *)
Definition plain_boundary (b : str) : Prop :=
  b <> [] /\ (forall c, In c b -> (c < 256)%N /\ c <> 13%N /\ c <> 34%N /\ c <> 59%N) /\ bstrip b = b.
Definition with_boundary (b : str) : str := u "; boundary=" ++ b.

(** Texts sent to an urlencoded form come back with a "+" for each space. *)
Definition plus_for_space (s : str) : str := map (fun c => if N.eqb c 32 then 43%N else c) s.

(** The call for a part: a field with its text, or a file with its bytes, its type and all its
    headers. *)
Definition call_of (p : mpart) : call :=
  match m_filename p with
  | None => CField (utf8_dec (m_name p)) (utf8_dec (m_body p))
  | Some f => CFile {| up_filename := utf8_dec f; up_field := utf8_dec (m_name p);
                       up_type := dget (u "content-type") (map (fun h => (lower (fst h), snd h)) (m_headers p));
                       up_headers := Some ((u "content-disposition", disposition p) :: map (fun h => (lower (fst h), snd h)) (m_headers p));
                       up_content := m_body p; up_size := length (m_body p) |}
  end.
(** Names are bytes. *)
Definition byte_names (p : mpart) : Prop :=
  forall c, In c (m_name p) \/ (exists f, m_filename p = Some f /\ In c f) -> (c < 256)%N.
(** The field name does not end in "*" and a file has a name. *)
Definition plain_names (p : mpart) : Prop := suffixb (u "*") (m_name p) = false /\ m_filename p <> Some [].

(** RFC 5987: "UTF-8", two single quotes, and the bytes of the text, the unreserved ones as they are and
    the others percent-encoded. *)
Definition rfc5987_encode (s : str) : str := u "UTF-8''" ++ flat_map quote_byte (utf8_enc s).
(** The body of a form with one file whose name is so encoded. *)
Definition starred_form (boundary name filename content : str) : str :=
  let bd := u "--" ++ boundary in
  bd ++ crlf ++ u "Content-Disposition: form-data; name=" ++ quoted name ++ u "; filename*=" ++ rfc5987_encode filename ++ crlf ++ crlf
  ++ content ++ crlf ++ bd ++ u "--" ++ crlf.
