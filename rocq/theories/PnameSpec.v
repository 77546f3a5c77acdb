(** Forms whose parts declare any parameters in their Content-Disposition. *)
From Verif Require Import PyStr MultipartModel MultipartSpec.

(** A parameter: its name, its value, and whether the value is written in quotes. *)
Record param := { k_name : str; k_value : str; k_quoted : bool }.
Definition param_text (k : param) : str :=
  u "; " ++ k_name k ++ u "=" ++ (if k_quoted k then quoted (k_value k) else k_value k).
(** A part: what it declares, its other headers, its body. *)
Record gpart := { g_params : list param; g_headers : list (str * str); g_body : str }.
Definition g_disposition (g : gpart) : str := u "form-data" ++ concat (map param_text (g_params g)).
Definition encode_gpart (bd : str) (g : gpart) : str :=
  bd ++ crlf ++ concat (map header_line ((u "Content-Disposition", g_disposition g) :: g_headers g)) ++ crlf ++ g_body g ++ crlf.
Definition encode_gform (boundary : str) (gs : list gpart) : str :=
  concat (map (encode_gpart (u "--" ++ boundary)) gs) ++ u "--" ++ boundary ++ u "--" ++ crlf.

(** Parameter names are of small letters and "*"; values have neither CR nor ";", and one without quotes
    around it has neither blanks nor quotes in it. *)
Definition good_param (k : param) : Prop :=
  k_name k <> [] /\ (forall c, In c (k_name k) -> (97 <= c <= 122)%N \/ c = 42%N) /\
  (forall c, In c (k_value k) -> c <> 13%N /\ c <> 59%N) /\
  (k_quoted k = false -> k_value k <> [] /\ forall c, In c (k_value k) -> (32 < c < 127)%N /\ c <> 34%N).
Definition good_gpart (boundary : str) (g : gpart) : Prop :=
  Forall good_param (g_params g) /\ NoDup (map k_name (g_params g)) /\
  (forall n v, In (n, v) (g_headers g) -> ~ In 13%N n /\ ~ In 58%N n /\ ~ In 13%N v /\ trimmed n /\ trimmed v) /\
  NoDup (u "content-disposition" :: map (fun h => lower (fst h)) (g_headers g)) /\
  ~ occurs (crlf ++ u "--" ++ boundary) (g_body g).

Definition declares (g : gpart) (name value : str) : Prop :=
  exists k, In k (g_params g) /\ k_name k = name /\ k_value k = value.
Definition silent_on (g : gpart) (name : str) : Prop := ~ In name (map k_name (g_params g)).

(** The name of a part: its [name] as text, or else its [name*] decoded. *)
Definition named (e : env) (g : gpart) (name : str) : Prop :=
  (exists v, declares g (u "name") v /\ user_safe_decode e v = Some name) \/
  (silent_on g (u "name") /\ exists v, declares g (u "name*") v /\ name = rfc5987 e v).
(** A file is a part with a [filename]; any other part is a field. *)
Definition g_file (g : gpart) : bool := existsb (fun k => seqb (k_name k) (u "filename")) (g_params g).
Definition gitem (e : env) (g : gpart) (it : str * (str + option file)) : Prop :=
  exists name, named e g name /\
  ((silent_on g (u "filename") /\ exists t, user_safe_decode e (g_body g) = Some t /\ it = (name, inl t)) \/
   (exists f fn, declares g (u "filename") f /\ user_safe_decode e f = Some fn /\
      it = (name, inr (Some {| f_name := fn;
                               f_headers := (u "content-disposition", g_disposition g) :: map (fun h => (lower (fst h), snd h)) (g_headers g);
                               f_content := g_body g; f_pos := 0; f_size := length (g_body g) |})))).
