(** What mail is expected to do, without the code's steps. *)
From Coq Require Import List NArith Bool.
From Verif Require Import PyStr MailModel.
Import ListNotations.

(** The leaves of a message, in order. *)
Fixpoint leaves (p : part) : list part :=
  match p with Leaf _ _ _ _ _ => [p] | Multi _ ps => flat_map leaves ps end.

(** A media type: two names with a slash between, or anything else, taken for octets.  [strict] asks for a second
    name that is not empty. *)
Inductive typed (strict : bool) : str -> str -> str -> Prop :=
| ty_pair t a b : t = a ++ 47%N :: b -> ~ In 47%N a -> (strict = true -> b <> []) -> typed strict t a b
| ty_none t : ~ In 47%N t -> typed strict t (u "application") (u "octet-stream")
| ty_empty t a : strict = true -> t = a ++ [47%N] -> ~ In 47%N a -> typed strict t (u "application") (u "octet-stream").

(** The part a message's body becomes when it has at most one of the two. *)
Inductive body_of (m : mail) : part -> Prop :=
| bo_html c h : body_html m = Some (c :: h) -> body_of m (Leaf (u "text") (u "html") (c :: h) None false)
| bo_text c t : body_html m = None \/ body_html m = Some [] -> body_text m = Some (c :: t) ->
    body_of m (Leaf (u "text") (u "plain") (c :: t) None false)
| bo_none : body_html m = None \/ body_html m = Some [] -> body_text m = None \/ body_text m = Some [] ->
    body_of m (Leaf (u "text") (u "plain") [] None false).

Inductive alternative_of : str * str -> part -> Prop :=
| alt_of t c a b : typed true t a b -> alternative_of (t, c) (Leaf a b c None true).
Inductive blob_of : str * str * option str -> part -> Prop :=
| blob_typed n c t a b : typed false t a b -> blob_of (n, c, Some t) (Leaf a b c (Some n) true)
| blob_plain n c : blob_of (n, c, None) (Leaf (u "application") (u "octet-stream") c (Some n) true).
(** The name after the last slash. *)
Inductive file_of (file : str -> option str) : str -> part -> Prop :=
| f_dir d n c : file (d ++ 47%N :: n) = Some c -> ~ In 47%N n ->
    file_of file (d ++ 47%N :: n) (Leaf (u "application") (u "octet-stream") c (Some n) true)
| f_here n c : file n = Some c -> ~ In 47%N n ->
    file_of file n (Leaf (u "application") (u "octet-stream") c (Some n) true).

(** Both bodies are there. *)
Definition both (m : mail) : Prop :=
  (exists c t, body_text m = Some (c :: t)) /\ (exists c h, body_html m = Some (c :: h)).
(** A message that says something. *)
Definition has_content (m : mail) : Prop :=
  (exists c t, body_text m = Some (c :: t)) \/ (exists c h, body_html m = Some (c :: h)) \/
  alternatives m <> [] \/ attachments m <> [] \/ attachment_paths m <> [].

(** ** HTML as segments: text, tags, line breaks and ends of paragraphs. *)
Definition blank (s : str) : Prop := forall c, In c s -> is_space c = true.
(** The inside of a line break tag, and of the end of a paragraph. *)
Definition is_br (b : str) : Prop := exists w1 x y w2 e,
  b = w1 ++ x :: y :: w2 ++ e /\ blank w1 /\ blank w2 /\ lower_c x = 98%N /\ lower_c y = 114%N /\ (e = [] \/ e = u "/").
Definition is_p (b : str) : Prop := exists w1 x w2,
  b = 47%N :: w1 ++ x :: w2 /\ blank w1 /\ blank w2 /\ lower_c x = 112%N.

Inductive seg := Txt (s : str) | Tag (b : str) | Br (b : str) | EndP (b : str).
Definition proper (s : seg) : Prop :=
  match s with
  | Txt t => ~ In 60%N t
  | Tag b => b <> [] /\ ~ In 60%N b /\ ~ In 62%N b /\ ~ is_br b /\ ~ is_p b
  | Br b => is_br b
  | EndP b => is_p b
  end.
Definition render1 (s : seg) : str := match s with Txt t => t | Tag b | Br b | EndP b => [60%N] ++ b ++ [62%N] end.
Definition render (l : list seg) : str := flat_map render1 l.
(** What a reader sees of it. *)
Definition shown1 (s : seg) : str := match s with Txt t => t | Tag _ => [] | Br _ | EndP _ => [10%N] end.
Definition shown (l : list seg) : str := flat_map shown1 l.

(** A piece of text between "<" and the next ">". *)
Definition tag_in (s : str) : Prop := exists a b c, s = a ++ [60%N] ++ b ++ [62%N] ++ c /\ b <> [] /\ ~ In 62%N b.
