(** What the documentation of declared bodies and query parameters is to say. *)
From Coq Require Import List NArith Bool.
From Verif Require Import PyStr DeclModel.
Import ListNotations.

(** [x] is [y], or is inside it as a value of a dictionary or an item of a list, at any depth. *)
Inductive within (x : val) : val -> Prop :=
  | w_here : within x x
  | w_dict k y d : In (k, y) d -> within x y -> within x (VDict d)
  | w_list y l : In y l -> within x y -> within x (VList l).

(** Somewhere in the schema there is [format: binary]. *)
Definition takes_files (s : val) : Prop :=
  exists d, within (VDict d) s /\ dget (u "format") d = Some (VStr (u "binary")).

(** A [requestBody] object with one media type. *)
Definition body_of (media : str) (schema : val) : val :=
  VDict [(u "content", VDict [(media, VDict [(u "schema", schema)])])].

(** The media type of a schema: the one that is given, and else by whether there are files. *)
Definition media_for (given : option str) (schema : val) (media : str) : Prop :=
  match given with
  | Some (c :: r) => media = c :: r
  | _ => (takes_files schema /\ media = u "multipart/form-data") \/ (~ takes_files schema /\ media = u "application/json")
  end.

(** A complete [requestBody]: its "content" is a dictionary. *)
Definition complete (b : val) : Prop := exists d c, b = VDict d /\ dget (u "content") d = Some (VDict c).
(** A JSON Schema: a dictionary with a word of that language. *)
Definition schema_like (b : val) : Prop :=
  exists d k v, b = VDict d /\ dget k d = Some v /\
    In k [u "$ref"; u "allOf"; u "anyOf"; u "format"; u "items"; u "oneOf"; u "properties"; u "required"; u "type"].
(** The methods that have a body in the document. *)
Definition bodied (m : str) : Prop := lower m = u "post" \/ lower m = u "put" \/ lower m = u "patch" \/ lower m = u "query".

(** The parameter a declaration stands for. *)
Definition says (k : str) (v : decl) (p : param) : Prop :=
  exists q, (v = DQuery q \/ v = DArgs (Some q)) /\
    p_name p = k /\ p_in p = u "query" /\ p_required p = q_required q /\ p_text p = q_text q /\
    p_style p = q_style q /\ p_explode p = q_explode q /\
    (q_schema q = VDict [] -> p_schema p = VDict [(u "type", VStr (u "string"))]) /\
    (forall k v r, q_schema q = VDict ((k, v) :: r) -> p_schema p = q_schema q).

(** The parameters shown for a list of declarations, in its order; only values that are neither a [Query] nor a
    dictionary, list or tuple are passed over. *)
Inductive shown : list (str * decl) -> list param -> Prop :=
  | s_nil : shown [] []
  | s_some k v d p ps : says k v p -> shown d ps -> shown ((k, v) :: d) (p :: ps)
  | s_skip k d ps : shown d ps -> shown ((k, DElse) :: d) ps.
