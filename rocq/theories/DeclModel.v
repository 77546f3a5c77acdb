(** Model of how the openapi decorator reads a declared request body and declared query parameters
    (lilya/contrib/openapi/decorator.py, params.py) and of what the document then says (utils.py). *)
From Coq Require Import List NArith Bool.
From Verif Require Import PyStr.
Import ListNotations.

(** Values given to the decorator.  Dictionaries have text keys; [VOther] is any other value: a number, a class, an
    annotation. *)
Inductive val :=
  | VNone | VStr (s : str) | VDict (d : list (str * val)) | VList (l : list val) | VTuple (l : list val) | VOther (n : nat).

(** decorator.py:32-36 [_is_openapi_request_body_dict]. *)
Definition is_request_body (v : val) : bool :=
  match v with
  | VDict d => match dget (u "content") d with Some (VDict _) => true | _ => false end
  | _ => false
  end.

(** decorator.py:19-29. *)
Definition schema_keys : list str :=
  [u "$ref"; u "allOf"; u "anyOf"; u "format"; u "items"; u "oneOf"; u "properties"; u "required"; u "type"].
(** decorator.py:39-43 [_is_json_schema_dict]. *)
Definition is_schema (v : val) : bool :=
  match v with VDict d => existsb (fun k => dmem k d) schema_keys | _ => false end.

(** decorator.py:46-56 [_schema_contains_binary_format]. *)
Fixpoint has_binary (v : val) : bool :=
  match v with
  | VDict d =>
    (match dget (u "format") d with Some (VStr s) => seqb s (u "binary") | _ => false end) ||
    (fix go d := match d with [] => false | (_, x) :: r => has_binary x || go r end) d
  | VList l => (fix go l := match l with [] => false | x :: r => has_binary x || go r end) l
  | _ => false
  end.

(** What pydantic is asked for the schema of: the value, or a list of it (decorator.py:80-91). *)
Inductive annotation := Of (v : val) | ListOf (v : val).

Inductive result (A : Type) := Done (a : A) | ValueError | TypeError | SchemaError.
Arguments Done {A}. Arguments ValueError {A}. Arguments TypeError {A}. Arguments SchemaError {A}.

(** [media_type or x]. *)
Definition or_text (t : option str) (x : str) : str := match t with Some (c :: r) => c :: r | _ => x end.

Section Body.
  (** decorator.py:93-94: what pydantic says, [None] for an exception. *)
  Variable schema_of : annotation -> option val.

  (** decorator.py:96-101. *)
  Definition wrap (schema : val) (media : option str) : val :=
    VDict [(u "content", VDict [(or_text media (if has_binary schema then u "multipart/form-data" else u "application/json"),
                                 VDict [(u "schema", schema)])])].
  (** decorator.py:59-101 [_build_request_body_metadata]. *)
  Definition body_metadata (b : val) (media : option str) : result val :=
    match b with
    | VNone => Done (VDict [])
    | _ =>
      if is_request_body b then Done b
      else if is_schema b then Done (wrap b media)
      else
        let ask a := match schema_of a with Some s => Done (wrap s media) | None => SchemaError end in
        match b with
        | VList [x] | VTuple [x] => ask (ListOf x)
        | VList _ | VTuple _ => ValueError
        | _ => ask (Of b)
        end
    end.

  (** [not x]; the other values that come here are true. *)
  Definition falsy (v : val) : bool :=
    match v with VNone | VStr [] | VDict [] | VList [] | VTuple [] => true | _ => false end.
  (** utils.py:18-40 [_normalize_request_body_operation]. *)
  Definition normalize (b : val) (media : option str) : val :=
    if falsy b then VDict []
    else
      let content s := VDict [(u "content", VDict [(or_text media (u "application/json"), VDict [(u "schema", s)])])] in
      match b with
      | VDict d => if dmem (u "content") d then b else content b
      | VList (x :: _) => content (VDict [(u "type", VStr (u "array")); (u "items", x)])
      | _ => content b
      end.
  (** constants.py:4 [REQUEST_BODY_METHODS]. *)
  Definition with_body : list str := [u "query"; u "post"; u "put"; u "patch"].
  (** decorator.py:364-365 and utils.py:194-200: what the document says of the body of a method. *)
  Definition shown_body (m : str) (b : val) (media : option str) : result (option val) :=
    match body_metadata b media with
    | Done x =>
      Done (if smem (lower m) with_body then let y := normalize x media in if falsy y then None else Some y else None)
    | ValueError => ValueError | TypeError => TypeError | SchemaError => SchemaError
    end.
End Body.

(** params.py:6-45: a declared query parameter.  The default value is not shown in the document and is left out. *)
Record query := { q_text : option str; q_required : bool; q_schema : val; q_style : option str; q_explode : option bool }.
(** params.py:12-21 and decorator.py:296: [Query()]. *)
Definition plain : query :=
  {| q_text := None; q_required := false; q_schema := VDict []; q_style := Some (u "form"); q_explode := Some true |}.

(** What a name may be declared with (decorator.py:301-306): a [Query], a list or a tuple, a dictionary with the keyword
    arguments of a [Query] (made by the caller of the model: [None] if they are not such arguments), another value. *)
Inductive decl := DQuery (q : query) | DSeq | DArgs (q : option query) | DElse.
(** The [query] argument; a set gives its names in some order. *)
Inductive queries := QNone | QSet (l : list str) | QDict (d : list (str * decl)) | QElse.

(** decorator.py:300-307: the loop. *)
Fixpoint declared (d : list (str * decl)) (acc : list (str * query)) : result (list (str * query)) :=
  match d with
  | [] => Done acc
  | (k, v) :: r =>
    match v with
    | DQuery q => declared r (dset k q acc)
    | DSeq => ValueError
    | DArgs (Some q) => declared r (dset k q acc)
    | DArgs None => TypeError
    | DElse => declared r acc
    end
  end.
(** decorator.py:286-310 [query_strings]. *)
Definition query_strings (q : queries) : result (list (str * query)) :=
  match q with
  | QNone => Done []
  | QSet l => Done (fold_left (fun acc k => dset k plain acc) l [])
  | QDict d => declared d []
  | QElse => TypeError
  end.

(** A parameter in the document. *)
Record param := { p_name : str; p_in : str; p_required : bool; p_schema : val;
                  p_text : option str; p_style : option str; p_explode : option bool }.
(** params.py:47-63 [as_openapi_dict], and the [schema or {}] of line 40. *)
Definition as_openapi (name : str) (q : query) : param :=
  {| p_name := name; p_in := u "query"; p_required := q_required q;
     p_schema := if falsy (q_schema q) then VDict [(u "type", VStr (u "string"))] else q_schema q;
     p_text := q_text q; p_style := q_style q; p_explode := q_explode q |}.
(** utils.py:188-192: the query parameters of an operation. *)
Definition shown_queries (q : queries) : result (list param) :=
  match query_strings q with
  | Done d => Done (map (fun kq => as_openapi (fst kq) (snd kq)) d)
  | ValueError => ValueError | TypeError => TypeError | SchemaError => SchemaError
  end.
