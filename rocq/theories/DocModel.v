(** Model of lilya/contrib/openapi: the document made from the routes, the servers it names, and the declaration of
    responses. *)
From Coq Require Import List NArith Bool.
From Verif Require Import PyStr.
Import ListNotations.

(** What a security requirement maps a name to: a list of scopes, as OpenAPI has it, or the definition of the scheme. *)
Inductive secval := Scopes (l : list str) | Scheme (d : nat).

(** datastructures.py:9-72 [OpenAPIResponse]: the description, the media type, whether the model is a list, its name and
    the model itself. *)
Record response := { r_text : str; r_media : str; r_listed : bool; r_name : str; r_model : nat }.

(** decorator.py:348-365: the metadata of a decorated handler.  Texts that are only copied are numbers. *)
Record meta := {
  m_id : option str; m_summary : option nat; m_shown : bool; m_security : list (list (str * secval));
  m_query : list (str * nat); m_body : option nat; m_default : option str; m_responses : list (N * response) }.
(** A handler: its [__name__], if it has one, and its metadata, if it is decorated. *)
Record handler := { h_name : option str; h_meta : option meta }.

(** What a route answers with: a function, a controller with its attributes, or another object. *)
Inductive endpoint := Func (h : handler) | Ctrl (excluded : bool) (attrs : list (str * handler)) | Other (h : handler).
(** A path or websocket path: its template with the names of the parameters ([path_format]), [include_in_schema], whether
    it is a websocket, [methods] as the constructor leaves it (path.py:112-144, [None] if not given for other than
    functions), and its handler. *)
Record leaf := { l_path : str; l_in : bool; l_ws : bool; l_methods : option (list str); l_end : endpoint }.

(** Routes; an include has its path, with the names of the parameters only, and [include_in_schema]. *)
Inductive route := Leaf (l : leaf) | Node (path : str) (shown : bool) (rs : list route) | HostNode (rs : list route).

(** include.py:164-166: the template of an include. *)
Definition node_format (p : str) : str := (if seqb p (u "/") then [] else p) ++ u "/{path}".
(** utils.py:112: [raw.split("/{", 1)[0] if "/{" in raw else raw]. *)
Definition before_brace (s : str) : str := match find (u "/{") s with Some i => firstn i s | None => s end.

(** utils.py:104-119 [_gather_routes].  A host has no path and is left out; so is an include without routes, because it
    has no handler (utils.py:131). *)
Fixpoint gather (prefix : str) (r : route) : list (str * leaf) :=
  match r with
  | Leaf l => [(prefix ++ l_path l, l)]
  | Node p _ rs => flat_map (gather (prefix ++ before_brace (node_format p))) rs
  | HostNode _ => []
  end.

(** enums.py:98-111. *)
Definition http_methods : list str :=
  [u "GET"; u "QUERY"; u "POST"; u "PUT"; u "PATCH"; u "DELETE"; u "HEAD"; u "OPTIONS"; u "TRACE"].

(** utils.py:43-51, 140-144: the methods, or [None] if they are not iterable. *)
Definition methods_of (l : leaf) : option (list str) :=
  match l_end l with
  | Ctrl _ attrs => Some (filter (fun m => dmem (lower m) attrs) http_methods)
  | _ => if l_ws l then Some [u "GET"] else l_methods l
  end.

(** utils.py:149-153. *)
Definition handler_of (l : leaf) (m : str) : option handler :=
  match l_end l with Ctrl _ attrs => dget (lower m) attrs | Func h | Other h => Some h end.

(** The description, and for a response with a model the media type, whether it is a list, and the name referred to. *)
Definition shown_response : Type := str * option (str * bool * str).
Inductive param := InPath (name : str) | InQuery (name : str) (q : nat).
Record operation := {
  o_id : option str; o_summary : option nat; o_security : option (list (list (str * secval)));
  o_params : list param; o_body : option nat; o_responses : list (str * shown_response) }.
Record spec := { paths : list (str * list (str * operation)); schemes : list (str * secval); schemas : list (str * nat) }.

(** utils.py:177: [re.findall(r"\{([^}]+)\}", path)]; the fuel is the length of the path. *)
Fixpoint brace_names (n : nat) (s : str) : list str :=
  match n, s with
  | S n', c :: r =>
      if N.eqb c 123 then
        match split1 125 r with
        | Some (x :: name, rest) => (x :: name) :: brace_names n' rest
        | _ => brace_names n' r
        end
      else brace_names n' r
  | _, _ => []
  end.
Definition path_params (s : str) : list str := brace_names (length s) s.

(** constants.py:4. *)
Definition body_methods : list str := [u "query"; u "post"; u "put"; u "patch"].

Section World.
  (** The definitions that pydantic makes of a model: of itself under its name and of those it uses; none of a plain
      type.  Simplified: each model by itself (pydantic renames models of equal names within one operation). *)
  Variable definitions : nat -> list (str * nat).

  (** utils.py:170-175. *)
  Definition add_schemes (d : list (str * secval)) (sec : list (list (str * secval))) : list (str * secval) :=
    fold_left (fun d x => if dmem (fst x) d then d else dset (fst x) (snd x) d) (concat sec) d.
  (** utils.py:207-234. *)
  Definition add_schemas (d : list (str * nat)) (rs : list (N * response)) : list (str * nat) :=
    dupdate d (flat_map (fun r => definitions (r_model (snd r))) rs).
  (** utils.py:236-266.  What decorator.py:279-283 makes of a response has no media type, so it is JSON (utils.py:242). *)
  Definition response_of (r : N * response) : str * shown_response :=
    (dec (fst r), (match r_text (snd r) with [] => u "Successful response" | t => t end, Some (u "application/json", r_listed (snd r), r_name (snd r)))).
  Definition responses_of (default : option str) (rs : list (N * response)) : list (str * shown_response) :=
    match rs with
    | [] => [(u "200", (match default with Some (c :: t) => c :: t | _ => u "Successful response" end, None))]
    | _ => dupdate [] (map response_of rs)
    end.

  (** utils.py:159-168, 177-200, 268: what is said of a method of a path. *)
  Definition operation_of (path m : str) (h : handler) (name : str) : operation :=
    {| o_id := match h_meta h with Some mt => m_id mt | None => Some name end;
       o_summary := match h_meta h with Some mt => m_summary mt | None => None end;
       o_security := match h_meta h with Some mt => match m_security mt with [] => None | sec => Some sec end | None => None end;
       o_params := map InPath (path_params path) ++
         match h_meta h with Some mt => map (fun q => InQuery (fst q) (snd q)) (m_query mt) | None => [] end;
       o_body := if smem (lower m) body_methods then match h_meta h with Some mt => m_body mt | None => None end else None;
       o_responses := match h_meta h with Some mt => responses_of (m_default mt) (m_responses mt) | None => responses_of None [] end |}.
  (** utils.py:145-269: one method of one route; [None] is an exception. *)
  Definition add_operation (s : spec) (path : str) (l : leaf) (m : str) : option spec :=
    if seqb (upper m) (u "HEAD") then Some s
    else match handler_of l m with
    | None => None
    | Some h =>
      match h_name h with
      | None => None
      | Some name =>
        Some {| paths := dset path (dset (lower m) (operation_of path m h name)
                                        (match dget path (paths s) with Some os => os | None => [] end)) (paths s);
                schemes := match h_meta h with Some mt => add_schemes (schemes s) (m_security mt) | None => schemes s end;
                schemas := match h_meta h with Some mt => add_schemas (schemas s) (m_responses mt) | None => schemas s end |}
      end
    end.
  Fixpoint add_methods (s : spec) (path : str) (l : leaf) (ms : list str) : option spec :=
    match ms with
    | [] => Some s
    | m :: ms' => match add_operation s path l m with Some s' => add_methods s' path l ms' | None => None end
    end.
  (** utils.py:123-269: one route. *)
  Definition add_leaf (s : spec) (path : str) (l : leaf) : option spec :=
    if negb (l_in l) then Some s
    else match l_end l with
         | Ctrl true _ => Some s
         | _ => match methods_of l with Some ms => add_methods s path l ms | None => None end
         end.
  Fixpoint add_leaves (s : spec) (ls : list (str * leaf)) : option spec :=
    match ls with
    | [] => Some s
    | (path, l) :: ls' => match add_leaf s path l with Some s' => add_leaves s' ls' | None => None end
    end.
  (** utils.py:54-273 [get_openapi]: paths and components. *)
  Definition get_openapi (rs : list route) : option spec :=
    add_leaves {| paths := []; schemes := []; schemas := [] |} (flat_map (gather []) rs).
End World.

(** decorator.py:312-346 [handle_security_requirement]: dictionaries, or schemes with their names. *)
Inductive requirement := Mapping (d : list (str * secval)) | Object (name : str) (d : nat).
Definition requirements (l : list requirement) : list (list (str * secval)) :=
  match fold_left (fun d r => match r with Mapping e => dupdate d e | Object n x => dset n (Scheme x) d end) l [] with
  | [] => []
  | d => [d]
  end.

(** config.py:381-394 [enable], [_openapi]: the URLs of the servers, and those known; one request with its root path. *)
Record served := { urls : list str; known : list str }.
Definition enabled (conf : list str) : served := {| urls := conf; known := conf |}.
Definition serve (root_in_servers : bool) (s : served) (root : str) : served * list str :=
  let root := rstrip_by (N.eqb 47) root in
  let s' := if smem root (known s) then s
            else match root with
                 | [] => s
                 | _ => if root_in_servers then {| urls := root :: urls s; known := root :: known s |} else s
                 end in
  (s', match urls s' with [] => [u "/"] | us => us end).
Fixpoint serves (flag : bool) (s : served) (roots : list str) : served :=
  match roots with [] => s | r :: rs => serves flag (fst (serve flag s r)) rs end.

(** decorator.py:263-284 [response_models]: the caller's dictionary is changed in place, status by status; a response that
    has been through it has no attribute [model]. *)
Inductive declared := Given (text : str) (model : nat) | Converted (text : str) (model : nat).
Fixpoint convert_responses (d : list (nat * declared)) : option (list (nat * declared)) :=
  match d with
  | [] => Some []
  | (code, Given t m) :: d' => match convert_responses d' with Some d'' => Some ((code, Converted t m) :: d'') | None => None end
  | (_, Converted _ _) :: _ => None
  end.
(** The decorations, one after the other, of handlers that share one dictionary: how many succeed. *)
Fixpoint decorate (n : nat) (d : list (nat * declared)) : nat :=
  match n with
  | O => O
  | S n' => match convert_responses d with Some d' => S (decorate n' d') | None => O end
  end.
