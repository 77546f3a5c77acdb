(** Specification for path templates. *)
From Verif Require FltModel FltSpec.
From Verif Require Import PyStr PathModel.

(** The non-empty segments of a path. *)
Definition segments (p : str) : list str := filter (fun w => match w with [] => false | _ => true end) (split_char slash p).

(** A canonical path: "/", or a path that starts with a slash, has no empty segment and no
    trailing slash. *)
Definition canonical (p : str) : Prop :=
  p = [slash] \/
  (exists q, p = slash :: q) /\ (forall a b, p <> a ++ [slash; slash] ++ b) /\ (forall a, p <> a ++ [slash]).

(** The texts of each parameter type. *)
Definition all_in (p : N -> bool) (v : str) : Prop := forall x, In x v -> p x = true.
Definition digits (v : str) : Prop := v <> [] /\ all_in is_digit v.
Definition is_frac (first : N -> bool) (v : str) : Prop :=
  v = [] \/ exists c d, v = c :: d /\ first c = true /\ digits d.
Definition hexn (n : nat) (v : str) : Prop := length v = n /\ all_in is_hex_lower v.
Definition dign (n : nat) (v : str) : Prop := length v = n /\ all_in is_digit v.

Definition in_conv (c : conv) (v : str) : Prop :=
  match c with
  | CStr => v <> [] /\ ~ In slash v
  | CPath => ~ In 10%N v
  | CInt => digits v
  | CFloat => exists i f, v = i ++ f /\ digits i /\ is_frac (N.eqb 46) f
  | CUuid => exists a b c d e, v = a ++ u "-" ++ b ++ u "-" ++ c ++ u "-" ++ d ++ u "-" ++ e /\
      hexn 8 a /\ hexn 4 b /\ hexn 4 c /\ hexn 4 d /\ hexn 12 e
  | CDatetime => exists y mo d h mi s f,
      v = y ++ u "-" ++ mo ++ u "-" ++ d ++ u "T" ++ h ++ u ":" ++ mi ++ u ":" ++ s ++ f /\
      dign 4 y /\ dign 2 mo /\ dign 2 d /\ dign 2 h /\ dign 2 mi /\ dign 2 s /\ is_frac not_nl f
  end.

(** A template: literal text, parameter, literal text, parameter, ..., final literal text. *)
Definition template : Type := (list (str * str * conv) * str)%type.

Definition conv_name (c : conv) : str :=
  match c with
  | CStr => u "str" | CPath => u "path" | CInt => u "int" | CFloat => u "float"
  | CUuid => u "uuid" | CDatetime => u "datetime"
  end.

(** How a template is written: ["/users/{id:int}/{name:str}"]. *)
Fixpoint written_parts (ps : list (str * str * conv)) : str :=
  match ps with
  | [] => []
  | (l, n, c) :: ps' => l ++ u "{" ++ n ++ u ":" ++ conv_name c ++ u "}" ++ written_parts ps'
  end.
Definition written (t : template) : str := written_parts (fst t) ++ snd t.

(** Other ways to write it: either kind of bracket, and the type of a [str] parameter left out:
    ["/users/<id:int>/{name}"]. *)
Inductive spelled_parts : list (str * str * conv) -> str -> Prop :=
| sp_nil : spelled_parts [] []
| sp_typed l n c ps o e s : is_open o = true -> is_close e = true -> spelled_parts ps s ->
    spelled_parts ((l, n, c) :: ps) (l ++ [o] ++ n ++ u ":" ++ conv_name c ++ [e] ++ s)
| sp_untyped l n ps o e s : is_open o = true -> is_close e = true -> spelled_parts ps s ->
    spelled_parts ((l, n, CStr) :: ps) (l ++ [o] ++ n ++ [e] ++ s).
Definition spelled (t : template) (s : str) : Prop := exists w, spelled_parts (fst t) w /\ s = w ++ snd t.

(** The path obtained by putting the texts [vs] (with their names) in the holes. *)
Fixpoint filled_parts (ps : list (str * str * conv)) (vs : list (str * str)) : str :=
  match ps, vs with
  | (l, _, _) :: ps', (_, v) :: vs' => l ++ v ++ filled_parts ps' vs'
  | _, _ => []
  end.
Definition filled (t : template) (vs : list (str * str)) : str := filled_parts (fst t) vs ++ snd t.

(** [vs] gives each parameter, in order, a text of its type. *)
Definition suits (t : template) (vs : list (str * str)) : Prop :=
  Forall2 (fun p nv => fst nv = snd (fst p) /\ in_conv (snd p) (snd nv)) (fst t) vs.

Definition instance (t : template) (vs : list (str * str)) (p : str) : Prop := suits t vs /\ p = filled t vs.

(** The parameter names, and their types. *)
Definition names (ps : list (str * str * conv)) : list str := map (fun p => snd (fst p)) ps.
Definition convs_of (ps : list (str * str * conv)) : dict conv := map (fun p => (snd (fst p), snd p)) ps.

(** Well-formed templates: identifiers as names, all different, literal text without the
    characters that open a parameter. *)
Definition is_ident (n : str) : Prop := match n with c :: r => is_alpha_us c = true /\ all_in is_word r | [] => False end.
Definition plain (l : str) : Prop := all_in (fun c => negb (is_open c)) l.
Definition wf_template (t : template) : Prop :=
  (forall l n c, In (l, n, c) (fst t) -> plain l /\ is_ident n) /\ plain (snd t) /\
  NoDup (map (fun p => snd (fst p)) (fst t)) /\
  (exists q, written t = slash :: q).

(** Can the character [x] occur in, or extend, a text of type [c]?  [delimits c x] says no. *)
Definition delimits (c : conv) (x : N) : Prop :=
  match c with
  | CStr => x = slash
  | CPath => False
  | CInt => is_digit x = false
  | CFloat => is_digit x = false /\ x <> 46%N
  | CUuid => True
  | CDatetime => False
  end.
(** Unambiguous templates: every parameter is followed by the end of the template, or by literal
    text whose first character cannot belong to the parameter. *)
Fixpoint delimited (ps : list (str * str * conv)) (tail : str) : Prop :=
  match ps with
  | [] => True
  | (_, _, c) :: ps' =>
      match ps' with
      | [] => match tail with [] => True | x :: _ => delimits c x end
      | (l, _, _) :: _ => match l with [] => False | x :: _ => delimits c x end
      end /\ delimited ps' tail
  end.
Definition unambiguous (t : template) : Prop := delimited (fst t) (snd t).

(** The calendar: a date that exists, at a time of day. *)
Definition leap (y : N) : Prop := (exists k, y = 400 * k)%N \/ (exists k, y = 4 * k)%N /\ ~ (exists k, y = 100 * k)%N.
Definition month_length (y mo n : N) : Prop :=
  In (mo, n) [(1, 31); (3, 31); (4, 30); (5, 31); (6, 30); (7, 31); (8, 31); (9, 30); (10, 31); (11, 30); (12, 31)]%N
  \/ mo = 2%N /\ (leap y /\ n = 29%N \/ ~ leap y /\ n = 28%N).
Definition real_time (y mo d h mi s : N) : Prop :=
  ((1 <= y <= 9999) /\ (exists n, month_length y mo n /\ 1 <= d <= n) /\ h < 24 /\ mi < 60 /\ s < 60)%N.
(** Type invariants of the Python values. *)
Definition valid_value (v : pvalue) : Prop :=
  match v with
  | VText _ | VInt _ => True
  | VFloat (FltModel.Fin _ m e) => FltSpec.is_float m e
  | VFloat _ => True
  | VUuid h => hexn 32 h
  | VDate y mo d h mi s => real_time y mo d h mi s
  end.

(** Every value the reverse lookup accepts, of the given types, comes back. *)
Definition path_value (c : conv) (v : pvalue) : Prop :=
  match c, v with
  | CPath, VText t => ~ In 10%N t
  | CFloat, VFloat (FltModel.Fin neg m e) => neg = false /\ FltSpec.told_apart m e
  | CDatetime, VDate y _ _ _ _ _ => (1000 <= y)%N
  | _, _ => True
  end.

Definition no_brace (s : str) : Prop := ~ In 123%N s.
(** Values usable in a path: accepted by [normalise], coming back from [transform]. *)
Definition usable (c : conv) (v : pvalue) : Prop :=
  valid_value v /\ path_value c v /\ exists t, normalise c v = Some t /\ no_brace t.

(** [vs] are the texts of the parameter values [params], in the order of the template. *)
Definition rendered (t : template) (params : dict pvalue) (vs : list (str * str)) : Prop :=
  Forall2 (fun p nv => fst nv = snd (fst p) /\
             exists v, dget (snd (fst p)) params = Some v /\ normalise (snd p) v = Some (snd nv)) (fst t) vs.

(** ** Mounting *)
(** The template of everything below the mount point [t]: [t] then "/" and the rest. *)
Definition mount_template (t : template) : template := (fst t ++ [(snd t ++ [slash], u "path", CPath)], []).

(** [mountable t p]: [p] is a way to declare a mount at [t]: a canonical path, or "" or "/" for
    the root. *)
Definition mountable (t : template) (p : str) : Prop :=
  (forall l n c, In (l, n, c) (fst t) -> plain l /\ is_ident n) /\ plain (snd t) /\
  NoDup (map (fun p => snd (fst p)) (fst t)) /\ ~ In (u "path") (map (fun p => snd (fst p)) (fst t)) /\
  (t = ([], []) /\ (p = [] \/ p = [slash]) \/ p = written t /\ canonical p /\ p <> [slash]).

(** The text of a mount level is usable: a canonical path other than "/", or the root mount. *)
Definition level_ok (t : template) (vs : list (str * str)) : Prop :=
  t = ([], []) \/ canonical (filled t vs) /\ filled t vs <> [slash].

(** What a parameter is after all levels: the innermost level that has it, or the original. *)
Definition layered {V} (d : dict V) (levels : list (dict V)) (n : str) : option V :=
  fold_left (fun acc m => match dget n m with Some v => Some v | None => acc end) levels (dget n d).

(** ** Names through mounts *)
(** [located r name mounts leaf]: following [name] from the node [r] one passes the mounts
    [mounts], outermost first, and arrives at a route with template [leaf]; every route before the
    one followed has another name. *)
Inductive located : rnode -> str -> list (template * str) -> template -> Prop :=
| loc_path n t rx fmt convs : wf_template t -> compile_path (written t) = Compiled rx fmt convs ->
    located (NPath n fmt convs) n [] t
| loc_include own t p rx fmt convs before child after name mounts leaf :
    mountable t p -> compile_path (include_template p) = Compiled rx fmt convs ->
    (forall b params, In b before -> node_url b name params = NoMatchFound) ->
    located child name mounts leaf ->
    located (NInclude own fmt convs (before ++ child :: after))
            (match own with None => name | Some n => n ++ u ":" ++ name end)
            ((t, p) :: mounts) leaf.

(** All parameter names on the way. *)
Definition all_names (mounts : list (template * str)) (leaf : template) : list str :=
  concat (map (fun tp => names (fst (fst tp))) mounts) ++ names (fst leaf).

(** The path obtained by filling every level. *)
Definition filled_mounts (mounts : list (template * str)) (vss : list (list (str * str))) : str :=
  concat (map (fun x => filled (fst (fst x)) (snd x)) (combine mounts vss)).
