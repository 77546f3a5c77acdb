(** Model of how a handler's arguments are computed (lilya/_internal/_responses.py): the plan of a signature, the
    fast path and the general path.  Casting, providers and body parsing are oracles. *)
From Verif Require Import PyStr.

Inductive kind := QueryParam | HeaderParam | CookieParam.
Section Args.
(** Values, types to cast to, providers. *)
Context {V C P : Type} (none : V) (of_text : str -> V) (of_texts : list str -> V).
(** params.py:121-159: the markers Query, Header and Cookie; only Query has a default and uses its alias.  A
    default of None is no default. *)
Record field := { fkind : kind; alias : option str; wire_name : str; fdefault : option V; required : bool; cast : option C }.
(** A parameter's default: none, an ordinary value, a marker, or a marker of dependencies. *)
Inductive default := Empty | Plain (v : V) | Bound (f : field) | ProvidesMarker | ResolveMarker (p : P).
Definition signature := list (str * default).
(** What a request offers. *)
Record request := { path_params : dict V; query_values : str -> list str; header_values : str -> list str; cookie_value : str -> option str;
                    query_names : list str; header_names : list str; cookie_names : list str }.
(** The arguments: values, the request, the context. *)
Inductive arg := Val (v : V) | TheRequest | TheContext.
Inductive error := Unprocessable (key : str) | Other (what : str).
Inductive outcome := Args (a : dict arg) | Fails (e : error).
(** The result of a cast: a value, a TypeError or ValueError, or any other exception. *)
Inductive casted := Cast (v : V) | BadValue | Raised (what : str).
Context (do_cast : C -> V -> casted).

Definition is_marker (d : default) : bool := match d with ProvidesMarker | ResolveMarker _ => true | _ => false end.
Definition is_empty (d : default) : bool := match d with Empty => true | _ => false end.
(** _responses.py:84-148 [_build_handler_plan]. *)
Definition has_provider_markers (s : signature) : bool := existsb (fun p => is_marker (snd p)) s.
Definition has_body_candidates (s : signature) : bool := existsb (fun p => is_empty (snd p) && negb (smem (fst p) [u "request"; u "context"])) s.
Definition names (s : signature) : list str := map fst s.
(** _responses.py:374-376. *)
Definition is_fast_path_eligible (s : signature) : bool := negb (has_provider_markers s) && negb (has_body_candidates s).

(** _responses.py:103-117 and 631-641. *)
Definition key_of (n : str) (f : field) : str := match fkind f with QueryParam => match alias f with Some (c :: a) => c :: a | _ => n end | _ => wire_name f end.
(** _responses.py:466-500 and 643-655: nothing, a text, or texts. *)
Definition raw_value (r : request) (k : kind) (key : str) : option V :=
  match k with
  | CookieParam => match cookie_value r key with Some t => Some (of_text t) | None => None end
  | QueryParam => match query_values r key with [] => None | [t] => Some (of_text t) | ts => Some (of_texts ts) end
  | HeaderParam => match header_values r key with [] => None | [t] => Some (of_text t) | ts => Some (of_texts ts) end
  end.
(** _responses.py:63-75 [_resolve_bound_param_value]; a single value is no list here. *)
Definition resolve_bound (f : field) (raw : option V) : casted :=
  match raw with
  | None => match fdefault f with
            | None => Cast none
            | Some d => match cast f with Some c => do_cast c d | None => Cast d end
            end
  | Some v => match cast f with Some c => do_cast c v | None => Cast v end
  end.
Definition bound_value (r : request) (n : str) (f : field) : arg + error :=
  let key := key_of n f in
  let raw := raw_value r (fkind f) key in
  if required f && match raw with None => true | _ => false end then inr (Unprocessable key)
  else match resolve_bound f raw with
       | Cast v => inl (Val v)
       | BadValue => inr (Unprocessable key)
       | Raised w => inr (Other w)
       end.
(** _responses.py:615-668 [extract_request_params_information], on top of [a]. *)
Fixpoint bind (r : request) (s : signature) (a : dict arg) : outcome :=
  match s with
  | [] => Args a
  | (n, Bound f) :: rest => match bound_value r n f with inl v => bind r rest (dset n v a) | inr e => Fails e end
  | _ :: rest => bind r rest a
  end.
(** Path parameters that the signature names, _responses.py:459-463 and 1053-1056. *)
Definition path_args (r : request) (s : signature) : dict arg :=
  map (fun p => (fst p, Val (snd p))) (filter (fun p => smem (fst p) (names s)) (path_params r)).
(** _responses.py:450-526: the fast path (the arguments handed to the handler). *)
Definition fast (r : request) (s : signature) : outcome :=
  match bind r s (path_args r s) with
  | Fails e => Fails e
  | Args a =>
      let a := if smem (u "context") (names s) then dset (u "context") TheContext a else a in
      Args (if smem (u "request") (names s) then dset (u "request") TheRequest a else a)
  end.

(** The general path: the providers of the levels, the setting [infer_body], and the oracles for the body and
    for a provider. *)
Record surroundings := { app_deps : dict P; include_deps : list (dict P); route_deps : dict P; overrides : dict P; infer_body : bool;
                         parse_body : list str -> dict V + error; provide : P -> V + error }.
(** _responses.py:1011-1030: app, includes, handler, overrides. *)
Definition merged (e : surroundings) : dict P :=
  dupdate (dupdate (fold_left dupdate (include_deps e) (dupdate [] (app_deps e))) (route_deps e)) (overrides e).
(** _responses.py:1032-1043: [None] is a missing dependency. *)
Definition requested (m : dict P) (s : signature) : dict (option P) :=
  flat_map (fun p => match snd p with
                     | ProvidesMarker => [(fst p, dget (fst p) m)]
                     | ResolveMarker q => [(fst p, Some q)]
                     | Empty => if dmem (fst p) m then [(fst p, dget (fst p) m)] else []
                     | _ => []
                     end) s.
(** _responses.py:885-900 [_infer_body_param_names]. *)
Definition body_names (r : request) (s : signature) (req : dict (option P)) : list str :=
  map fst (filter (fun p => negb (smem (fst p) (dkeys (path_params r) ++ query_names r ++ header_names r ++ cookie_names r))
                            && negb (is_marker (snd p)) && match snd p with Bound _ => false | _ => true end
                            && negb (dmem (fst p) req) && negb (smem (fst p) [u "request"; u "websocket"; u "context"])) s).
(** _responses.py:1060-1072. *)
Fixpoint provide_all (e : surroundings) (l : dict (option P)) (a : dict arg) : outcome :=
  match l with
  | [] => Args a
  | (n, None) :: _ => Fails (Other (u "Missing dependency " ++ n))
  | (n, Some p) :: r => match provide e p with inl v => provide_all e r (dset n (Val v) a) | inr x => Fails x end
  end.
(** _responses.py:1002-1075 [_extract_params_from_request]. *)
Definition extract_params (e : surroundings) (r : request) (s : signature) : outcome :=
  let req := requested (merged e) s in
  let bn := body_names r s req in
  match (if infer_body e then match bn with [] => inl [] | _ => parse_body e bn end else inl []) with
  | inr x => Fails x
  | inl body => provide_all e req (dupdate (path_args r s) (map (fun p => (fst p, Val (snd p))) body))
  end.
(** _responses.py:528-548: the general path.  [bind] starts from the empty dict there, and its result is merged. *)
Definition general (e : surroundings) (r : request) (s : signature) : outcome :=
  match extract_params e r s with
  | Fails x => Fails x
  | Args a =>
      match bind r s [] with
      | Fails x => Fails x
      | Args b =>
          let a := if smem (u "context") (names s) then dset (u "context") TheContext a else a in
          let a := dupdate a b in
          Args (if smem (u "request") (names s) then dset (u "request") TheRequest a else a)
      end
  end.
(** _responses.py:1120-1157: the providers of a websocket handler; [own] are those of the route object. *)
Definition ws_merged (own : dict P) (e : surroundings) : dict P :=
  dupdate (dupdate (fold_left dupdate (include_deps e ++ [own]) (dupdate [] (app_deps e))) (route_deps e)) (overrides e).
(** _responses.py:1159-1186: the keyword arguments of a websocket handler; a missing dependency is a
    WebSocketException of code 1011. *)
Fixpoint ws_kwargs (provide : P -> V + error) (m : dict P) (s : signature) (a : dict arg) : outcome :=
  match s with
  | [] => Args a
  | (n, d) :: rest =>
      let go p := match provide p with inl v => ws_kwargs provide m rest (dset n (Val v) a) | inr x => Fails x end in
      match d with
      | ProvidesMarker => match dget n m with Some p => go p | None => Fails (Other (u "Missing dependency " ++ n)) end
      | ResolveMarker p => go p
      | Empty => match dget n m with Some p => go p | None => ws_kwargs provide m rest a end
      | _ => ws_kwargs provide m rest a
      end
  end.
Definition websocket_args (own : dict P) (e : surroundings) (s : signature) : outcome := ws_kwargs (provide e) (ws_merged own e) s [].
(** _responses.py:450: which path a request takes. *)
Definition handle (e : surroundings) (r : request) (s : signature) : outcome :=
  if is_fast_path_eligible s then fast r s else general e r s.
End Args.
Arguments field : clear implicits.
Arguments default : clear implicits.
Arguments signature : clear implicits.
Arguments request : clear implicits.
Arguments surroundings : clear implicits.
Arguments outcome : clear implicits.
Arguments arg : clear implicits.
Arguments casted : clear implicits.
