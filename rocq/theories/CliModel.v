(** Model of lilya/cli: the table of [show-urls] (directives/operations/show_urls.py), the search of the application (env.py),
    the choice of custom directives and of their arguments (utils.py, directives/operations/run.py, base.py), the loading of
    the application (groups.py) and what [runserver] serves (directives/operations/runserver.py). *)
From Verif Require Import PyStr PathModel.

(** *** show_urls.py *)
(** Routes: an http path with what its row shows besides the address, an include, a websocket path, a host. *)
Inductive route := RPath (path : str) (row : nat) | RInclude (path : str) (routes : list route) | RWebSocket (path : str) | RHost (routes : list route).
(** show_urls.py:26-33. *)
Definition docs_elements : list str := [u "/swagger"; u "/redoc"; u "/openapi.json"; u "/openapi.yaml"; u "/openapi.yml"; u "/elements"].
Definition hidden (path : str) : bool := existsb (fun e => containsb e path) docs_elements.
(** show_urls.py:84-119 [parse_routes]; None is the AttributeError for a host, which has no [path]. *)
Fixpoint parse_route (prefix : str) (r : route) : option (list (str * nat)) :=
  match r with
  | RPath p row => let path := clean_path (prefix ++ p) in if hidden path then Some [] else Some [(path, row)]
  | RInclude p rs =>
      let path := clean_path (prefix ++ p) in
      if hidden path then Some []
      else (fix all (rs : list route) := match rs with
                                         | [] => Some []
                                         | r :: rs' => match parse_route path r with
                                                       | Some rows => match all rs' with Some more => Some (rows ++ more) | None => None end
                                                       | None => None
                                                       end
                                         end) rs
  | RWebSocket p => Some []
  | RHost _ => None
  end.
Fixpoint parse_routes (prefix : str) (rs : list route) : option (list (str * nat)) :=
  match rs with
  | [] => Some []
  | r :: rs' => match parse_route prefix r with
                | Some rows => match parse_routes prefix rs' with Some more => Some (rows ++ more) | None => None end
                | None => None
                end
  end.
Definition show_urls (rs : list route) : option (list (str * nat)) := parse_routes [] rs.

(** *** env.py *)
(** Values of a module: Lilya applications ([full]: Lilya itself, not a child), other true values, functions. A function
    gives an application or something else, and may register an application as the global instance. *)
Inductive value := VApp (full : bool) (id : nat) | VOther (id : nat) | VFunction (id : nat) (result : value) (registers : option nat).
(** A module: the global instance its import registers, and its attributes in order. *)
Record module := { imports : option nat; attrs : list (str * value) }.
Record scaffold := { app_of : value; lilya_of : option nat; at_module : nat; at_attr : str }.
(** constants.py:7-9. *)
Definition discovery_functions : list str := [u "get_application"; u "get_app"].
Definition discovery_attrs : list str := [u "application"; u "app"].
Definition kept (new old : option nat) : option nat := match new with Some _ => new | None => old end.

Fixpoint first_lilya (m : nat) (l : list (str * value)) : option scaffold :=
  match l with
  | [] => None
  | (a, VApp f i) :: _ => Some {| app_of := VApp f i; lilya_of := Some i; at_module := m; at_attr := a |}
  | _ :: l' => first_lilya m l'
  end.
Fixpoint first_attr (m : nat) (inst : nat) (names : list str) (l : list (str * value)) : option scaffold :=
  match names with
  | [] => None
  | n :: ns => match dget n l with
               | Some v => Some {| app_of := v; lilya_of := Some inst; at_module := m; at_attr := n |}
               | None => first_attr m inst ns l
               end
  end.
(** The functions, called in order; also the global instance afterwards. Simplification: a value of that name that is no
    function is passed over (Python raises). *)
Fixpoint first_function (m : nat) (inst : option nat) (names : list str) (l : list (str * value)) : option scaffold * option nat :=
  match names with
  | [] => (None, inst)
  | n :: ns => match dget n l with
               | Some (VFunction _ res reg) =>
                   let inst := kept reg inst in
                   match res with
                   | VApp true i => (Some {| app_of := res; lilya_of := Some i; at_module := m; at_attr := n |}, inst)
                   | _ => match inst with
                          | Some i => (Some {| app_of := res; lilya_of := Some i; at_module := m; at_attr := n |}, inst)
                          | None => first_function m inst ns l
                          end
                   end
               | _ => first_function m inst ns l
               end
  end.
(** env.py:157-212 [_find_app_in_folder], for one discovery file. *)
Definition find_in_module (inst : option nat) (m : nat) (md : module) : option scaffold * option nat :=
  let inst := kept (imports md) inst in
  match first_lilya m (attrs md) with
  | Some s => (Some s, inst)
  | None =>
      match match inst with Some i => first_attr m i discovery_attrs (attrs md) | None => None end with
      | Some s => (Some s, inst)
      | None => first_function m inst discovery_functions (attrs md)
      end
  end.
(** env.py:157-243 [find_app] without a path: the discovery files that exist, of the current folder, then of the folders in
    it, numbered in that order. *)
Fixpoint find_from (inst : option nat) (n : nat) (ms : list module) : option scaffold :=
  match ms with
  | [] => None
  | m :: ms' => match find_in_module inst n m with
                | (Some s, _) => Some s
                | (None, inst') => find_from inst' (S n) ms'
                end
  end.
Definition find_app (ms : list module) : option scaffold := find_from None 0 ms.
(** env.py:135-148 [import_app_from_string] on the path of a scaffold. *)
Definition import_app (ms : list module) (s : scaffold) : option value :=
  match nth_error ms (at_module s) with Some md => dget (at_attr s) (attrs md) | None => None end.

(** runserver.py:213-235: what is served. *)
Inductive served := Object (v : value) | Named (path : str).
Definition runserver (path : option str) (env_app : option value) (env_path : str) (reload : bool) (workers : bool) : served :=
  let target := match path with Some p => p | None => env_path end in
  if negb reload && negb workers then match env_app with Some v => Object v | None => Named target end else Named target.

(** *** utils.py, run.py, base.py, groups.py *)
(** utils.py:116-164 [fetch_custom_directive]: the directives found, sorted by their locations. Each is a dictionary with its
    name, [location] and [name] as keys. *)
Inductive fetched := Loads (location name : str) | Unknown | Crashes.
Definition fetch_custom (sub : str) (ds : list (str * str)) : fetched :=
  match ds with
  | [] => Crashes
  | _ =>
      match fold_left (fun acc d => if smem sub [fst d; u "location"; u "name"] then Some (snd d) else acc) ds None with
      | Some location => Loads location sub
      | None => Unknown
      end
  end.

(** run.py:101-110 [get_position]. *)
Definition position (argv : list str) : nat := if smem (u "--app") argv then 5 else 3.
Inductive directive := ByClass | ByFunction.
(** base.py:46-54 [execute_from_command] and run.py:149-156: the arguments parsed; None is the IndexError. *)
Definition received (d : directive) (argv : list str) : option (list str) :=
  match d with
  | ByClass => match nth_error argv (position argv) with Some _ => Some (skipn (S (position argv)) argv) | None => None end
  | ByFunction => Some (map (fun a => if smem a [u "-h"; u "--h"] then u "--help" else a) (skipn (position argv) argv))
  end.

(** constants.py:5; groups.py:94-116 [invoke]: whether the application is looked for. *)
Definition excluded_directives : list str := [u "createproject"; u "createapp"; u "createdeployment"; u "mail"].
Definition loads_app (argv : list str) : bool :=
  negb (smem (u "--help") argv) && negb (existsb (fun v => smem v argv) excluded_directives).
