(** Model of the ways routes are registered: the decorators of lilya/routing/mixins.py, the methods of
    lilya/routing/router.py:510-619, 679-777 and those of lilya/apps.py:153-339, 414-503, 1399-1510.
    What a route does with its options is modelled elsewhere (OptsModel, DispModel). *)
From Verif Require Import PyStr RouterModel.

(** The options that may be given; middlewares, permissions, handlers of exceptions, dependencies and
    hooks are numbered. *)
Record options := {
  o_name : option str; o_middleware : option (list nat); o_permissions : option (list nat); o_handlers : option (list (nat * nat));
  o_dependencies : option (dict nat); o_schema : bool; o_before : option (list nat); o_after : option (list nat) }.
(** Registered routes: [Path] (with the methods it was given), [WebSocketPath], [Include] and [Host]. *)
Inductive shape :=
| PathOf (methods : option (list str))
| SocketOf
| IncludeOf (namespace pattern : option str) (redirect_slashes deprecated : bool)
| HostOf.
Record entry := { e_shape : shape; e_path : str; e_target : nat; e_options : options }.

(** A router is known by its list of routes. *)
Definition routes := list entry.

(** router.py:557-589 [add_route]. *)
Definition add_route (path : str) (handler : nat) (methods : option (list str)) (o : options) (rs : routes) : routes :=
  rs ++ [{| e_shape := PathOf methods; e_path := path; e_target := handler; e_options := o |}].
(** router.py:591-619 [add_websocket_route]: there is no [include_in_schema], True stands for the default. *)
Definition add_websocket_route (path : str) (handler : nat) (o : options) (rs : routes) : routes :=
  rs ++ [{| e_shape := SocketOf; e_path := path; e_target := handler; e_options := o |}].
(** router.py:510-546 [include]. *)
Definition include (path : str) (target : nat) (namespace pattern : option str) (redirect : bool) (o : options) (rs : routes) : routes :=
  rs ++ [{| e_shape := IncludeOf namespace pattern redirect false; e_path := path; e_target := target; e_options := o |}].
Definition no_options (name : option str) : options :=
  {| o_name := name; o_middleware := None; o_permissions := None; o_handlers := None; o_dependencies := None; o_schema := true;
     o_before := None; o_after := None |}.
(** router.py:548-555 [host]. *)
Definition host (h : str) (target : nat) (name : option str) (rs : routes) : routes :=
  rs ++ [{| e_shape := HostOf; e_path := h; e_target := target; e_options := no_options name |}].

(** router.py:679-728 [Router.route]: a decorator; it registers the function and gives it back. *)
Definition decorator := nat -> routes -> routes * nat.
Definition route_of (path : str) (methods : list str) (o : options) : decorator :=
  fun func rs => (add_route path func (Some methods) o rs, func).
(** router.py:730-777 [Router.websocket]. *)
Definition websocket_of (path : str) (o : options) : decorator :=
  fun func rs => (add_websocket_route path func o rs, func).

(** The nine decorators of mixins.py. *)
Inductive verb := VGet | VHead | VQuery | VPost | VPut | VPatch | VDelete | VTrace | VOptions.
(** mixins.py:44, 87, 130, 173, 216, 259, 302, 345, 388: the method each hands on. *)
Definition verb_method (v : verb) : str :=
  match v with
  | VGet => u "GET" | VHead => u "HEAD" | VQuery => u "QUERY" | VPost => u "POST" | VPut => u "PUT" | VPatch => u "PATCH"
  | VDelete => u "DELETE" | VTrace => u "TRACE" | VOptions => u "OPTIONS"
  end.
(** mixins.py:12, 55, 98, 141, 184, 227, 270, 313, 356: their names as attributes of a router. *)
Definition attribute (name : str) : option verb :=
  if seqb name (u "get") then Some VGet else if seqb name (u "head") then Some VHead else if seqb name (u "query") then Some VQuery
  else if seqb name (u "post") then Some VPost else if seqb name (u "put") then Some VPut else if seqb name (u "patch") then Some VPatch
  else if seqb name (u "delete") then Some VDelete else if seqb name (u "trace") then Some VTrace
  else if seqb name (u "options") then Some VOptions else None.
(** mixins.py:12-424 on a Router: [forward_single_method_route] (399-424) calls its [route]. *)
Definition router_verb (v : verb) (path : str) (o : options) : decorator := route_of path [verb_method v] o.
(** mixins.py:12-397 on an application, with apps.py:1399-1425 [forward_single_method_route]: the
    attribute of its router with the method in lower case; [None] is AttributeError. *)
Definition app_verb (v : verb) (path : str) (o : options) : option decorator :=
  match attribute (lower (verb_method v)) with Some v' => Some (router_verb v' path o) | None => None end.

(** apps.py:194-292 [add_route] and 294-378 [add_websocket_route] of an application have no parameters
    for dependencies and hooks: giving them is a TypeError. *)
Definition app_knows (o : options) : bool :=
  match o_dependencies o, o_before o, o_after o with None, None, None => true | _, _, _ => false end.
(** apps.py:414-466 [add_child_lilya] and 468-503 [add_asgi_app]; [lilya] says whether the child is a
    Lilya application, [None] is ValueError. *)
Definition add_asgi_app (path : str) (child : nat) (o : options) (schema deprecated : option bool) (rs : routes) : routes :=
  rs ++ [{| e_shape := IncludeOf None None true (match deprecated with Some b => b | None => false end); e_path := path; e_target := child;
            e_options := {| o_name := o_name o; o_middleware := o_middleware o; o_permissions := o_permissions o; o_handlers := o_handlers o;
                            o_dependencies := None; o_schema := match schema with Some b => b | None => true end; o_before := None; o_after := None |} |}].
Definition add_child_lilya (lilya : nat -> bool) (path : str) (child : nat) (o : options) (schema deprecated : option bool) (rs : routes) : option routes :=
  if lilya child then Some (add_asgi_app path child o schema deprecated rs) else None.

(** Calls, on the application or on its router. *)
Inductive call :=
| Verb (on_app : bool) (v : verb) (path : str) (o : options) (func : nat)
| Route (on_app : bool) (path : str) (methods : list str) (o : options) (func : nat)
| Socket (on_app : bool) (path : str) (o : options) (func : nat)
| AddRoute (on_app : bool) (path : str) (handler : nat) (methods : option (list str)) (o : options)
| AddSocket (on_app : bool) (path : str) (handler : nat) (o : options)
| AddInclude (on_app : bool) (path : str) (target : nat) (namespace pattern : option str) (redirect : bool) (o : options)
| AddHost (on_app : bool) (h : str) (target : nat) (name : option str)
| AddChild (path : str) (child : nat) (o : options) (schema deprecated : option bool)
| AddAsgi (path : str) (child : nat) (o : options) (schema deprecated : option bool).
(** What a call gives: a value (that of a decorator is the function) or an exception. *)
Inductive result := Returned (func : option nat) | Raised.
(** The routes afterwards and the result.  The methods of an application call those of its router
    (apps.py:169-183, 186-191, 283-292, 371-378, 1461-1473, 1500-1510). *)
Definition do_call (lilya : nat -> bool) (c : call) (rs : routes) : routes * result :=
  match c with
  | Verb on_app v path o f =>
      match (if on_app then app_verb v path o else Some (router_verb v path o)) with
      | Some d => let '(rs, f) := d f rs in (rs, Returned (Some f))
      | None => (rs, Raised)
      end
  | Route _ path ms o f => let '(rs, f) := route_of path ms o f rs in (rs, Returned (Some f))
  | Socket _ path o f => let '(rs, f) := websocket_of path o f rs in (rs, Returned (Some f))
  | AddRoute on_app path h ms o =>
      if on_app && negb (app_knows o) then (rs, Raised) else (add_route path h ms o rs, Returned None)
  | AddSocket on_app path h o =>
      if on_app && negb (app_knows o) then (rs, Raised) else (add_websocket_route path h o rs, Returned None)
  | AddInclude _ path t n p r o => (include path t n p r o rs, Returned None)
  | AddHost _ h t n => (host h t n rs, Returned None)
  | AddChild path ch o s d => match add_child_lilya lilya path ch o s d rs with Some rs => (rs, Returned None) | None => (rs, Raised) end
  | AddAsgi path ch o s d => (add_asgi_app path ch o s d rs, Returned None)
  end.
Definition do_calls (lilya : nat -> bool) (cs : list call) (rs : routes) : routes := fold_left (fun rs c => fst (do_call lilya c rs)) cs rs.
