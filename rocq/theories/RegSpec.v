(** Specification of registering routes: the route a program means by a call. *)
From Verif Require Import PyStr RegModel.

(** The decorators by the names they have on applications and routers. *)
Definition decorator_names : list (str * verb) :=
  [(u "get", VGet); (u "head", VHead); (u "query", VQuery); (u "post", VPost); (u "put", VPut); (u "patch", VPatch);
   (u "delete", VDelete); (u "trace", VTrace); (u "options", VOptions)].

(** [means c e]: the call [c] asks for the route [e]. *)
Inductive means : call -> entry -> Prop :=
| m_verb a n v path o f : In (n, v) decorator_names ->
    means (Verb a v path o f) {| e_shape := PathOf (Some [upper n]); e_path := path; e_target := f; e_options := o |}
| m_route a path ms o f : means (Route a path ms o f) {| e_shape := PathOf (Some ms); e_path := path; e_target := f; e_options := o |}
| m_socket a path o f : means (Socket a path o f) {| e_shape := SocketOf; e_path := path; e_target := f; e_options := o |}
| m_add a path h ms o : means (AddRoute a path h ms o) {| e_shape := PathOf ms; e_path := path; e_target := h; e_options := o |}
| m_add_socket a path h o : means (AddSocket a path h o) {| e_shape := SocketOf; e_path := path; e_target := h; e_options := o |}
| m_include a path t n p r o : means (AddInclude a path t n p r o) {| e_shape := IncludeOf n p r false; e_path := path; e_target := t; e_options := o |}
| m_host a h t name e : e_shape e = HostOf -> e_path e = h -> e_target e = t -> o_name (e_options e) = name -> o_schema (e_options e) = true ->
    (forall x, In x [o_middleware (e_options e); o_permissions (e_options e); o_before (e_options e); o_after (e_options e)] -> x = None) ->
    o_handlers (e_options e) = None -> o_dependencies (e_options e) = None -> means (AddHost a h t name) e
| m_child path ch o s d e : child_route path ch o s d e -> means (AddChild path ch o s d) e
| m_asgi path ch o s d e : child_route path ch o s d e -> means (AddAsgi path ch o s d) e
(** An application put under a path: shown in the documentation and not deprecated unless the program
    says otherwise. *)
with child_route : str -> nat -> options -> option bool -> option bool -> entry -> Prop :=
| c_child path ch o s d e : e_path e = path -> e_target e = ch -> e_shape e = IncludeOf None None true (match d with Some true => true | _ => false end) ->
    o_name (e_options e) = o_name o -> o_middleware (e_options e) = o_middleware o -> o_permissions (e_options e) = o_permissions o ->
    o_handlers (e_options e) = o_handlers o -> o_schema (e_options e) = (match s with Some false => false | _ => true end) ->
    o_dependencies (e_options e) = None -> o_before (e_options e) = None -> o_after (e_options e) = None -> child_route path ch o s d e.

(** The calls that are refused: a child that is no Lilya application, and dependencies or hooks for
    the application's own [add_route] and [add_websocket_route]. *)
Definition plain (o : options) : Prop := o_dependencies o = None /\ o_before o = None /\ o_after o = None.
Definition refused (lilya : nat -> bool) (c : call) : Prop :=
  match c with
  | AddChild _ ch _ _ _ => lilya ch = false
  | AddRoute true _ _ _ o | AddSocket true _ _ o => ~ plain o
  | _ => False
  end.
(** The routes a history of calls asks for. *)
Inductive asks (lilya : nat -> bool) : list call -> list entry -> Prop :=
| asks_nil : asks lilya [] []
| asks_refused c cs es : refused lilya c -> asks lilya cs es -> asks lilya (c :: cs) es
| asks_one c cs e es : ~ refused lilya c -> means c e -> asks lilya cs es -> asks lilya (c :: cs) (e :: es).

Definition function_of (c : call) : option nat :=
  match c with Verb _ _ _ _ f | Route _ _ _ _ f | Socket _ _ _ f => Some f | _ => None end.
