(** Model of websocket routes: [WebSocketPath] (lilya/routing/websocket.py), [Include]
    (lilya/routing/include.py) and [BaseRouter] (lilya/routing/router.py) on a websocket, the handling of
    exceptions there (lilya/routing/base.py:104-175, lilya/_internal/_exception_handlers.py,
    lilya/_internal/_responses.py:1096-1193, lilya/middleware/exceptions.py) and an application around
    them (lilya/apps.py:105-147).
    Simplified: which routes match a connection is given; what is received is not modelled; what middlewares
    and permissions do after the rest has ended is not modelled; the resolution of dependencies is in
    DepModel. *)
From Verif Require Import PyStr ExcModel.

(** Messages to the server; the code of a close may be None (base.py:119-128, 164-175). *)
Inductive msg := MAccept | MData (text : str) | MClose (code : option Z) (reason : str).
(** How a call ends: normally, by an exception, by [ContinueRouting], by [PassPartialMatches]; the last two are
    no [Exception] (exceptions.py:93-97, routing/types.py:54-63). *)
Inductive ending := Done | Raise (e : exc) | Defer | PassOn.
(** What is observed: messages, and who was called: hooks, middlewares and permissions, endpoints, handlers. *)
Inductive part := Before | Guard | Endpoint | After | Handler.
Inductive ev := Sent (m : msg) | Did (p : part) (n : nat).
Definition res := (list ev * ending)%type.

(** What a middleware or permission does: call the rest, or send messages and end. *)
Inductive verdict := Pass | Stop (ms : list msg) (o : ending).
(** The components supplied by the user; the code and reason of a [WebSocketException] and the [repr] of an
    exception; exceptions made by the framework. *)
Record world := {
  hook : nat -> list msg * ending; guard : nat -> verdict; endpoint : nat -> list msg * ending;
  handle : nat -> exc -> list msg * ending;
  ws_code : exc -> Z; ws_reason : exc -> str; repr : exc -> str;
  runtime_error : exc; assertion_error : exc; not_found : exc }.

(** An endpoint: a function, or a controller class or other application. *)
Inductive target := Function (n : nat) | Controller (n : nat).
(** The options of a route: hooks before, middlewares and permissions, hooks after, exception handlers. *)
Record options := { o_before : list nat; o_guards : list nat; o_after : list nat; o_handlers : table }.
(** The options of an application; [a_mids] are its middlewares, the rest is given to its router. *)
Record settings := { a_handlers : table; a_mids : list nat; a_before : list nat; a_perms : list nat; a_after : list nat }.
(** A route as a connection meets it: one that does not match; a [WebSocketPath]; an [Include] of routes; an
    [Include] of an application. *)
Inductive node :=
| Miss
| WsPath (o : options) (t : target)
| Inc (o : options) (rs : list node)
| Mount (o : options) (a : settings) (rs : list node).

(** The second part runs if the first one ends normally. *)
Definition seq (r k : res) : res := match snd r with Done => (fst r ++ fst k, snd k) | _ => r end.
Definition says (p : part) (n : nat) (x : list msg * ending) : res := (Did p n :: map Sent (fst x), snd x).
Definition is_sent (e : ev) : bool := match e with Sent _ => true | _ => false end.
(** datastructures.py:854-888: the sniffer saw a message. *)
Definition sent (t : list ev) : bool := existsb is_sent t.
Definition is_close (e : ev) : bool := match e with Sent (MClose _ _) => true | _ => false end.

Section World.
  Variable w : world.

  (** websocket.py:234-241, 245-252, include.py:266-285, router.py:656-675: hooks in order. *)
  Fixpoint hooks (p : part) (ns : list nat) : res :=
    match ns with [] => ([], Done) | n :: ns' => seq (says p n (hook w n)) (hooks p ns') end.
  (** _internal/_middleware.py:93-112 [apply_asgi_stack]. *)
  Fixpoint guards (ns : list nat) (inner : res) : res :=
    match ns with
    | [] => inner
    | n :: ns' =>
        match guard w n with
        | Pass => let r := guards ns' inner in (Did Guard n :: fst r, snd r)
        | Stop ms o => says Guard n (ms, o)
        end
    end.

  (** base.py:119-128 [_get_status_code]. *)
  Definition status_of (e : exc) : option Z := match e_status e with NoAttr => Some 500%Z | HasNone => None | Has z => Some z end.
  (** base.py:104-118, 164-175 on a websocket: the handlers of the route are not looked at. *)
  Definition closing (o : options) (r : res) : res :=
    match snd r with
    | Raise e => (fst r ++ [Sent (MClose (status_of e) (repr w e))], Done)
    | _ => r
    end.

  (** exceptions.py:145-181 and _exception_handlers.py:158-177 [handle_websocket_exception]: the response of
      [http_exception] is dropped; [websocket_exception] closes the websocket, which fails if it was closed
      before through the same object (websockets.py:76-84). *)
  Definition handled (shut : bool) (h : handler) (e : exc) : res :=
    match h with
    | User n => says Handler n (handle w n e)
    | HttpDefault => ([], Done)
    | WsDefault => if shut then ([], Raise (runtime_error w)) else ([Sent (MClose (Some (ws_code w e)) (ws_reason w e))], Done)
    end.
  Definition scoped := option (class_table * status_table).
  (** _exception_handlers.py:49-109 [wrap_app_handling_exceptions], with what [ExceptionMiddleware] put into the
      scope: the websocket is the one the function uses. The status of an exception that is an HTTPException is
      taken to be there. *)
  Definition wrapped (s : scoped) (r : res) : res :=
    match snd r with
    | Raise e =>
        match s with
        | None => r
        | Some ts =>
            match lookup ts e with
            | None => r
            | Some h => let k := handled (existsb is_close (fst r)) h e in (fst r ++ fst k, snd k)
            end
        end
    | _ => r
    end.
  (** _responses.py:1096-1193 [handle_websocket_session] for functions; controllers are called as they are
      (websocket.py:77-80). *)
  Definition call (s : scoped) (t : target) : res :=
    match t with
    | Function n => wrapped s (says Endpoint n (endpoint w n))
    | Controller n => says Endpoint n (endpoint w n)
    end.
  (** websocket.py:222-254, include.py:253-287 [handle_dispatch]. *)
  Definition route (o : options) (inner : res) : res :=
    closing o (seq (hooks Before (o_before o)) (seq (guards (o_guards o) inner) (hooks After (o_after o)))).

  (** router.py:418-446: the routes in order until something was sent; [fin] is what comes after them. *)
  Definition loop (go : node -> res) (fin : res) : list node -> list ev -> res :=
    fix loop rs acc :=
      match rs with
      | [] => (acc ++ fst fin, snd fin)
      | n :: rs' =>
          if sent acc then (acc, Done)
          else match n with
               | Miss => loop rs' acc
               | _ =>
                   let r := go n in
                   let acc' := acc ++ fst r in
                   match snd r with
                   | Raise e => (acc', Raise e)
                   | Done => if sent acc' then (acc', Done) else loop rs' acc'
                   | Defer => if sent acc' then (acc', Raise (assertion_error w)) else loop rs' acc'
                   | PassOn => loop rs' acc'
                   end
               end
      end.
  (** router.py:466-469: a router of an [Include] passes on; router.py:496-508: any other has found nothing. *)
  Definition nothing_found (in_app : bool) : res := if in_app then ([], Raise (not_found w)) else ([Sent (MClose (Some 1000%Z) [])], Done).

  (** exceptions.py:89-143 [ExceptionMiddleware.__call__]: the websocket is a new one. *)
  Definition exception_middleware (ts : class_table * status_table) (r : res) : res :=
    match snd r with
    | Raise e => match lookup ts e with None => r | Some h => let k := handled false h e in (fst r ++ fst k, snd k) end
    | _ => r
    end.
  (** apps.py:105-147: [ServerErrorMiddleware] and [LilyaExceptionMiddleware] let websockets through; router.py:644-675. *)
  Definition tables_of (a : settings) : class_table * status_table := tables (other_handlers (a_handlers a)).
  Definition application (a : settings) (routing : res) : res :=
    guards (a_mids a) (exception_middleware (tables_of a)
      (seq (hooks Before (a_before a)) (seq (guards (a_perms a) routing) (hooks After (a_after a))))).

  Fixpoint run (s : scoped) (n : node) : res :=
    match n with
    | Miss => ([], PassOn)
    | WsPath o t => route o (call s t)
    | Inc o rs => route o (loop (run s) ([], PassOn) rs [])
    | Mount o a rs => route o (application a (loop (run (Some (tables_of a))) (nothing_found true) rs []))
    end.
  (** A connection to an application, and to a router that is used as one. *)
  Definition serve (a : settings) (rs : list node) : res :=
    application a (loop (run (Some (tables_of a))) (nothing_found true) rs []).
  Definition serve_router (rs : list node) : res := loop (run None) (nothing_found false) rs [].
End World.
