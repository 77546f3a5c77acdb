(** Model of the handling of exceptions of http requests: the wrapper around endpoint functions
    (lilya/_internal/_responses.py:406-583), the handlers of routes and includes
    (lilya/routing/base.py:104-162), [ExceptionMiddleware] (lilya/middleware/exceptions.py),
    [LilyaExceptionMiddleware] (lilya/middleware/lilya_exception.py), [ServerErrorMiddleware]
    (lilya/middleware/server_error.py) and how the application stacks them (lilya/apps.py:105-147). *)
From Verif Require Import PyStr Asgi.

(** Exception classes are numbers; three of them have a name. *)
Definition cException : nat := 0.
Definition cHTTP : nat := 1.
Definition cWS : nat := 2.
(** The attribute [status_code] of an exception: none, None, a number. *)
Inductive sattr := NoAttr | HasNone | Has (z : Z).
(** An exception: its class and the classes it inherits from, in resolution order. *)
Record exc := { e_id : nat; e_mro : list nat; e_status : sattr; e_text : str; e_response : option (list amsg) }.
Definition e_class (e : exc) : nat := hd cException (e_mro e).
Definition is_http (e : exc) : bool := existsb (Nat.eqb cHTTP) (e_mro e).
(** [exc.status_code or 500]. *)
Definition status_or_500 (e : exc) : Z := match e_status e with Has z => if (z =? 0)%Z then 500 else z | _ => 500 end%Z.

(** Handlers: those of the user, and the two that [ExceptionMiddleware] brings. *)
Inductive handler := User (n : nat) | HttpDefault | WsDefault.
Inductive key := KStatus (z : Z) | KClass (c : nat).
Definition key_eqb (a b : key) : bool :=
  match a, b with KStatus x, KStatus y => Z.eqb x y | KClass x, KClass y => Nat.eqb x y | _, _ => false end.
(** A mapping given by the user. *)
Definition table := list (key * nat).
Fixpoint aget {K V} (eqb : K -> K -> bool) (k : K) (d : list (K * V)) : option V :=
  match d with [] => None | (k', v) :: r => if eqb k k' then Some v else aget eqb k r end.
Fixpoint aset {K V} (eqb : K -> K -> bool) (k : K) (v : V) (d : list (K * V)) : list (K * V) :=
  match d with [] => [(k, v)] | (k', v') :: r => if eqb k k' then (k', v) :: r else (k', v') :: aset eqb k v r end.

(** What a handler does: it gives a response, whose call sends messages and ends, or it raises. *)
Inductive hresult := Gives (ms : list amsg) (ends : option exc) | Raises (e : exc).
(** What is not modelled: the user's handlers, which of them are coroutine functions, the headers and
    texts of the responses made by the framework, errors of Python itself. *)
Record env := { acts : nat -> exc -> hresult; coroutine : nat -> bool; heads : exc -> list (str * str); shown : exc -> str; py_error : exc }.

(** A run of an application: the messages sent and how it ended. *)
Definition run := (list amsg * option exc)%type.
Definition is_start (m : amsg) : bool := match m with AStart _ _ => true | _ => false end.
Definition started (ms : list amsg) : bool := existsb is_start ms.

(** exceptions.py:145-169 [http_exception]; 171-181 [websocket_exception], which needs a websocket. *)
Definition http_default (en : env) (e : exc) : hresult :=
  match e_response e with
  | Some ms => Gives ms None
  | None =>
      if match e_status e with Has z => (z =? 204)%Z || (z =? 304)%Z | _ => false end
      then Gives [AStart (status_or_500 e) (heads en e); ABody [] false] None
      else Gives [AStart (status_or_500 e) (heads en e); ABody (e_text e) false] None
  end.
Definition act (en : env) (h : handler) (e : exc) : hresult :=
  match h with User n => acts en n e | HttpDefault => http_default en e | WsDefault => Raises (py_error en) end.

(** exceptions.py:39-63 [__init__], [_add_handlers]: the tables of classes and of status codes. *)
Definition class_table := list (nat * handler).
Definition status_table := list (Z * handler).
Definition add_handler (ts : class_table * status_table) (kv : key * nat) : class_table * status_table :=
  match fst kv with
  | KStatus z => (fst ts, aset Z.eqb z (User (snd kv)) (snd ts))
  | KClass c => (aset Nat.eqb c (User (snd kv)) (fst ts), snd ts)
  end.
Definition tables (t : table) : class_table * status_table := fold_left add_handler t ([(cHTTP, HttpDefault); (cWS, WsDefault)], []).

(** _exception_handlers.py:29-46 [_lookup_exception_handler]. *)
Fixpoint by_class (ct : class_table) (mro : list nat) : option handler :=
  match mro with
  | [] => None
  | c :: r => match aget Nat.eqb c ct with Some h => Some h | None => by_class ct r end
  end.
(** exceptions.py:124-133 and _responses.py:552-559: the lookup. *)
Definition lookup (ts : class_table * status_table) (e : exc) : option handler :=
  match (if is_http e then aget Z.eqb (status_or_500 e) (snd ts) else None) with
  | Some h => Some h
  | None => by_class (fst ts) (e_mro e)
  end.

(** _exception_handlers.py:136-155 [handle_http_exception]: the response is called. *)
Definition respond (ms : list amsg) (r : hresult) : run :=
  match r with Gives ms' o => (ms ++ ms', o) | Raises e => (ms, Some e) end.

(** exceptions.py:89-143 [ExceptionMiddleware.__call__] for http. *)
Definition exception_middleware (en : env) (t : table) (r : run) : run :=
  match r with
  | (ms, None) => (ms, None)
  | (ms, Some e) =>
      match lookup (tables t) e with
      | None => (ms, Some e)
      | Some h => if started ms then (ms, Some e) else respond ms (act en h e)
      end
  end.

(** _responses.py:551-583: the wrapper of an endpoint function; [t] is the table that
    [ExceptionMiddleware] put into the scope; [error_handler] is [scope["lilya.error_handler"]]. *)
Definition endpoint_wrapper (en : env) (t : table) (error_handler : option nat) (r : run) : run :=
  match r with
  | (ms, None) => (ms, None)
  | (ms, Some e) =>
      match lookup (tables t) e with
      | None =>
          if started ms then
            match error_handler with
            | Some n => match acts en n e with Raises e' => (ms, Some e') | _ => (ms, Some e) end
            | None => (ms, Some e)
            end
          else (ms, Some e)
      | Some h =>
          if started ms then match act en h e with Raises e' => (ms, Some e') | _ => (ms, Some e) end
          else respond ms (act en h e)
      end
  end.

(** base.py:104-162 [handle_exception_handlers] of a path or an include (routing/path.py:386-438,
    routing/include.py:284-285): the table is looked up by the status, then by the exact class; the
    handler is called, not awaited. *)
Definition route_handlers (en : env) (t : table) (r : run) : run :=
  match r with
  | (ms, None) => (ms, None)
  | (ms, Some e) =>
      let by_status := match e_status e with
                       | NoAttr => aget key_eqb (KStatus 500) t
                       | HasNone => None
                       | Has z => aget key_eqb (KStatus z) t
                       end in
      match (match by_status with Some n => Some n | None => aget key_eqb (KClass (e_class e)) t end) with
      | None => (ms, Some e)
      | Some n => if coroutine en n then (ms, Some (py_error en)) else respond ms (acts en n e)
      end
  end.

(** lilya_exception.py:66-104 [__call__], 131-156 [_lookup_handler], 106-129
    [create_exception_response]: the handler is awaited. *)
Definition lilya_middleware (en : env) (t : table) (r : run) : run :=
  match r with
  | (ms, None) => (ms, None)
  | (ms, Some e) =>
      if started ms then (ms, Some e)
      else
        let by_status := if is_http e then match e_status e with Has z => aget key_eqb (KStatus z) t | _ => None end
                         else aget key_eqb (KStatus 500) t in
        match (match by_status with Some n => Some n | None => aget key_eqb (KClass (e_class e)) t end) with
        | Some n => if coroutine en n then respond ms (acts en n e) else (ms, Some (py_error en))
        | None => (ms ++ [AStart (if is_http e then status_or_500 e else 500) (heads en e); ABody (shown en e) false], None)
        end
  end.

(** server_error.py:56-141 [ServerErrorMiddleware.__call__]: the response is made, sent if nothing was
    started, and the exception is raised again. *)
Definition server_error (en : env) (debug : bool) (handler : option nat) (r : run) : run :=
  match r with
  | (ms, None) => (ms, None)
  | (ms, Some e) =>
      let made := match debug, handler with
                  | false, Some n => acts en n e
                  | true, _ | false, None => Gives [AStart 500 (heads en e); ABody (shown en e) false] None
                  end in
      match made with
      | Raises e' => (ms, Some e')
      | Gives ms' o => if started ms then (ms, Some e) else (ms ++ ms', match o with Some e' => Some e' | None => Some e end)
      end
  end.

(** apps.py:129-147: the handler for 500 or Exception goes to [ServerErrorMiddleware] and is left out
    of the others. *)
Definition error_handler (t : table) : option nat :=
  match aget key_eqb (KStatus 500) t with Some n => Some n | None => aget key_eqb (KClass cException) t end.
Definition other_handlers (t : table) : table :=
  filter (fun kv => negb (key_eqb (fst kv) (KStatus 500) || key_eqb (fst kv) (KClass cException))) t.

(** apps.py:105-126 [build_middleware_stack] without custom middleware around an endpoint that runs as
    [r], a function or (not [wrapped]) a controller, in a path and includes with the tables [routes],
    the innermost first. *)
Definition application (en : env) (debug intercept wrapped : bool) (t : table) (routes : list table) (r : run) : run :=
  let inner := other_handlers t in
  let r1 := if wrapped then endpoint_wrapper en inner (error_handler t) r else r in
  let r2 := fold_left (fun r rt => route_handlers en rt r) routes r1 in
  let r3 := exception_middleware en inner r2 in
  let r4 := if intercept then lilya_middleware en inner r3 else r3 in
  server_error en debug (error_handler t) r4.
