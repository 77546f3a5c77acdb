(** Model of [AsyncExitStackMiddleware] (lilya/middleware/asyncexit.py) and of [RequestContextMiddleware]
    (lilya/middleware/request_context.py). *)
From Verif Require Import PyStr.

(** An exception: one of [Exception], or one that is not (a cancellation). *)
Inductive raised := Ordinary (n : nat) | Cancelled.
(** What a callback of the stack, or the [__aexit__] of a context manager entered in it, does when it is
    called with the exception that is on its way, if any. *)
Inductive reaction := Passes | Suppresses | Raises (e : raised).
Record callback := { cb_name : nat; cb_act : option raised -> reaction }.
(** The calls of callbacks, each with the exception it was told of. *)
Definition call := (nat * option raised)%type.

(** contextlib.py:708-757 (Python 3.12) [AsyncExitStack.__aexit__]: the callbacks, the last pushed first;
    [exc] is what the next one is told of, [pending] says that it is to be raised.  Callbacks that push
    others while the stack unwinds are not modelled. *)
Fixpoint unwind (cbs : list callback) (exc : option raised) (pending : bool) : list call * option raised :=
  match cbs with
  | [] => ([], if pending then exc else None)
  | cb :: r =>
      let (calls, out) :=
        match cb_act cb exc with
        | Suppresses => unwind r None false
        | Passes => unwind r exc pending
        | Raises e => unwind r (Some e) true
        end in
      ((cb_name cb, exc) :: calls, out)
  end.
(** contextlib.py:691-693 [aclose]; [pushed] are the callbacks in the order they were pushed. *)
Definition aclose (pushed : list callback) : list call * option raised := unwind (rev pushed) None false.
(** asyncexit.py:39-55 [_LazyAsyncExitStack]: the stack is made when it is first used. *)
Definition lazy_aclose (pushed : list callback) : list call * option raised :=
  match pushed with [] => ([], None) | _ => aclose pushed end.
(** asyncexit.py:22-37 [__call__]: the application pushes callbacks and ends with [ended]. *)
Definition exit_middleware (pushed : list callback) (ended : option raised) : list call * option raised :=
  let exception := match ended with Some (Ordinary n) => Some (Ordinary n) | _ => None end in
  let escaping := match ended with Some Cancelled => Some Cancelled | _ => None end in
  let (calls, closing) := lazy_aclose pushed in
  match closing with
  | Some e => (calls, Some e)
  | None => (calls, match escaping with Some e => Some e | None => exception end)
  end.

(** request_context.py:43-63 [__call__]: what happens to a connection of a type; requests.py:63:
    [Request] asserts that the type is http.  The application is called, in a request context or not, or
    the assertion ends the connection. *)
Inductive scope_type := Http | Websocket | Lifespan.
Definition acts_on (t : scope_type) : bool := match t with Http | Websocket => true | Lifespan => false end.
Definition make_request (t : scope_type) : bool := match t with Http => true | _ => false end.
Inductive ran := AssertionFailed | Called (in_context : bool) (ended : option raised).
Definition request_context (t : scope_type) (app : option raised) : ran :=
  if acts_on t then if make_request t then Called true app else AssertionFailed else Called false app.

(** The context variable of context.py:358-396 with tasks that run at the same time.  Each task has a value
    of the variable of its own, copied from the task that starts it; the calls of the middleware that run in
    a task keep the tokens of their [set], the innermost first.  [Enter t r]: the request [r] reaches the
    middleware in the task [t]; [Leave t]: the innermost such call is done or has failed; [Spawn p t]: the
    task [p] starts the task or thread [t]. *)
Inductive event := Enter (t r : nat) | Leave (t : nat) | Spawn (p t : nat).
Record context := { var : nat -> option nat; tokens : nat -> list (option nat) }.
Definition put {A} (f : nat -> A) (t : nat) (x : A) : nat -> A := fun i => if Nat.eqb i t then x else f i.
Definition happens (c : context) (e : event) : context :=
  match e with
  | Enter t r => {| var := put (var c) t (Some r); tokens := put (tokens c) t (var c t :: tokens c t) |}
  | Leave t => match tokens c t with
               | [] => c
               | old :: rest => {| var := put (var c) t old; tokens := put (tokens c) t rest |}
               end
  | Spawn p t => {| var := put (var c) t (var c p); tokens := put (tokens c) t [] |}
  end.
Definition history (es : list event) : context := fold_left happens es {| var := fun _ => None; tokens := fun _ => [] |}.
(** context.py:376-387 [get_request]: [None] is the [RuntimeError]. *)
Definition get_request (c : context) (t : nat) : option nat := var c t.
