(** Model of the [Resolve] and [Security] parameter markers: [async_resolve_dependencies] and
    [resolve_dependencies] (lilya/dependencies.py:402-508), the part of [Provide._resolve_internal]
    that meets a marker (dependencies.py:222-236), the places where a handler's marked parameters are
    resolved (lilya/_internal/_responses.py:1034-1072 and 1164-1188), and the cleanup callbacks of a
    connection (lilya/requests.py:73-76, 331-342; lilya/websockets.py:29, 73-74, 199-205).

    Simplifications.  Functions are numbers into a table, so that a marker can name any of them.  A
    synchronous function is resolved by [run_sync] in a thread of its own while the caller waits
    (dependencies.py:446-449, compat.py:54-78): the work is done in the same order as for an
    asynchronous one, and so both are one function here. *)
From Verif Require Import PyStr.

Inductive value :=
  | VNone | VText (s : str)
  | VRequest (n : nat)                                   (* the connection *)
  | VMarker (d : nat)                                    (* a marker object left as the default of a parameter *)
  | VMade (f : nat) (kwargs : list (str * value))        (* something a function made *)
  | VCoro (f : nat) (kwargs : list (str * value)).       (* a coroutine that nobody awaited *)

(** inspect.signature: the default of a parameter.  [*args] and [**kwargs] count as [Optional]. *)
Inductive mark := Required | Optional | Resolve (d : nat) | Security (d : nat).
(** [Coro] is a coroutine function, [Sync] any other function (generator functions among them), and
    [Obj] an object whose [__call__] is asynchronous: inspect.iscoroutinefunction says no to it. *)
Inductive kind := Coro | Sync | Obj.
Record func := { f_kind : kind; f_params : list (str * mark) }.

(** What happens when a function is called: a value (awaited, if it is a coroutine), a generator
    (synchronous or not) with the first value it yields, if any, or an exception. *)
Inductive behaviour := Returns (v : value) | Generator (first : option value) | Raises (e : nat).
(** The world answers the [t]-th call; it may answer the same call differently later. *)
Definition world := nat -> nat -> dict value -> behaviour.

Inductive outcome := Ret (v : value) | TypeError | Raised (e : nat).
(** The calls made so far, with their arguments, and the calls whose generators were registered with
    [request.add_cleanup], in order. *)
Record state := { calls : list (nat * dict value); opened : list nat }.
Definition fresh : state := {| calls := []; opened := [] |}.

(** What [overrides] (a dict keyed by functions) puts in the place of a function. *)
Inductive target := TFn (n : nat) | TValue (v : value).
Definition overrides := list (nat * target).
(** dependencies.py:435 [overrides.get(dep_func, dep_func)]. *)
Fixpoint redirect (ov : overrides) (d : nat) : target :=
  match ov with [] => TFn d | (k, t) :: r => if (k =? d)%nat then t else redirect r d end.

Definition is_required (m : mark) : bool := match m with Required => true | _ => false end.
(** Calling with keyword arguments: Python refuses when a parameter without default gets nothing. *)
Definition lacking (ps : list (str * mark)) (kwargs : dict value) : bool :=
  existsb (fun p => is_required (snd p) && negb (dmem (fst p) kwargs)) ps.

(** The call itself, and dependencies.py:459-475: the first value of a generator, which is registered
    for cleanup unless it is empty. *)
Definition perform (w : world) (f : nat) (kwargs : dict value) (st : state) : outcome * state :=
  let t := length (calls st) in
  let st' := {| calls := calls st ++ [(f, kwargs)]; opened := opened st |} in
  match w t f kwargs with
  | Returns v => (Ret v, st')
  | Generator None => (Ret VNone, st')
  | Generator (Some v) => (Ret v, {| calls := calls st'; opened := opened st' ++ [t] |})
  | Raises e => (Raised e, st')
  end.

(** dependencies.py:452-475: the final call. *)
Definition finish (w : world) (fd : func) (f : nat) (kwargs : dict value) (st : state) : outcome * state :=
  if lacking (f_params fd) kwargs then (TypeError, st)
  else match f_kind fd with
       | Obj => (Ret (VCoro f kwargs), st)
       | _ => perform w f kwargs st
       end.

(** dependencies.py:432 [await param.default.dependency(request)]: the connection is the first
    positional argument, the other parameters keep their defaults; what is not a coroutine cannot be
    awaited. *)
Definition scheme_call (w : world) (tbl : list func) (rq : nat) (d : nat) (st : state) : outcome * state :=
  match nth_error tbl d with
  | None => (TypeError, st)
  | Some fd =>
      match f_params fd with
      | [] => (TypeError, st)
      | (a, _) :: _ =>
          let kwargs := [(a, VRequest rq)] in
          if lacking (f_params fd) kwargs then (TypeError, st)
          else let t := length (calls st) in
               let st' := {| calls := calls st ++ [(d, kwargs)]; opened := opened st |} in
               match f_kind fd, w t d kwargs with
               | _, Raises e => (Raised e, st')
               | Sync, _ => (TypeError, st')
               | _, Returns v => (Ret v, st')
               | _, Generator _ => (Ret (VMade d kwargs), st')       (* the generator object itself *)
               end
      end
  end.

(** dependencies.py:428-450: the loop over the parameters; [sub] resolves a nested function. *)
Fixpoint walk (sub : nat -> state -> option (outcome * state)) (w : world) (tbl : list func) (ov : overrides) (rq : nat)
    (ps : list (str * mark)) (kwargs : dict value) (st : state) : option ((dict value + outcome) * state) :=
  match ps with
  | [] => Some (inl kwargs, st)
  | (a, m) :: r =>
      match m with
      | Required | Optional => walk sub w tbl ov rq r kwargs st
      | Security d =>
          match scheme_call w tbl rq d st with
          | (Ret v, st') => walk sub w tbl ov rq r (dset a v kwargs) st'
          | (o, st') => Some (inr o, st')
          end
      | Resolve d =>
          match redirect ov d with
          | TValue v => walk sub w tbl ov rq r (dset a v kwargs) st
          | TFn g =>
              match sub g st with
              | None => None
              | Some (Ret v, st') => walk sub w tbl ov rq r (dset a v kwargs) st'
              | Some (o, st') => Some (inr o, st')
              end
          end
      end
  end.

(** dependencies.py:402-477 [async_resolve_dependencies].  [fuel] bounds the depth; [None] is a
    RecursionError. *)
Fixpoint resolve (fuel : nat) (w : world) (tbl : list func) (ov : overrides) (rq : nat) (f : nat) (st : state) : option (outcome * state) :=
  match fuel with
  | O => None
  | S n =>
      match nth_error tbl f with
      | None => Some (TypeError, st)
      | Some fd =>
          match walk (fun g st => resolve n w tbl ov rq g st) w tbl ov rq (f_params fd) [] st with
          | None => None
          | Some (inr o, st') => Some (o, st')
          | Some (inl kwargs, st') => Some (finish w fd f kwargs st')
          end
      end
  end.

(** _responses.py:1034-1072: the marked parameters of a handler, in the order of its signature.  No
    overrides are passed on, and a [Security] marker is treated like a [Resolve] marker. *)
Fixpoint arguments (fuel : nat) (w : world) (tbl : list func) (rq : nat) (ps : list (str * mark)) (data : dict value) (st : state)
    : option ((dict value + outcome) * state) :=
  match ps with
  | [] => Some (inl data, st)
  | (a, (Resolve d | Security d)) :: r =>
      match resolve fuel w tbl [] rq d st with
      | None => None
      | Some (Ret v, st') => arguments fuel w tbl rq r (dset a v data) st'
      | Some (o, st') => Some (inr o, st')
      end
  | _ :: r => arguments fuel w tbl rq r data st
  end.

(** dependencies.py:222-236: the marked parameters of the function [f] of a [Provide].  Parameters
    named in the map of dependencies (238-271) are DepModel's subject; there are none here. *)
Fixpoint provide_walk (fuel : nat) (w : world) (tbl : list func) (rq : nat) (f : nat) (ps : list (str * mark)) (kwargs : dict value) (st : state)
    : option ((dict value + outcome) * state) :=
  match ps with
  | [] => Some (inl kwargs, st)
  | (a, (Resolve _ | Security _)) :: r =>
      match resolve fuel w tbl [] rq f st with
      | None => None
      | Some (Ret v, st') => provide_walk fuel w tbl rq f r (dset a v kwargs) st'
      | Some (o, st') => Some (inr o, st')
      end
  | _ :: r => provide_walk fuel w tbl rq f r kwargs st
  end.

(** dependencies.py:278-303: where the connection is injected. *)
Definition inject_request (fd : func) (rq : nat) (kwargs : dict value) : dict value :=
  match f_params fd with
  | [] => kwargs
  | (a, m) :: more =>
      if smem (u "request") (map fst (f_params fd)) && negb (dmem (u "request") kwargs)
         || match more with [] => is_required m && negb (dmem a kwargs) | _ => false end
      then dset a (VRequest rq) kwargs else kwargs
  end.

(** dependencies.py:183-336 [Provide(f)._resolve_internal] for a function that is given no arguments,
    with an empty body and an empty map of dependencies.  Objects with an asynchronous [__call__] are
    awaited here (305-309). *)
Definition provide (fuel : nat) (w : world) (tbl : list func) (rq : nat) (f : nat) (st : state) : option (outcome * state) :=
  match nth_error tbl f with
  | None => Some (TypeError, st)
  | Some fd =>
      match provide_walk fuel w tbl rq f (f_params fd) [] st with
      | None => None
      | Some (inr o, st') => Some (o, st')
      | Some (inl kwargs, st') =>
          let k := inject_request fd rq kwargs in
          Some (if lacking (f_params fd) k then (TypeError, st') else perform w f k st')
      end
  end.

(** requests.py:339-342 and websockets.py:202-205: the callbacks in the order of registration; one
    that raises ends the loop.  [closes t] says whether closing the generator of call [t] succeeds.
    The result: the generators whose [close] was called, in order. *)
Fixpoint run_cleanups (closes : nat -> bool) (l : list nat) : list nat :=
  match l with
  | [] => []
  | t :: r => t :: (if closes t then run_cleanups closes r else [])
  end.

Inductive protocol := Http | Websocket.
(** The callbacks of the connection object that the handler is given: for HTTP it is the one the
    dependencies were resolved with (_responses.py:429, 529-546); a websocket handler gets [session]
    (1118, 1188), while its dependencies were resolved with another object (1154, 1168-1186). *)
Definition held (p : protocol) (st : state) : list nat := match p with Http => opened st | Websocket => [] end.

(** _responses.py:421-556 and 1121-1190, for what concerns the generators: the arguments are
    resolved, the handler runs, and nothing else follows; [closes_itself] says whether the handler
    awaits [close()] of its connection.  The result: the generators opened and those closed. *)
Definition serve (p : protocol) (fuel : nat) (w : world) (tbl : list func) (rq : nat) (ps : list (str * mark)) (closes_itself : bool)
    (closes : nat -> bool) : option (list nat * list nat) :=
  match arguments fuel w tbl rq ps [] fresh with
  | None => None
  | Some (inr _, st) => Some (opened st, [])
  | Some (inl _, st) => Some (opened st, if closes_itself then run_cleanups closes (held p st) else [])
  end.
