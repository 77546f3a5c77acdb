(** Model of lilya/compat.py: [run_sync], [is_async_callable] and [AsyncResourceHandler], and of lilya/concurrency.py:
    [AsyncCallable] and [enforce_async_callable]. *)
From Verif Require Import PyStr.

(** An exception: whether its class is RuntimeError or below it, and which it is. *)
Record exc := { runtime : bool; name : nat }.
Definition already_running : exc := {| runtime := true; name := 0 |}.
Definition cannot_reuse : exc := {| runtime := true; name := 1 |}.
Inductive outcome := Done (v : nat) | Fails (e : exc).

Section Sync.
Variables (world ctx : Type).
(** The body of a coroutine: run with the context variables it sees, it changes the world and ends. *)
Definition body := ctx -> world -> world * outcome.
(** What the caller hands over. *)
Inductive job := Function (b : body) | Coroutine (b : body) | Other (e : exc).
(** The contexts in which the body was run so far, the latest last; a coroutine object is spent once it was run. *)
Definition ran := list ctx.

(** compat.py:66-69 [wrapper_fn] and the awaiting of what it gives. *)
Definition await_job (j : job) (c : ctx) (s : world * ran) : world * ran * outcome :=
  let (w, r) := s in
  match j with
  | Function b => let (w', o) := b c w in (w', r ++ [c], o)
  | Coroutine b =>
      match r with
      | [] => let (w', o) := b c w in (w', r ++ [c], o)
      | _ => (w, r, Fails cannot_reuse)
      end
  | Other e => (w, r, Fails e)
  end.
(** [anyio.run] in a thread: it refuses when an event loop runs there; the context is copied. *)
Definition anyio_run (loop : bool) (j : job) (c : ctx) (s : world * ran) : world * ran * outcome :=
  if loop then (s, Fails already_running) else await_job j c s.
(** compat.py:54-80 [run_sync], called with or without a running loop; [fresh] is the context of a new thread of
    [ThreadPoolExecutor], which does not copy that of the caller. Simplification: [Other e] stands for the type check. *)
Definition run_sync (fresh : ctx) (loop : bool) (c : ctx) (j : job) (w : world) : world * ran * outcome :=
  match j with
  | Other e => (w, [], Fails e)
  | _ =>
      match anyio_run loop j c (w, []) with
      | (s, Fails e) => if runtime e then anyio_run false j fresh s else (s, Fails e)
      | r => r
      end
  end.
End Sync.
Arguments Function {world ctx}. Arguments Coroutine {world ctx}. Arguments Other {world ctx}.

(** Python objects that are handed over as handlers. A definition: [async def] or [def], and, for the latter, whether it
    returns something to be awaited. *)
Record def := { is_async : bool; returns_awaitable : bool }.
Inductive object :=
| Func (d : def) | Method (d : def) | Instance (call : option def) | Class (call : option def) | Partial (o : object).
(** [inspect.iscoroutinefunction]: functions, methods and partials of them. *)
Fixpoint iscoroutinefunction (o : object) : bool :=
  match o with
  | Func d | Method d => is_async d
  | Instance _ | Class _ => false
  | Partial o' => iscoroutinefunction o'
  end.
(** [obj.__call__]; for a class that defines none it is a slot of [type], for one that does it is the plain function. *)
Definition dunder_call (o : object) : option def :=
  match o with
  | Func _ | Method _ | Partial _ => Some {| is_async := false; returns_awaitable := false |}
  | Instance c => c
  | Class c => match c with Some d => Some d | None => Some {| is_async := false; returns_awaitable := false |} end
  end.
Fixpoint unwrap (o : object) : object := match o with Partial o' => unwrap o' | _ => o end.
(** compat.py:42-51 [is_async_callable]. *)
Definition is_async_callable (o : object) : bool :=
  let o := unwrap o in
  iscoroutinefunction o || match dunder_call o with Some d => is_async d | None => false end.
(** concurrency.py:22-26 [enforce_async_callable]. *)
Inductive enforced := AsIs (o : object) | InThread (o : object).
Definition enforce_async_callable (o : object) : enforced := if is_async_callable o then AsIs o else InThread o.

(** compat.py:83-126 [AsyncResourceHandler], one of which may be used by many tasks. [single]: the awaitable is a coroutine, as
    in [Request.form] (requests.py:310-328), so it can be awaited once. Resources are numbered as they are made. *)
Inductive event := Enter (task : nat) | Exit (task : nat).
Record handler := { made : nat; entered : nat; inside : list nat; closed : list nat }.
Definition fresh_handler : handler := {| made := 0; entered := 0; inside := []; closed := [] |}.
Fixpoint leave (t : nat) (l : list nat) : list nat :=
  match l with [] => [] | x :: r => if Nat.eqb x t then r else x :: leave t r end.
Definition handle (single : bool) (h : handler) (e : event) : handler :=
  match e with
  | Enter t =>
      if single && negb (Nat.eqb (made h) 0) then h
      else {| made := S (made h); entered := made h; inside := t :: inside h; closed := closed h |}
  | Exit t =>
      if existsb (Nat.eqb t) (inside h)
      then {| made := made h; entered := entered h; inside := leave t (inside h); closed := closed h ++ [entered h] |}
      else h
  end.
Definition handles (single : bool) (es : list event) : handler := fold_left (handle single) es fresh_handler.
