(** Model of the decorator [observable] (lilya/decorators.py:23-88) over the dispatcher of BgModel.
    Functions are numbered; what the body of one does with its arguments is a parameter: a result or an exception.
    Simplified: arguments are numbers; the listeners of one call run to their end (a failing one may in fact cancel
    others), in the order in which they are started. *)
From Verif Require Import PyStr BgModel.

(** A decorated function: the raw function, and the events it sends and listens to. *)
Record decorated := { d_fn : listener; d_send : list str; d_listen : list str }.
(** decorators.py:44-55 [register]: the raw function is subscribed, event by event, at decoration. *)
Definition register (d : dict (list listener)) (f : decorated) : dict (list listener) :=
  fold_left (fun d e => subscribe e (d_fn f) d) (d_listen f) d.
Definition declare (fs : list decorated) : dict (list listener) := fold_left register fs [].

(** What a call of a raw function does: [inl] a result, [inr] an exception. *)
Definition bodies := nat -> list nat -> dict nat -> nat + nat.
Inductive outcome := Returned (r : nat) | Raised (e : nat) | Group | BadArguments.
Record trace := { made : list called; ended : outcome }.
(** The names [anyio.to_thread.run_sync] takes itself. *)
Definition run_sync_names : list str := [u "abandon_on_cancel"; u "cancellable"; u "limiter"].
(** decorators.py:72-75: the own call: a blocking function gets no keyword arguments, they go to [run_sync]. *)
Definition own_call (f : listener) (args : list nat) (kwargs : dict nat) : option called :=
  if l_async f then Some {| by_id := l_id f; with_args := args; with_kwargs := kwargs |}
  else if forallb (fun kv => smem (fst kv) run_sync_names) kwargs then Some {| by_id := l_id f; with_args := args; with_kwargs := [] |}
  else None.
Definition fails (b : bodies) (c : called) : bool := match b (by_id c) (with_args c) (with_kwargs c) with inl _ => false | inr _ => true end.
(** decorators.py:78-86: all the events of [send], each to all its listeners; [None] when one cannot be started. *)
Fixpoint emit_all (events : list str) (args : list nat) (kwargs : dict nat) (d : dict (list listener)) : option (list called) :=
  match events with
  | [] => Some []
  | e :: r => match emit e args kwargs d, emit_all r args kwargs d with Some a, Some b => Some (a ++ b) | _, _ => None end
  end.
(** decorators.py:57-88 [wrapper]: the listeners called are raw functions. *)
Definition wrapper (b : bodies) (d : dict (list listener)) (f : decorated) (args : list nat) (kwargs : dict nat) : trace :=
  match own_call (d_fn f) args kwargs with
  | None => {| made := []; ended := BadArguments |}
  | Some c =>
      match b (by_id c) (with_args c) (with_kwargs c) with
      | inr e => {| made := [c]; ended := Raised e |}
      | inl r =>
          match emit_all (d_send f) args kwargs d with
          | None => {| made := [c]; ended := Group |}
          | Some cs => {| made := c :: cs; ended := if existsb (fails b) cs then Group else Returned r |}
          end
      end
  end.
