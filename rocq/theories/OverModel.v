(** Model of overlapping resolutions of one [Provide] object with [use_cache] (lilya/dependencies.py:119-137, 183-215,
    309-313), as steps between the awaits: the check of the cache, [await request.data()], the call of the factory and
    what is done when it returns.  Nested dependencies are part of the call; the scope is REQUEST. *)
From Verif Require Import PyStr.
Open Scope nat_scope.

(** Where a call of [resolve] is: not begun, in [request.data()], in the factory, ended with a value or an error. *)
Inductive phase := Idle | Reading | Calling | Got (v : nat) | Failed.
(** [_cache] when [_resolved]; the calls; the calls whose factory was called, in order. *)
Record state := { cached : option nat; calls : nat -> phase; made : list nat }.
Definition start : state := {| cached := None; calls := fun _ => Idle; made := [] |}.
Definition set (t : nat) (p : phase) (f : nat -> phase) : nat -> phase := fun s => if s =? t then p else f s.

Section Steps.
  (** What the factory gives to each call: a value, or an exception. *)
  Variable gives : nat -> option nat.

  (** The next piece of the call [t], up to its next await: 135-137 and 193-196; 197-215; 212-215 and 311-313. *)
  Definition step (st : state) (t : nat) : state :=
    match calls st t with
    | Idle =>
        match cached st with
        | Some v => {| cached := cached st; calls := set t (Got v) (calls st); made := made st |}
        | None => {| cached := None; calls := set t Reading (calls st); made := made st |}
        end
    | Reading => {| cached := cached st; calls := set t Calling (calls st); made := made st ++ [t] |}
    | Calling =>
        match gives t with
        | Some v => {| cached := Some v; calls := set t (Got v) (calls st); made := made st |}
        | None => {| cached := cached st; calls := set t Failed (calls st); made := made st |}
        end
    | Got _ | Failed => st
    end.
  (** A schedule says whose turn it is. *)
  Definition run (ts : list nat) (st : state) : state := fold_left step ts st.
End Steps.
