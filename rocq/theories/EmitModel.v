(** Model of overlapping calls of the event dispatcher (lilya/_internal/_events.py:95-182), as steps between the awaits of
    any number of tasks in one event loop.  anyio's lock and task groups are modelled as they are documented: the lock is
    handed to the one that has waited longest; a task that fails has the others of its group, and their own, cancelled at
    their next await, and the group ends when all its tasks have.
    Simplified: listeners are coroutine functions, called without arguments (which listener gets which arguments is in
    BgModel); the body of a function is a list of awaits. *)
From Verif Require Import PyStr.
Open Scope nat_scope.

(** What a function does: the calls of [subscribe] and [emit], another await, an exception. *)
Inductive action := Subscribe (e : str) (f : nat) | Emit (e : str) | Pause | Raise.
Inductive ending := Fine | Failed | Cancelled.
(** Where a task is: between two awaits; in [async with cls._lock], in the queue or holding it at once; in the task group
    of [emit] with these tasks; at its end. *)
Inductive phase := Run | Wait | Hold | Group (cs : list nat) | Over (o : ending).
(** A task: the function it runs, how many of its actions are behind it, where it is, and whose group it is in. *)
Record task := { fn : nat; pc : nat; ph : phase; up : option nat }.
(** [_lock] (130, 164): who holds it and who waits; [_listeners] (104).  [emitted] notes each emission, by its task and the
    place of the call in it, the event, and the tasks started. *)
Record state := {
  tasks : list task; owner : option nat; queue : list nat; listeners : dict (list nat); emitted : list (nat * nat * str * list nat) }.

Fixpoint upd (t : nat) (k : task) (l : list task) : list task :=
  match l, t with [], _ => [] | _ :: l', 0 => k :: l' | x :: l', S t' => x :: upd t' k l' end.
Definition at_phase (p : phase) (k : task) : task := {| fn := fn k; pc := pc k; ph := p; up := up k |}.
Definition next (k : task) : task := {| fn := fn k; pc := S (pc k); ph := Run; up := up k |}.
Definition put (t : nat) (k : task) (st : state) : state :=
  {| tasks := upd t k (tasks st); owner := owner st; queue := queue st; listeners := listeners st; emitted := emitted st |}.
(** anyio's [Lock.release]: to the first in the queue. *)
Definition release (st : state) : state :=
  {| tasks := tasks st; owner := match queue st with [] => None | w :: _ => Some w end; queue := tl (queue st);
     listeners := listeners st; emitted := emitted st |}.
(** 131-132, 165-167: the listeners of an event. *)
Definition get (e : str) (d : dict (list nat)) : list nat := match dget e d with Some l => l | None => [] end.
Definition over (st : state) (t : nat) : bool :=
  match nth_error (tasks st) t with Some k => match ph k with Over _ => true | _ => false end | None => true end.
Definition failed (st : state) (t : nat) : bool :=
  match nth_error (tasks st) t with Some k => match ph k with Over Failed => true | _ => false end | None => false end.
(** A group in which a task has failed, ... *)
Definition broken (st : state) (p : nat) : bool :=
  match nth_error (tasks st) p with Some k => match ph k with Group cs => existsb (failed st) cs | _ => false end | None => false end.
(** ... and the tasks that are cancelled for it, those of groups inside included. *)
Fixpoint cancelled (depth : nat) (st : state) (t : nat) : bool :=
  match depth with
  | 0 => false
  | S d => match nth_error (tasks st) t with
           | Some k => match up k with Some p => broken st p || cancelled d st p | None => false end
           | None => false
           end
  end.

Section Steps.
  Variable body : nat -> list action.
  Definition now (k : task) : option action := nth_error (body (fn k)) (pc k).

  (** 130-133 and 164-182: inside the lock, then its release; [emit] goes on to start a task for each listener. *)
  Definition enter (t : nat) (k : task) (st : state) : state :=
    match now k with
    | Some (Subscribe e f) =>
        let st := release (put t (next k) st) in
        {| tasks := tasks st; owner := owner st; queue := queue st; listeners := dset e (get e (listeners st) ++ [f]) (listeners st);
           emitted := emitted st |}
    | Some (Emit e) =>
        let ls := get e (listeners st) in
        let ids := seq (length (tasks st)) (length ls) in
        let st := release (put t (at_phase (Group ids) k) st) in
        {| tasks := tasks st ++ map (fun f => {| fn := f; pc := 0; ph := Run; up := Some t |}) ls; owner := owner st; queue := queue st;
           listeners := listeners st; emitted := emitted st ++ [(t, pc k, e, ids)] |}
    | _ => st
    end.
  (** The next piece of the task [t], up to its next await. *)
  Definition step (st : state) (t : nat) : state :=
    match nth_error (tasks st) t with
    | None => st
    | Some k =>
        let stop := cancelled (length (tasks st)) st t in
        match ph k with
        | Run =>
            if stop && (pc k =? 0) then put t (at_phase (Over Cancelled) k) st
            else match now k with
                 | None => put t (at_phase (Over Fine) k) st
                 | Some Raise => put t (at_phase (Over Failed) k) st
                 | Some Pause => put t (if stop then at_phase (Over Cancelled) k else next k) st
                 | Some _ =>
                     if stop then put t (at_phase (Over Cancelled) k) st
                     else match owner st, queue st with
                          | None, [] =>
                              {| tasks := upd t (at_phase Hold k) (tasks st); owner := Some t; queue := [];
                                 listeners := listeners st; emitted := emitted st |}
                          | o, q =>
                              {| tasks := upd t (at_phase Wait k) (tasks st); owner := o; queue := q ++ [t];
                                 listeners := listeners st; emitted := emitted st |}
                          end
                 end
        | Wait =>
            if match owner st with Some o => o =? t | None => false end
            then if stop then release (put t (at_phase (Over Cancelled) k) st) else enter t k st
            else if stop
                 then {| tasks := upd t (at_phase (Over Cancelled) k) (tasks st); owner := owner st;
                         queue := filter (fun w => negb (w =? t)) (queue st); listeners := listeners st; emitted := emitted st |}
                 else st
        | Hold => enter t k st
        | Group cs =>
            if forallb (over st) cs
            then put t (if existsb (failed st) cs then at_phase (Over Failed) k else if stop then at_phase (Over Cancelled) k else next k) st
            else st
        | Over _ => st
        end
    end.
  (** A schedule says whose turn it is. *)
  Definition run (ts : list nat) (st : state) : state := fold_left step ts st.
End Steps.
(** The tasks there are at first, each running a function of its own; nobody has subscribed. *)
Definition start (fs : list nat) : state :=
  {| tasks := map (fun f => {| fn := f; pc := 0; ph := Run; up := None |}) fs; owner := None; queue := []; listeners := []; emitted := [] |}.
