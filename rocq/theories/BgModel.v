(** Model of background tasks (lilya/background.py:13-137) and of the response that carries them
    (lilya/responses.py:343-360), and of [EventDispatcher] (lilya/_internal/_events.py:95-182).
    Simplified: a task is a number and either returns or raises ([fine]); its own awaits are not modelled,
    except that a task of a group may be cut off at any of its events when another one raises. *)
From Verif Require Import PyStr Asgi.

(** background.py:13-63, 66-137: [Tasks] is itself a [Task]. *)
Inductive job := Task (n : nat) | Tasks (as_group : bool) (l : list job).
Inductive bev := Start (n : nat) | End (n : nat) | Fail (n : nat).

(** Interleavings of several traces. *)
Inductive shuffle {A} : list (list A) -> list A -> Prop :=
| sh_done ls : (forall l, In l ls -> l = []) -> shuffle ls []
| sh_step a x l b t : shuffle (a ++ l :: b) t -> shuffle (a ++ (x :: l) :: b) (x :: t).

(** background.py:58-63, 120-137: what a job may do, and whether it returns. A task group ([as_group]) ends
    when all its tasks have; when one raises the others are cancelled. *)
Section Jobs.
  Variable fine : nat -> bool.
  Inductive runs : job -> list bev -> bool -> Prop :=
  | run_ok n : fine n = true -> runs (Task n) [Start n; End n] true
  | run_fail n : fine n = false -> runs (Task n) [Start n; Fail n] false
  | run_single l t b : in_order l t b -> runs (Tasks false l) t b
  | run_group l ts t : all_return l ts -> shuffle ts t -> runs (Tasks true l) t true
  | run_group_fails l ts t : some_raise l ts true -> shuffle ts t -> runs (Tasks true l) t false
  with in_order : list job -> list bev -> bool -> Prop :=
  | order_end : in_order [] [] true
  | order_next j l t1 t2 b : runs j t1 true -> in_order l t2 b -> in_order (j :: l) (t1 ++ t2) b
  | order_stop j l t : runs j t false -> in_order (j :: l) t false
  with all_return : list job -> list (list bev) -> Prop :=
  | return_end : all_return [] []
  | return_next j l t ts : runs j t true -> all_return l ts -> all_return (j :: l) (t :: ts)
  with some_raise : list job -> list (list bev) -> bool -> Prop :=
  | raise_end : some_raise [] [] false
  | raise_here j l t ts r : runs j t false -> some_raise l ts r -> some_raise (j :: l) (t :: ts) true
  | raise_cut j l t t' b ts r : runs j (t ++ t') b -> some_raise l ts r -> some_raise (j :: l) (t :: ts) r.
End Jobs.

(** responses.py:343-360 [Response.__call__]: the content, the two messages, the cleanup handler, the
    background tasks, which have done [bg]. Simplified: the websocket prefix is not modelled. *)
Inductive rev := Msg (m : amsg) | Clean | Job (e : bev).
Record call := { quiet_method : bool; content_ok : bool; first_taken : bool; second_taken : bool; clean_ok : bool }.
Definition respond (c : call) (m1 m2 : amsg) (bg : option (list bev * bool)) : list rev * bool :=
  let '(t, b) :=
    if negb (content_ok c) then ([], false)
    else if negb (first_taken c) then ([Msg m1], false)
    else ([Msg m1; Msg m2], second_taken c) in
  if negb (b && clean_ok c) then (t ++ [Clean], false)
  else
    match bg with
    | Some (tb, ok) => if quiet_method c then (t ++ [Clean], true) else (t ++ [Clean] ++ map Job tb, ok)
    | None => (t ++ [Clean], true)
    end.

(** _events.py:95-182: listeners: their number, whether they are coroutine functions, whether they
    declare [**kwargs], and the parameters they declare by name. *)
Record listener := { l_id : nat; l_async : bool; l_kwargs : bool; l_names : list str }.
Record called := { by_id : nat; with_args : list nat; with_kwargs : dict nat }.
(** _events.py:106-132 [subscribe]. *)
Definition subscribe (e : str) (l : listener) (d : dict (list listener)) : dict (list listener) :=
  dset e (match dget e d with Some ls => ls | None => [] end ++ [l]) d.
(** _events.py:161-182 [emit]: a coroutine function with [**kwargs] gets them, one without does not; for
    another function they go to [TaskGroup.start_soon], which takes [name] only. *)
Definition call_of (l : listener) (args : list nat) (kwargs : dict nat) : option called :=
  if l_async l then Some {| by_id := l_id l; with_args := args; with_kwargs := if l_kwargs l then kwargs else [] |}
  else if l_kwargs l then
    if forallb (fun kv => seqb (fst kv) (u "name")) kwargs then Some {| by_id := l_id l; with_args := args; with_kwargs := [] |} else None
  else Some {| by_id := l_id l; with_args := args; with_kwargs := [] |}.
(** The calls started, or none when one cannot be: the group is left by the error. *)
Fixpoint calls_of (ls : list listener) (args : list nat) (kwargs : dict nat) : option (list called) :=
  match ls with
  | [] => Some []
  | l :: ls' => match call_of l args kwargs, calls_of ls' args kwargs with Some c, Some cs => Some (c :: cs) | _, _ => None end
  end.
Definition emit (e : str) (args : list nat) (kwargs : dict nat) (d : dict (list listener)) : option (list called) :=
  calls_of (match dget e d with Some ls => ls | None => [] end) args kwargs.
