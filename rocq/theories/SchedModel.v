(** Model of the tasks of a scheduler (lilya/contrib/schedulers).  Asyncz itself is outside. *)
From Verif Require Import PyStr.

(** asyncz/config.py:144-195 [Task]: what it runs, whether it is enabled, and its settings. *)
Record settings := { s_name : option str; s_trigger : option nat; s_id : option str; s_store : option str; s_executor : option str; s_replace : bool; s_args : nat; s_kwargs : nat }.
Record task := { t_fn : nat; t_enabled : bool; t_settings : settings }.
(** asyncz/decorator.py:62-93 [scheduler]: the task of a decorated function.  The wrapper calls the function, and is the function here. *)
Definition scheduler (s : settings) (enabled : bool) (fn : nat) : task := {| t_fn := fn; t_enabled := enabled; t_settings := s |}.
(** What the scheduler has been given: its own [add_task] may refuse, with a message. *)
Definition entry := (nat * settings)%type.
Section Register.
(** Importing: the object under a dotted name, if there is one; and the scheduler's refusals, given what it has. *)
Context (load : str -> option task) (refuses : list entry -> entry -> option str).
Inductive registered := Registered | Misconfigured (message : str) | NotFound (name : str).
(** asyncz/config.py:61-80 [register_tasks] and 197-215 [Task.add_task]. *)
Fixpoint register_tasks (has : list entry) (tasks : dict str) : list entry * registered :=
  match tasks with
  | [] => (has, Registered)
  | (name, module) :: r =>
      let path := module ++ u "." ++ name in
      match load path with
      | None => (has, NotFound path)
      | Some t =>
          if negb (t_enabled t) then register_tasks has r
          else
            let e := (t_fn t, t_settings t) in
            match refuses has e with
            | Some m => (has, Misconfigured m)
            | None => register_tasks (has ++ [e]) r
            end
      end
  end.
End Register.

(** Its life, by the methods of the protocol (protocols.py:6-12) and those of the base class (base.py:10-15). *)
Inductive call := Start | Stop | Shutdown.
Inductive outcome := Returns | NotImplemented.
(** asyncz/config.py:112-129: [start] and [shutdown]; [stop] is that of the base class. *)
Definition life (running : bool) (c : call) : bool * outcome :=
  match c with Start => (true, Returns) | Shutdown => (false, Returns) | Stop => (running, NotImplemented) end.
Definition lives (cs : list call) : bool := fold_left (fun r c => fst (life r c)) cs false.
