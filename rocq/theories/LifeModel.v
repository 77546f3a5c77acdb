(** Model of the lifespan of an application: the hooks it is given (lilya/apps.py:67-97, 1220-1258, 1301-1325,
    lilya/lifecycle.py:12-75), the router's (lilya/routing/router.py:111-143, 205-227, 619-641), the context
    (lilya/_internal/_events.py:18-81) and the protocol (lilya/routing/router.py:289-341).
    Simplified: hooks take no arguments and are known by numbers; the text of the failure messages is not
    modelled; a hook does not itself register hooks; the messages received are not looked at (the code
    does not either). *)
From Verif Require Import PyStr.

Inductive msg := StartupComplete | StartupFailed | ShutdownComplete | ShutdownFailed.
(** What happens: a message is asked for, a hook is called, a message is sent, a user's context manager is
    entered or left. *)
Inductive ev := Received | Hook (n : nat) | Sent (m : msg) | Entered | Left.

(** A context manager of the user: entering raises, or gives a state or not; leaving it (after a body that
    failed or not) returns, raises, or swallows the exception. *)
Inductive leaving := Returns | Raises | Swallows.
Record manager := { enters : option bool; leaves : bool -> leaving }.
(** _events.py:18-81: the lists given ([AsyncLifespanContextManager]), the router's lists at the time
    ([AsyncLifespan]), or the user's. *)
Inductive context := Listed (up down : list nat) | OfRouter | Given (m : manager).
Record router := { up : list nat; down : list nat; ctx : context }.
(** lifecycle.py:12-75: the hooks registered for all applications, when this one is made. *)
Record registry := { g_up : list nat; g_down : list nat }.

(** _events.py:70-81 [handle_lifespan_events] and router.py:117-143 [__init__]. *)
Definition or_nil (l : option (list nat)) : list nat := match l with Some l => l | None => [] end.
Definition make_router (g : registry) (u d : option (list nat)) (m : option manager) : option router :=
  match m, u, d with
  | Some _, Some _, _ | Some _, _, Some _ => None
  | _, _, _ =>
      Some {| up := g_up g ++ or_nil u; down := or_nil d ++ g_down g;
              ctx := match or_nil u, or_nil d with
                     | [], [] => match m with Some m => Given m | None => OfRouter end
                     | _, _ => Listed (or_nil u) (or_nil d)
                     end |}
  end.
(** apps.py:1220-1258 [__init__]: with a context manager the hooks are not looked at. The lists are those given or, if empty,
    those of the settings. *)
Definition make_app (g : registry) (u d : list nat) (m : option manager) : option router :=
  match m with
  | Some m => make_router g None None (Some m)
  | None => make_router g (Some (g_up g ++ u)) (Some (d ++ g_down g)) None
  end.
(** router.py:619-641 [add_event_handler], [on_event]. *)
Definition on_startup (n : nat) (r : router) : router := {| up := up r ++ [n]; down := down r; ctx := ctx r |}.
Definition on_shutdown (n : nat) (r : router) : router := {| up := up r; down := down r ++ [n]; ctx := ctx r |}.

(** The server: whether its two messages arrive, whether it takes ours, whether it has a state. *)
Record server := { starts : bool; stops : bool; takes : msg -> bool; has_state : bool }.

Section Run.
  Variable fine : nat -> bool.
  Variable s : server.

  (** _events.py:36-50, router.py:210-227: the hooks in order, up to the first that raises. *)
  Fixpoint run_hooks (hs : list nat) : list ev * bool :=
    match hs with
    | [] => ([], true)
    | h :: hs' => if fine h then let '(t, b) := run_hooks hs' in (Hook h :: t, b) else ([Hook h], false)
    end.
  Definition enter (r : router) : list ev * option bool :=
    match ctx r with
    | Listed u _ => let '(t, b) := run_hooks u in (t, if b then Some false else None)
    | OfRouter => let '(t, b) := run_hooks (up r) in (t, if b then Some false else None)
    | Given m => ([Entered], enters m)
    end.
  Definition leave (r : router) (failed : bool) : list ev * leaving :=
    match ctx r with
    | Listed _ d => let '(t, b) := run_hooks d in (t, if b then Returns else Raises)
    | OfRouter => let '(t, b) := run_hooks (down r) in (t, if b then Returns else Raises)
    | Given m => ([Left], leaves m failed)
    end.
  (** router.py:289-341 [lifespan]: what happens, and whether it returns. *)
  Definition lifespan (r : router) : list ev * bool :=
    if negb (starts s) then ([Received; Sent StartupFailed], false)
    else
      let '(t1, st) := enter r in
      match st with
      | None => (Received :: t1 ++ [Sent StartupFailed], false)
      | Some state =>
          let '(t2, completed, failed) :=
            if state && negb (has_state s) then ([], false, true)
            else if negb (takes s StartupComplete) then ([Sent StartupComplete], false, true)
            else ([Sent StartupComplete; Received], true, negb (stops s)) in
          let '(t3, l) := leave r failed in
          let t := Received :: t1 ++ t2 ++ t3 in
          match l, failed with
          | Returns, false | Swallows, _ => (t ++ [Sent ShutdownComplete], takes s ShutdownComplete)
          | _, _ => (t ++ [Sent (if completed then ShutdownFailed else StartupFailed)], false)
          end
      end.
End Run.
