(** Model of the remembered shortcut of a router (lilya/routing/router.py:172-173, 230-240, 361-416), over RouterModel. *)
From Coq Require Import List NArith Bool Arith.
From Verif Require Import PyStr RouterModel.
Import ListNotations.

Section Fast.
  (** The programs of the handlers, as in RouterModel, and the route objects: a number is the identity of an object. *)
  Variable program : nat -> scope -> prog.
  Variable object : nat -> route.

  (** What is remembered: [_fast_path_len], [None] for -1, and [_fast_path_route]. *)
  Record memory := { m_len : option nat; m_route : option nat }.
  (** router.py:172-173. *)
  Definition fresh : memory := {| m_len := None; m_route := None |}.

  (** router.py:230-240 [_compute_fast_path] of a router that is not in an include. *)
  Definition compute (routes : list nat) : option nat :=
    match routes with
    | [i] => match object i with RPath _ => Some i | _ => None end
    | _ => None
    end.
  (** router.py:363-367. *)
  Definition stale (m : memory) (routes : list nat) : bool :=
    negb (match m_len m with Some n => n =? length routes | None => false end) ||
    match routes with
    | [i] => negb (match m_route m with Some j => i =? j | None => false end)
    | _ => false
    end.
  Definition remember (m : memory) (routes : list nat) : memory :=
    if stale m routes then {| m_len := Some (length routes); m_route := compute routes |} else m.
  (** router.py:361-495: the answer to a request, and what is remembered afterwards. *)
  Definition answer (redirect : bool) (m : memory) (routes : list nat) (sc : scope) (inp : list str) : memory * outcome :=
    let m' := remember m routes in
    (m', match m_route m' with
         | Some i => match object i with
                     | RPath p => app_fast program redirect p sc inp
                     | RInclude _ _ _ _ => app_general program redirect (map object routes) sc inp
                     end
         | None => app_general program redirect (map object routes) sc inp
         end).

  (** What happens to a router: its list of routes is changed, in place or by another list, or it gets a request. *)
  Inductive event := Change (routes : list nat) | Ask (sc : scope) (inp : list str).
  Fixpoint history (redirect : bool) (m : memory) (routes : list nat) (l : list event) : list outcome :=
    match l with
    | [] => []
    | Change r :: t => history redirect m r t
    | Ask sc inp :: t => let '(m', o) := answer redirect m routes sc inp in o :: history redirect m' routes t
    end.
End Fast.
