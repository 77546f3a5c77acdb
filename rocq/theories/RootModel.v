(** Model of the root path of an application (lilya/apps.py:503-506), over the router of RouterModel. *)
From Verif Require Import PyStr PathModel RouterModel.

(** apps.py:503-506 [__call__]: the root path of the application, if it has one, replaces the one of the scope. *)
Definition enter (own : str) (sc : scope) : scope :=
  match own with
  | [] => sc
  | _ => {| sc_root := own; sc_path := sc_path sc; sc_method := sc_method sc; sc_params := sc_params sc |}
  end.
(** The application: its root path, then its router.  Without middleware, hooks and handlers of exceptions. *)
Definition lilya (own : str) (handlers : nat -> scope -> prog) (redirect : bool) (rs : list route) (sc : scope) (inp : list str) : outcome :=
  router_app handlers redirect rs (enter own sc) inp.
(** include.py:199-290: an application below a mount gets the scope that [search] made; [None] without a match. *)
Definition mounted (m : route) (own : str) (handlers : nat -> scope -> prog) (redirect : bool) (rs : list route) (sc : scope) (inp : list str) : option outcome :=
  match search m sc with SFull child => Some (lilya own handlers redirect rs child inp) | _ => None end.
