(** Model of the dispatch of [Controller] (lilya/controllers.py). *)
From Verif Require Import PyStr.

(** An attribute of a controller instance: a function, None, or another value. *)
Inductive attribute := Function | NoneValue | Value.
(** The attributes of an instance: those of its class and of its bases. *)
Definition instance := dict attribute.
(** What becomes of a request: a function of the controller runs; 405, with the Allow header or without one
    (an HTTPException); or an exception because the attribute is no function. *)
Inductive outcome := Runs (name : str) | NotAllowed (allow : option (list str)) | TypeFails.
(** enums.py:98-111. *)
Definition http_methods : list str :=
  [u "GET"; u "QUERY"; u "POST"; u "PUT"; u "PATCH"; u "DELETE"; u "HEAD"; u "OPTIONS"; u "TRACE"].
(** controllers.py:134-140 [__allowed_methods__]. *)
Definition allowed_methods (c : instance) : list str :=
  filter (fun m => match dget (lower m) c with None | Some NoneValue => false | _ => true end) http_methods.
(** controllers.py:183-190 [handle_not_allowed]. *)
Definition handle_not_allowed (in_app : bool) (c : instance) : outcome :=
  NotAllowed (if in_app then None else Some (allowed_methods c)).
(** controllers.py:149-162: the choice of the handler; [inspect.signature] refuses what is no function. *)
Definition handle_dispatch (in_app : bool) (c : instance) (meth : str) : outcome :=
  let name := if seqb meth (u "HEAD") && negb (dmem (u "head") c) then u "get" else lower meth in
  match dget name c with
  | None => handle_not_allowed in_app c
  | Some Function => Runs name
  | Some _ => TypeFails
  end.
