(** Model of [ValidationError] (lilya/exceptions.py:11-20, 170-220); http exceptions and the answers to them are in
    AbtModel and LexcModel.
    Simplified: the keys of dicts are texts; [str] of an object succeeds. *)
From Coq Require Import ZArith.
From Verif Require Import PyStr Utf8 Asgi HeaderModel JsonModel OutModel ExcModel AbtModel.

(** The detail given to the exception.  [DOther] is any other object (None and numbers among them) with its [str]. *)
Inductive detail := DText (s : str) | DBytes (b : str) | DOther (words : str) | DList (l : list detail) | DTuple (l : list detail) | DDict (l : list (str * detail)).
(** lilya/_internal/_encoding.py:37-60 [force_str]; [None] is the UnicodeDecodeError. *)
Definition force_str (d : detail) : option str :=
  match d with DText s => Some s | DBytes b => utf8_strict b | DOther w => Some w | DList _ | DTuple _ | DDict _ => None end.
(** exceptions.py:11-20 [_get_error_details]; an [ErrorDetail] is the text it is made of. *)
Fixpoint get_error_details (d : detail) : option jvalue :=
  match d with
  | DList l | DTuple l =>
      option_map JArr ((fix all l := match l with
                                     | [] => Some []
                                     | x :: r => match get_error_details x, all r with Some a, Some b => Some (a :: b) | _, _ => None end
                                     end) l)
  | DDict l =>
      option_map JObj ((fix all (l : list (str * detail)) := match l with
                                     | [] => Some []
                                     | (k, x) :: r => match get_error_details x, all r with Some a, Some b => Some ((k, a) :: b) | _, _ => None end
                                     end) l)
  | _ => option_map JStr (force_str d)
  end.
(** exceptions.py:206-215: what is looked through. *)
Definition detail_value (d : option detail) : detail :=
  match d with
  | None => DList []
  | Some (DTuple l) => DList l
  | Some (DDict l) => DDict l
  | Some (DList l) => DList l
  | Some x => DList [x]
  end.
(** exceptions.py:170-177: its class attributes. *)
Definition ValidationError : cls := {| k_mro := [16; cHTTP; 3; cException]; k_status := Some 400%Z; k_detail := Some (u "Validation error.") |}.
(** exceptions.py:179-220 [ValidationError.__init__]; [response] may be among the further arguments, which are handed
    on to [HTTPException.__init__].  [None] is an exception. *)
Definition validation_error (d : option detail) (status : option Z) (headers : option (dict str)) (response : option (list amsg)) : option raised :=
  match get_error_details (detail_value d) with
  | Some v => construct ValidationError [] status v headers response
  | None => None
  end.
