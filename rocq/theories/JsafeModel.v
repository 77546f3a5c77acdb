(** Model of [_to_json_safe], which makes the metadata of an application graph fit for JSON
    (lilya/introspection/_graph.py:13-39). *)
From Coq Require Import ZArith.
From Verif Require Import PyStr CollModel.

Inductive atom := Text (t : str) | Num (n : Z).
(** A Python value.  The elements of sets are texts and numbers and members of enumerations ([true]) that
    have such values; sets of tuples and of frozensets are left out. *)
Inductive value :=
| Atom (a : atom) | Member (v : value) | Mapping (l : list (str * value)) | Sequence (l : list value)
| PySet (l : list (bool * atom)) | Frozen (l : list (bool * atom)).
(** The result; [Left]: an object that is left as it is and that no JSON text is for. *)
Inductive safe := Plain (a : atom) | Object (l : list (str * safe)) | Array (l : list safe) | Left (v : value).

(** The order of [sorted]; texts and numbers cannot be compared. *)
Definition atom_leb (a b : atom) : bool :=
  match a, b with Text s, Text t => str_leb s t | Num m, Num n => Z.leb m n | Text _, Num _ => true | Num _, Text _ => false end.
Fixpoint insert_atom (a : atom) (l : list atom) : list atom :=
  match l with [] => [a] | x :: r => if atom_leb a x then a :: l else x :: insert_atom a r end.
(** [None]: TypeError, texts among numbers. *)
Definition sorted_atoms (l : list atom) : option (list atom) :=
  if forallb (fun a => match a with Text _ => true | _ => false end) l || forallb (fun a => match a with Num _ => true | _ => false end) l
  then Some (fold_right insert_atom [] l) else None.
(** [obj.value] of a member. *)
Definition member_value (v : value) : safe := match v with Atom a => Plain a | _ => Left v end.
(** _graph.py:29-39; [None]: TypeError. *)
Fixpoint to_json_safe (v : value) : option safe :=
  match v with
  | Member w => Some (member_value w)
  | Mapping l =>
      match (fix go (l : list (str * value)) : option (list (str * safe)) :=
               match l with
               | [] => Some []
               | (k, x) :: r => match to_json_safe x, go r with Some y, Some s => Some ((k, y) :: s) | _, _ => None end
               end) l with
      | Some s => Some (Object s) | None => None
      end
  | Sequence l =>
      match (fix go (l : list value) : option (list safe) :=
               match l with
               | [] => Some []
               | x :: r => match to_json_safe x, go r with Some y, Some s => Some (y :: s) | _, _ => None end
               end) l with
      | Some s => Some (Array s) | None => None
      end
  | PySet l => match sorted_atoms (map snd l) with Some s => Some (Array (map Plain s)) | None => None end
  | Atom a => Some (Plain a)
  | Frozen l => Some (Left (Frozen l))
  end.
