(** What C316-C318 say. *)
From Verif Require Import PyStr EnvModel.

(** One letter or another, capitals aside. *)
Definition same_letter (a b : N) : Prop := a = b \/ ((97 <= b <= 122)%N /\ a = (b - 32)%N).
(** A text spells a word of small letters and digits, in whatever capitals. *)
Definition spells (s w : str) : Prop := Forall2 same_letter s w.
Definition yes_words : list str := [u "true"; u "1"; u "y"; u "yes"; u "on"].
Definition no_words : list str := [u "false"; u "0"; u "n"; u "no"; u "off"].
(** The name a key stands for: the prefix in front, and capitals for a loader that ignores case. *)
Definition name_of (l : loader) (key : str) : str := if ignore_case l then upper (prefix l ++ key) else prefix l ++ key.
(** The value a name has: the loader's, or else the live environment's. *)
Inductive set_to (l : loader) (os : dict str) (key : str) : value -> Prop :=
| st_loader v : dget (name_of l key) (pairs l) = Some v -> set_to l os key v
| st_live t : dget (name_of l key) (pairs l) = None -> dget (name_of l key) os = Some t -> set_to l os key (Scalar (Some t)).
Definition unset (l : loader) (os : dict str) (key : str) : Prop := dget (name_of l key) (pairs l) = None /\ dget (name_of l key) os = None.
