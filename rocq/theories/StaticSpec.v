(** What C44 and C78-C80 say. *)
From Verif Require Import PyStr StaticModel.

(** A name of a file: not empty, not "." or "..", without "/". *)
Definition plain (n : str) : Prop := n <> [] /\ n <> u "." /\ n <> u ".." /\ ~ In 47%N n.
(** A path as names below a base; the base "/" ends with a slash itself. *)
Definition below (base : str) (names : list str) : str :=
  match names with [] => base | _ => (if suffixb (u "/") base then base else base ++ u "/") ++ join (u "/") names end.
Definition inside (base p : str) : Prop := exists names, Forall plain names /\ p = below base names.
