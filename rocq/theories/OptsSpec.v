(** What a user expects of the options of a route. *)
From Verif Require Import PyStr OptsModel.

(** What a class declares: the nearest of its bodies that defines the option decides. *)
Definition declared {X} (f : own -> option (list X)) (bodies : list own) : list X :=
  match List.find (fun o => match f o with Some _ => true | None => false end) bodies with
  | Some o => match f o with Some x => x | None => [] end
  | None => []
  end.
(** A route whose endpoint is a function ([bodies] is None) or a class of the user. *)
Definition targets (g : given) (bodies : list own) : Prop :=
  g_controller g = Some (subclass bodies) \/ g_controller g = None /\ bodies = [].
(** The list that the caller gave. *)
Definition given_list (h : lists) (o : option nat) : list nat := match o with Some a => nth a h [] | None => [] end.
(** The lists exist. *)
Definition exist (h : lists) (g : given) : Prop := forall a, g_before g = Some a \/ g_after g = Some a -> (a < length h)%nat.
(** Which lists the arguments of a route name. *)
Definition named (g : given) : list nat :=
  (match g_before g with Some a => [a] | None => [] end) ++ (match g_after g with Some a => [a] | None => [] end).
(** A route whose class adds hooks to a list. *)
Definition adds_to (g : given) (bodies : list own) (a : nat) : Prop :=
  g_before g = Some a /\ declared d_before bodies <> [] \/ g_after g = Some a /\ declared d_after bodies <> [].
(** A list that a class adds hooks to is named once only. *)
Definition unshared (gs : list given) : Prop :=
  forall g bodies a, In g gs -> targets g bodies -> adds_to g bodies a -> (count_occ Nat.eq_dec (flat_map named gs) a <= 1)%nat.
