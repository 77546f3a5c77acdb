(** What C43 says. *)
From Verif Require Import PyStr CacheModel.

Section Spec.
Context {V : Type}.
(** An operation that ends the effect of a set of a key. *)
Definition ends (key : str) (o : cop V) : Prop := match o with CSet k _ _ => k = key | CDelete k => k = key | CGet _ => False end.
(** After a history, a key was last set to a value at some time with some lifetime. *)
Definition last_set (key : str) (h : list (Z * cop V)) (t0 : Z) (v : V) (ttl : option Z) : Prop :=
  exists pre post, h = pre ++ (t0, CSet key v ttl) :: post /\ forall t o, In (t, o) post -> ~ ends key o.
(** A lifetime has not elapsed. *)
Definition lives (t0 : Z) (ttl : option Z) (now : Z) : Prop := match ttl with None => True | Some d => (now <= t0 + d)%Z end.
Definition alive (key : str) (h : list (Z * cop V)) (now : Z) (v : V) : Prop := exists t0 ttl, last_set key h t0 v ttl /\ lives t0 ttl now.
(** The clock does not go back. *)
Fixpoint in_order (h : list (Z * cop V)) (now : Z) : Prop :=
  match h with [] => True | (t, _) :: r => (t <= now)%Z /\ (forall t' o, In (t', o) r -> (t <= t')%Z) /\ in_order r now end.
End Spec.
