(** What C92 and C93 say. *)
From Verif Require Import PyStr NestModel.

(** A place in a nested structure: names, and positions in the list of a name. *)
Inductive seg := Key (k : str) | At (k : str) (i : nat).
Definition seg_name (s : seg) : str := match s with Key k => k | At k _ => k end.
(** How a form writes it: [user.name], [items[0].sku]. *)
Definition seg_text (s : seg) : str := match s with Key k => k | At k i => k ++ u "[" ++ dec (N.of_nat i) ++ u "]" end.
Definition place_text (p : list seg) : str := join (u ".") (map seg_text p).
(** Names have no dot; a name without a position does not end like one, and one with a position has characters. *)
Definition good_seg (s : seg) : Prop :=
  ~ In 46%N (seg_name s) /\
  match s with
  | Key k => forall k', k <> k' ++ u "]" /\ k <> k' ++ [10%N]
  | At k _ => k <> [] /\ ~ In 10%N k
  end.
(** The value at a place. *)
Fixpoint get {V} (p : list seg) (t : tree V) : option (tree V) :=
  match p, t with
  | [], _ => Some t
  | Key k :: p, Dict m => match dget k m with Some t => get p t | None => None end
  | At k i :: p, Dict m => match dget k m with Some (Seq l) => match nth_error l i with Some t => get p t | None => None end | _ => None end
  | _, _ => None
  end.
(** Two places that can both hold a value: they part at a name or at a position of the same list. *)
Inductive apart : list seg -> list seg -> Prop :=
| apart_next s p q : apart p q -> apart (s :: p) (s :: q)
| apart_name s s' p q : seg_name s <> seg_name s' -> apart (s :: p) (s' :: q)
| apart_index k i j p q : i <> j -> apart (At k i :: p) (At k j :: q).
Definition good_fields {V} (fields : list (list seg * V)) : Prop :=
  Forall (fun f => fst f <> [] /\ Forall good_seg (fst f)) fields /\ ForallOrdPairs (fun f g => apart (fst f) (fst g)) fields.
Definition form {V} (fields : list (list seg * V)) : list (str * V) := map (fun f => (place_text (fst f), snd f)) fields.
