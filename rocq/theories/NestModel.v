(** Model of nested form fields (lilya/_internal/_responses.py): [_expand_nested_keys] and [_deep_parse_json]. *)
From Verif Require Import PyStr.

(** A value of a form, and the dicts and lists built from them. *)
Inductive tree (V : Type) := Leaf (v : V) | Dict (m : list (str * tree V)) | Seq (l : list (tree V)).
Arguments Leaf {V}. Arguments Dict {V}. Arguments Seq {V}.

(** _responses.py:58 [INDEX_REGEX], [^(.+)\[(\d+)\]$]: the name and the index.  The dot matches no newline, and the
    dollar also matches before a final newline.  Only ASCII digits are digits here. *)
Definition index_match (part : str) : option (str * N) :=
  let p := match rev part with 10%N :: r => rev r | _ => part end in
  match rsplit1 91 p with
  | Some (c :: k, r) =>
      match rev r with
      | 93%N :: ds => if negb (seqb ds []) && forallb is_digit ds && negb (cmem 10 (c :: k)) then Some (c :: k, digits_val (rev ds)) else None
      | _ => None
      end
  | _ => None
  end.

Section Nest.
Context {V : Type}.
(** _responses.py:765-767: the list has at least [i + 1] elements. *)
Definition pad (i : nat) (l : list (tree V)) : list (tree V) := l ++ repeat (Dict []) (S i - length l).
Definition set_nth (i : nat) (t : tree V) (l : list (tree V)) : list (tree V) := firstn i l ++ t :: skipn (S i) l.
(** _responses.py:752-780, one field put into [d]; [None]: an exception, as [d] is a text there. *)
Fixpoint put (parts : list str) (v : V) (d : tree V) : option (tree V) :=
  match d, parts with
  | Dict m, [] => Some d
  | Dict m, part :: rest =>
      match index_match part with
      | Some (k, i) =>
          let i := N.to_nat i in
          let l := pad i (match dget k m with Some (Seq l) => l | _ => [] end) in
          match rest with
          | [] => Some (Dict (dset k (Seq (set_nth i (Leaf v) l)) m))
          | _ => match put rest v (nth i l (Dict [])) with
                 | Some t => Some (Dict (dset k (Seq (set_nth i t l)) m))
                 | None => None
                 end
          end
      | None =>
          match rest with
          | [] => Some (Dict (dset part (Leaf v) m))
          | _ => match put rest v (match dget part m with Some (Dict s) => Dict s | _ => Dict [] end) with
                 | Some t => Some (Dict (dset part t m))
                 | None => None
                 end
          end
      end
  | _, _ => None
  end.
(** _responses.py:737-781 [_expand_nested_keys]. *)
Fixpoint expand_from (d : tree V) (data : list (str * V)) : option (tree V) :=
  match data with
  | [] => Some d
  | (k, v) :: r => match put (split_char 46 k) v d with Some d => expand_from d r | None => None end
  end.
Definition expand_nested_keys (data : list (str * V)) : option (tree V) := expand_from (Dict []) data.
End Nest.

(** Form values: texts, or uploads; other values come from JSON. *)
Section Json.
Context {U : Type}.
Inductive value := Text (s : str) | Object (x : U).
Context (loads : str -> option (tree value)).
(** _responses.py:681-706 [_maybe_parse_json]. *)
Definition maybe_parse_json (x : value) : tree value :=
  match x with
  | Text s => let s := strip s in
      match s with
      | c :: _ => if N.eqb c 123 || N.eqb c 91 then match loads s with Some t => t | None => Leaf (Text s) end else Leaf (Text s)
      | [] => Leaf (Text s)
      end
  | Object _ => Leaf x
  end.
(** _responses.py:708-735 [_deep_parse_json]. *)
Fixpoint deep_parse_json (t : tree value) : tree value :=
  match t with
  | Leaf x => maybe_parse_json x
  | Dict m => Dict (map (fun p => (fst p, deep_parse_json (snd p))) m)
  | Seq l => Seq (map deep_parse_json l)
  end.
End Json.
Arguments value : clear implicits.
(** _responses.py:919-923: what a form becomes. *)
Definition form_data {U} (loads : str -> option (tree (value U))) (data : list (str * value U)) : option (tree (value U)) :=
  match expand_nested_keys data with Some t => Some (deep_parse_json loads t) | None => None end.
