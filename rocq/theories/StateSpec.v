(** What a state is to its users: a map from names to values.  Each State made by hand has a map of its own; all
    connections over one scope have one map together. *)
From Verif Require Import PyStr StateModel.

Inductive place := OfOwn (i : nat) | OfScope (s : nat).
(** The maps, how many States were made by hand, how many scopes there are, and the scope of each connection. *)
Record maps := Maps { at_ : place -> str -> option val; owns : nat; nscopes : nat; over : list nat }.
Definition no_maps : maps := Maps (fun _ _ => None) 0 0 [].

(** Where the map of a handle is. *)
Definition place_of (m : maps) (h : handle) : option place :=
  match h with
  | Own i => if i <? owns m then Some (OfOwn i) else None
  | Conn c => option_map OfScope (nth_error (over m) c)
  end.

(** [m'] differs from [m] only in what [q] holds under [k], which is [x] now. *)
Definition only_at (m m' : maps) (q : place) (k : str) (x : option val) : Prop :=
  at_ m' q k = x /\ (forall q' k', q' <> q \/ k' <> k -> at_ m' q' k' = at_ m q' k') /\
  owns m' = owns m /\ nscopes m' = nscopes m /\ over m' = over m.
(** [m'] has the further place [q], with the map [f]. *)
Definition more (m m' : maps) (q : place) (f : str -> option val) : Prop :=
  (forall k, at_ m' q k = f k) /\ (forall q' k, q' <> q -> at_ m' q' k = at_ m q' k) /\ over m' = over m.

(** Names that are like any other: not "copy" and without an underscore in front. *)
Definition ordinary (k : str) : Prop := k <> u "copy" /\ forall r, k <> u "_" ++ r.

(** The value that a list of pairs gives a name: the one of its last pair. *)
Definition last_value (l : list (str * val)) (k : str) (x : option val) : Prop :=
  (x = None /\ forall v, ~ In (k, v) l) \/
  exists a v b, x = Some v /\ l = a ++ (k, v) :: b /\ forall v', ~ In (k, v') b.

(** What an operation does to the maps, and what it gives. *)
Definition does (m : maps) (o : op) (m' : maps) (x : out) : Prop :=
  match o with
  | OScope init =>
      x = RNone /\ owns m' = owns m /\ nscopes m' = S (nscopes m) /\
      exists f, more m m' (OfScope (nscopes m)) f /\
        forall k, last_value (match init with Some l => l | None => [] end) k (f k)
  | OConn s =>
      (s < nscopes m /\ x = RNone /\ m' = Maps (at_ m) (owns m) (nscopes m) (over m ++ [s])) \/
      (nscopes m <= s /\ x = RAbsent /\ m' = m)
  | ONew =>
      x = ROwn (owns m) /\ owns m' = S (owns m) /\ nscopes m' = nscopes m /\ more m m' (OfOwn (owns m)) (fun _ => None)
  | OSet h k v =>
      match place_of m h with None => x = RAbsent /\ m' = m | Some q => x = RNone /\ only_at m m' q k (Some v) end
  | OGet h k =>
      m' = m /\
      match place_of m h with
      | None => x = RAbsent
      | Some q => match at_ m q k with Some v => x = RVal v | None => ordinary k -> x = RAttributeError end
      end
  | OItem h k =>
      m' = m /\
      match place_of m h with
      | None => x = RAbsent
      | Some q => match at_ m q k with Some v => x = RVal v | None => x = RKeyError end
      end
  | ODel h k =>
      match place_of m h with
      | None => x = RAbsent /\ m' = m
      | Some q => match at_ m q k with
                  | Some _ => x = RNone /\ only_at m m' q k None
                  | None => x = RKeyError /\ m' = m
                  end
      end
  | OLen h =>
      m' = m /\
      match place_of m h with
      | None => x = RAbsent
      | Some q => exists names, NoDup names /\ (forall k, In k names <-> at_ m q k <> None) /\ x = RLen (length names)
      end
  | OCopy h =>
      match place_of m h with
      | None => x = RAbsent /\ m' = m
      | Some q => x = ROwn (owns m) /\ owns m' = S (owns m) /\ nscopes m' = nscopes m /\
                  more m m' (OfOwn (owns m)) (at_ m q)
      end
  end.
(** A history of operations with what they give. *)
Inductive history : maps -> list op -> list out -> Prop :=
| history_nil m : history m [] []
| history_cons m o m' x ops xs : does m o m' x -> history m' ops xs -> history m (o :: ops) (x :: xs).

(** The name an operation uses. *)
Definition uses (o : op) (k : str) : Prop :=
  match o with
  | OScope (Some l) => exists v, In (k, v) l
  | OSet _ k' _ | OGet _ k' | OItem _ k' | ODel _ k' => k' = k
  | _ => False
  end.
(** Operations that only set and get attributes. *)
Definition attribute (o : op) : Prop :=
  match o with OItem _ _ | ODel _ _ | OLen _ | OCopy _ => False | _ => True end.
