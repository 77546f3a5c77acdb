(** What an urlencoded body means. *)
From Verif Require Import PyStr Utf8.

(** The pieces between "&" signs, without a last empty one. *)
Fixpoint drop_last_empty (l : list str) : list str :=
  match l with
  | [] => []
  | [[]] => []
  | x :: r => x :: drop_last_empty r
  end.
Definition pieces (body : str) : list str := drop_last_empty (split_char 38 body).

(** Name and value of a piece: around its first "=". *)
Definition name_value (piece k v : str) : Prop :=
  ~ In 61%N k /\ (piece = k ++ 61%N :: v \/ (piece = k /\ v = [])).

(** The standard: "+" is a space, "%XX" a byte, the bytes are UTF-8. *)
Definition std_decode (s : str) : str := utf8_dec (unquote_bytes (plus_to_space s)).
(** The standard encoding of pairs (urllib.parse.urlencode). *)
Definition std_encode (pairs : list (str * str)) : str :=
  join (u "&") (map (fun p => quote_plus (fst p) ++ u "=" ++ quote_plus (snd p)) pairs).

Definition text (s : str) : Prop := forall c, In c s -> scalar c.
Definition texts (pairs : list (str * str)) : Prop := forall p, In p pairs -> text (fst p) /\ text (snd p).
Definition nonempty (s : str) : Prop := s <> [].
