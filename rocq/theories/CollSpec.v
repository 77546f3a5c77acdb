(** Specification for containers of named values, query strings, cookies and forms. *)
From Verif Require Import PyStr Utf8 CookieModel CookieSpec CollModel.

(** The values a list of entries holds under a name, in order. *)
Inductive holds {V} (k : str) : list (str * V) -> list V -> Prop :=
| holds_nil : holds k [] []
| holds_same v l vs : holds k l vs -> holds k ((k, v) :: l) (v :: vs)
| holds_other k' v l vs : k' <> k -> holds k l vs -> holds k ((k', v) :: l) vs.

(** A cookie a program may use, and what a client that has stored it should have in its jar. *)
Definition usable (k : acookie) : Prop :=
  usable_name (k_key k) /\ attribute_text (k_path k) /\ attribute_text (k_domain k) /\ attribute_text (k_samesite k).
Definition text_of (k : acookie) : str := match k_value k with Some v => v | None => [] end.
(** RFC 6265, 5.2.2: a Max-Age of zero or less ends the cookie at once. *)
Definition wanted (k : acookie) (jar : dict str) : dict str :=
  match k_max_age k with
  | Some z => if (z <=? 0)%Z then ddel (k_key k) jar else dset (k_key k) (cquote (text_of k)) jar
  | None => dset (k_key k) (cquote (text_of k)) jar
  end.

(** The files of a form. *)
Definition is_file (l : list (str * fvalue)) (n : nat) : Prop := exists k, In (k, FFile n) l.
