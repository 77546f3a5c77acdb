(** Python strings and byte strings used by the model.

    A [str] is the list of its Unicode code points (Python [str]) or of its
    bytes (Python [bytes]).  Only library behaviour of CPython is modelled in
    this file; no function of /repo is. *)
From Coq Require Export List NArith ZArith Lia Bool Arith.
From Coq Require Strings.String Strings.Ascii.
Export Coq.Strings.String.StringSyntax.
Export ListNotations.
Open Scope list_scope.
#[global] Arguments N.add : simpl never.
#[global] Arguments N.sub : simpl never.
#[global] Arguments N.mul : simpl never.
#[global] Arguments N.div : simpl never.
#[global] Arguments N.modulo : simpl never.
#[global] Arguments N.leb : simpl never.
#[global] Arguments Z.add : simpl never.
#[global] Arguments Z.sub : simpl never.
#[global] Arguments Z.mul : simpl never.
#[global] Arguments Z.leb : simpl never.
#[global] Arguments Z.ltb : simpl never.

Definition char := N.
Definition str := list N.

(** Literals: [u "abc"]. *)
Fixpoint u (s : String.string) : str :=
  match s with
  | String.EmptyString => []
  | String.String a r => Ascii.N_of_ascii a :: u r
  end.
Arguments u s%string_scope.

(** [s == t]. *)
Fixpoint seqb (s t : str) : bool :=
  match s, t with
  | [], [] => true
  | a :: s', b :: t' => N.eqb a b && seqb s' t'
  | _, _ => false
  end.

(** [x in xs] for a list/set of strings. *)
Definition smem (x : str) (xs : list str) : bool := existsb (seqb x) xs.

(** [c in s] for one character. *)
Definition cmem (c : N) (s : str) : bool := existsb (N.eqb c) s.

(** [s.startswith(p)], [s.endswith(p)], [s[len(p):]]. *)
Fixpoint prefixb (p s : str) : bool :=
  match p, s with
  | [], _ => true
  | a :: p', b :: s' => N.eqb a b && prefixb p' s'
  | _, [] => false
  end.
Definition suffixb (p s : str) : bool := prefixb (rev p) (rev s).

(** Index of the first occurrence of [p] in [s] ([str.find], [None] for -1). *)
Fixpoint find (p s : str) : option nat :=
  if prefixb p s then Some 0
  else match s with
       | [] => None
       | _ :: s' => option_map S (find p s')
       end.
Definition containsb (p s : str) : bool :=
  match find p s with Some _ => true | None => false end.

(** [s.split(c)] for a one-character separator. *)
Fixpoint split_char (c : N) (s : str) : list str :=
  match s with
  | [] => [[]]
  | a :: s' =>
      if N.eqb a c then [] :: split_char c s'
      else match split_char c s' with
           | w :: ws => (a :: w) :: ws
           | [] => [[a]]
           end
  end.

(** [s.split(c, 1)] as an option: [Some (before, after)] or [None] when [c] is absent. *)
Fixpoint split1 (c : N) (s : str) : option (str * str) :=
  match s with
  | [] => None
  | a :: s' =>
      if N.eqb a c then Some ([], s')
      else match split1 c s' with
           | Some (x, y) => Some (a :: x, y)
           | None => None
           end
  end.

(** [s.rsplit(c, 1)], [Some (before, after)] around the last occurrence. *)
Definition rsplit1 (c : N) (s : str) : option (str * str) :=
  match split1 c (rev s) with
  | Some (x, y) => Some (rev y, rev x)
  | None => None
  end.

(** [sep.join(l)]. *)
Fixpoint join (sep : str) (l : list str) : str :=
  match l with
  | [] => []
  | [x] => x
  | x :: l' => x ++ sep ++ join sep l'
  end.

(** [s.split(sep)] for a non-empty separator string, with fuel [length s]. *)
Fixpoint split_str_fuel (fuel : nat) (sep s : str) : list str :=
  match fuel with
  | O => [s]
  | S f => match find sep s with
           | Some i => firstn i s :: split_str_fuel f sep (skipn (i + length sep) s)
           | None => [s]
           end
  end.
Definition split_str (sep s : str) : list str := split_str_fuel (S (length s)) sep s.

(** [s.replace(old, new)] for non-empty [old]. *)
Definition replace (old new s : str) : str := join new (split_str old s).

(** Stripping. *)
Fixpoint lstrip_by (p : N -> bool) (s : str) : str :=
  match s with
  | a :: s' => if p a then lstrip_by p s' else s
  | [] => []
  end.
Definition rstrip_by (p : N -> bool) (s : str) : str := rev (lstrip_by p (rev s)).
Definition strip_by (p : N -> bool) (s : str) : str := rstrip_by p (lstrip_by p s).

(** [str.isspace] characters, the default set of [str.strip()]. *)
Definition is_space (c : N) : bool :=
  ((9 <=? c) && (c <=? 13) || (28 <=? c) && (c <=? 32) || (c =? 133) || (c =? 160)
   || (c =? 5760) || (8192 <=? c) && (c <=? 8202) || (c =? 8232) || (c =? 8233)
   || (c =? 8239) || (c =? 8287) || (c =? 12288))%N.
Definition strip (s : str) : str := strip_by is_space s.

(** [bytes.strip()] set. *)
Definition is_bspace (c : N) : bool := ((9 <=? c) && (c <=? 13) || (c =? 32))%N.
Definition bstrip (s : str) : str := strip_by is_bspace s.

(** Case mapping, ASCII part.  (Python maps further letters; every use in the
    model states that it is about ASCII text.) *)
Definition lower_c (c : N) : N := if ((65 <=? c) && (c <=? 90))%N then (c + 32)%N else c.
Definition upper_c (c : N) : N := if ((97 <=? c) && (c <=? 122))%N then (c - 32)%N else c.
Definition lower (s : str) : str := map lower_c s.
Definition upper (s : str) : str := map upper_c s.

Definition is_digit (c : N) : bool := ((48 <=? c) && (c <=? 57))%N.
Definition is_alpha_us (c : N) : bool :=
  ((65 <=? c) && (c <=? 90) || (97 <=? c) && (c <=? 122) || (c =? 95))%N.
Definition is_word (c : N) : bool := is_alpha_us c || is_digit c.

(** [str(n)] for a non-negative integer. *)
Fixpoint dec_aux (fuel : nat) (n : N) (acc : str) : str :=
  match fuel with
  | O => acc
  | S f =>
      let acc' := (48 + n mod 10)%N :: acc in
      if (n / 10 =? 0)%N then acc' else dec_aux f (n / 10)%N acc'
  end.
Definition dec (n : N) : str := dec_aux (S (N.to_nat (N.log2 n))) n [].

(** [str(z)] for an integer. *)
Definition decz (z : Z) : str :=
  match z with
  | Zneg p => 45%N :: dec (Npos p)
  | Z0 => dec 0
  | Zpos p => dec (Npos p)
  end.

(** Value of a string of ASCII digits, no other character allowed. *)
Definition digits_val (s : str) : N := fold_left (fun acc c => (acc * 10 + (c - 48))%N) s 0%N.

(** Digits with single underscores between them, as [int()] accepts. *)
Fixpoint us_digits (prev_digit : bool) (s : str) : option str :=
  match s with
  | [] => if prev_digit then Some [] else None
  | c :: s' =>
      if is_digit c then option_map (cons c) (us_digits true s')
      else if (N.eqb c 95 && prev_digit)%bool then us_digits false s'
      else None
  end.

(** [int(s)] in base 10; [None] is ValueError.  (CPython also accepts the
    decimal digits of other scripts; only ASCII digits are modelled.) *)
Definition int_parse (s : str) : option Z :=
  let t := strip s in
  match t with
  | c :: t' =>
      if N.eqb c 45 then option_map (fun d => (- Z.of_N (digits_val d))%Z) (us_digits false t')
      else if N.eqb c 43 then option_map (fun d => Z.of_N (digits_val d)) (us_digits false t')
      else option_map (fun d => Z.of_N (digits_val d)) (us_digits false t)
  | [] => None
  end.

(** Python dict as an association list in insertion order. *)
Section Dict.
  Context {V : Type}.
  Definition dict := list (str * V).
  Fixpoint dget (k : str) (d : dict) : option V :=
    match d with
    | [] => None
    | (k', v) :: d' => if seqb k k' then Some v else dget k d'
    end.
  Fixpoint dset (k : str) (v : V) (d : dict) : dict :=
    match d with
    | [] => [(k, v)]
    | (k', v') :: d' => if seqb k k' then (k', v) :: d' else (k', v') :: dset k v d'
    end.
  Fixpoint ddel (k : str) (d : dict) : dict :=
    match d with
    | [] => []
    | (k', v') :: d' => if seqb k k' then ddel k d' else (k', v') :: ddel k d'
    end.
  Definition dmem (k : str) (d : dict) : bool :=
    match dget k d with Some _ => true | None => false end.
  Definition dkeys (d : dict) : list str := map fst d.
  (** [d.update(e)]. *)
  Definition dupdate (d e : dict) : dict := fold_left (fun acc kv => dset (fst kv) (snd kv) acc) e d.
End Dict.
Arguments dict V : clear implicits.
