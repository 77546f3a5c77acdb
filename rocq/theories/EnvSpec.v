(** What C45 and C81-C83 say. *)
From Verif Require Import PyStr EnvModel.

(** The last value a list of definitions gives a name. *)
Fixpoint last_value {V} (n : str) (l : list (str * V)) : option V :=
  match l with [] => None | (k, v) :: r => match last_value n r with Some w => Some w | None => if seqb k n then Some v else None end end.
(** The first source that defines it. *)
Fixpoint first_of {V} (l : list (option V)) : option V :=
  match l with [] => None | Some v :: _ => Some v | None :: r => first_of r end.

(** The leaves of a nested value, with the path to each: keys and positions. *)
Fixpoint leaves (v : value) : list (list str * value) :=
  match v with
  | Scalar _ => [([], v)]
  | Mapping m => (fix go (m : list (str * value)) := match m with [] => [] | (k, x) :: r => map (fun p => (k :: fst p, snd p)) (leaves x) ++ go r end) m
  | Sequence l => (fix go (i : N) (l : list value) := match l with [] => [] | x :: r => map (fun p => (dec i :: fst p, snd p)) (leaves x) ++ go (i + 1)%N r end) 0%N l
  end.
Definition dotted (path : list str) : str := join (u ".") path.

(** ASCII characters are classified as usual, and white space is no part of a word. *)
Definition usual_words (word : N -> bool) : Prop := (forall c, (c < 128)%N -> word c = is_word c) /\ (forall c, is_space c = true -> word c = false).
(** Pieces of a text: plain text, a reference in braces with or without a default, a bare reference, a dollar that
    begins no reference. *)
Inductive piece := Lit (s : str) | Braced (name : str) (default : option str) | Bare (name : str) | Dollar.
Definition piece_text (p : piece) : str :=
  match p with
  | Lit s => s
  | Braced n None => u "${" ++ n ++ u "}"
  | Braced n (Some d) => u "${" ++ n ++ u "|" ++ d ++ u "}"
  | Bare n => u "$" ++ n
  | Dollar => u "$"
  end.
Definition pieces_text (ps : list piece) : str := concat (map piece_text ps).
Section Pieces.
Context (word : N -> bool).
Definition is_name (n : str) : Prop := n <> [] /\ forallb (fun c => word c || N.eqb c 45 || N.eqb c 46) n = true.
(** A bare reference ends at a character that cannot continue it. *)
Definition ends_name (rest : str) : Prop := match rest with [] => True | c :: _ => (word c || N.eqb c 45 || N.eqb c 46) = false /\ c <> 124%N end.
(** A dollar with no name and no brace after it. *)
Definition no_reference (rest : str) : Prop := match rest with [] => True | c :: _ => (word c || N.eqb c 45 || N.eqb c 46) = false /\ c <> 123%N end.
Fixpoint good_pieces (ps : list piece) : Prop :=
  match ps with
  | [] => True
  | Lit s :: r => ~ In 36%N s /\ good_pieces r
  | Braced n d :: r => is_name n /\ match d with Some d => ~ In 10%N d /\ ~ In 125%N d | None => True end /\ good_pieces r
  | Bare n :: r => is_name n /\ ends_name (pieces_text r) /\ good_pieces r
  | Dollar :: r => no_reference (pieces_text r) /\ good_pieces r
  end.
(** What a piece stands for; [None]: an error. *)
Definition piece_value (ic strict : bool) (known : str -> option str) (p : piece) : option str :=
  let lookup n d := match known (if ic then upper n else n) with
                    | Some v => Some v
                    | None => match d with Some d => Some d | None => if strict then None else Some [] end
                    end in
  match p with Lit s => Some s | Braced n d => lookup n d | Bare n => lookup n None | Dollar => Some (u "$") end.
Fixpoint pieces_value (ic strict : bool) (known : str -> option str) (ps : list piece) : option str :=
  match ps with
  | [] => Some []
  | p :: r => match piece_value ic strict known p, pieces_value ic strict known r with Some a, Some b => Some (a ++ b) | _, _ => None end
  end.

(** The lines of a file: an assignment with spaces and perhaps quotes, a comment, an empty line, a line that begins
    with a character no name begins with (a digit, or none of a name). *)
Inductive line := Assign (name pre post quote : str) (value : list piece) (trail : str) | Comment (s : str) | Blank (s : str) | Odd (c : N) (s : str).
Definition line_text (l : line) : str :=
  match l with
  | Assign n pre post q v trail => n ++ pre ++ u "=" ++ post ++ q ++ pieces_text v ++ q ++ trail
  | Comment s => u "#" ++ s
  | Blank s => s
  | Odd c s => c :: s
  end.
Definition file_text (ls : list line) : str := join [10%N] (map line_text ls).
Definition spaces (s : str) : Prop := forall c, In c s -> is_space c = true /\ c <> 10%N.
Definition solid_edge (c : N) : Prop := is_space c = false /\ c <> 34%N /\ c <> 39%N.
Definition good_line (digit : N -> bool) (l : line) : Prop :=
  match l with
  | Assign n pre post q v trail =>
      is_name n /\ digit (hd 0%N n) = false /\ spaces pre /\ spaces post /\ spaces trail /\ (q = [] \/ q = [34%N] \/ q = [39%N])
      /\ good_pieces v /\ ~ In 10%N (pieces_text v) /\ (forall c, hd_error (pieces_text v) = Some c \/ hd_error (rev (pieces_text v)) = Some c -> solid_edge c)
  | Comment s => ~ In 10%N s
  | Blank s => spaces s
  | Odd c s => ((word c || N.eqb c 45 || N.eqb c 46) = false \/ digit c = true) /\ ~ In 10%N (c :: s)
  end.
(** What the lines define, one after the other: later definitions see earlier ones before the variables
    of the system; a strict reader refuses a second definition of a name. *)
Fixpoint file_meaning (ic strict : bool) (os vars : dict str) (ls : list line) : option (dict str) :=
  match ls with
  | [] => Some vars
  | Assign n _ _ _ v _ :: r =>
      let key := if ic then upper n else n in
      match pieces_value ic strict (fun n => match dget n vars with Some x => Some x | None => dget n os end) v with
      | None => None
      | Some t => if strict && dmem key vars then None else file_meaning ic strict os (dset key t vars) r
      end
  | _ :: r => file_meaning ic strict os vars r
  end.
End Pieces.
