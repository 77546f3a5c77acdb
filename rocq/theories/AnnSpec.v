(** Specification for [AnnModel]. *)
From Verif Require Import PyStr AnnModel.

Definition c_bases (c : cls) : list cls := let 'Class _ _ _ bs := c in bs.
(** A class declares a name if it or an ancestor annotates it. *)
Inductive declares : cls -> str -> Prop :=
| dc_own c n f : In (n, f) (c_own c) -> declares c n
| dc_base c b n : In b (c_bases c) -> declares b n -> declares c n.
(** What Python means by the annotation of a name: the class's own, or else that of the first base that declares it.  (This is the
    method resolution order when no class is an ancestor twice.) *)
Inductive inherits : cls -> str -> field -> Prop :=
| in_own c n f : In (n, f) (c_own c) -> inherits c n f
| in_base c pre b post n f : (forall g, ~ In (n, g) (c_own c)) -> c_bases c = pre ++ b :: post ->
    (forall x, In x pre -> ~ declares x n) -> inherits b n f -> inherits c n f.
(** What the documentation shows: that of the last base that declares it. *)
Inductive shows : cls -> str -> field -> Prop :=
| sh_own c n f : In (n, f) (c_own c) -> shows c n f
| sh_base c pre b post n f : (forall g, ~ In (n, g) (c_own c)) -> c_bases c = pre ++ b :: post ->
    (forall x, In x post -> ~ declares x n) -> shows b n f -> shows c n f.
(** No class annotates a name twice. *)
Inductive sound : cls -> Prop :=
| sound_class c : NoDup (map fst (c_own c)) -> (forall b, In b (c_bases c) -> sound b) -> sound c.
(** No name comes from two bases of one class. *)
Inductive separate : cls -> Prop :=
| separate_class c : (forall b, In b (c_bases c) -> separate b) ->
    (forall pre b mid d post n, c_bases c = pre ++ b :: mid ++ d :: post -> declares b n -> ~ declares d n) -> separate c.

(** A class with a single line of ancestors. *)
Fixpoint line (cs : list (str * bool * dict field)) : cls :=
  match cs with
  | [] => Class [] false [] []
  | [(n, h, o)] => Class n h o []
  | (n, h, o) :: cs' => Class n h o [line cs']
  end.

(** A class that stands in an annotation. *)
Inductive stands : cls -> ann -> Prop :=
| st_cls c : stands c (ACls c)
| st_gen c g l a : In a l -> stands c a -> stands c (AGen g l)
| st_bar c l a : In a l -> stands c a -> stands c (ABar l).
(** Every class of an encoder is replaced by a model with its name and the fields it shows, wherever it stands; the rest stays. *)
Inductive documents : ann -> out -> Prop :=
| do_model c fields : c_handled c = true -> (forall n, In n (map fst fields) <-> declares c n) ->
    (forall n f, shows c n f -> dget n fields = Some (f_type f, true)) -> documents (ACls c) (OModel (c_name c) fields)
| do_class c : c_handled c = false -> documents (ACls c) (OCls c)
| do_gen g l l' : Forall2 documents l l' -> documents (AGen g l) (OGen g l')
| do_other n : documents (AOther n) (OOther n).
(** Does a class of an encoder stand in the annotation? *)
Fixpoint mentions (a : ann) : bool :=
  match a with
  | ACls c => c_handled c
  | AGen _ l | ABar l => existsb mentions l
  | AAnnotated a _ => mentions a
  | AOther _ => false
  end.
Fixpoint classic (a : ann) : bool :=
  match a with ACls _ | AOther _ => true | AGen _ l => forallb classic l | ABar _ | AAnnotated _ _ => false end.
