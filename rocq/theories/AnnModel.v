(** Model of lilya/contrib/openapi/helpers.py:30-106: the fields that the documentation shows of a class, and the conversion of
    annotations.  Types of fields are numbers: they are copied, not looked at. *)
From Verif Require Import PyStr.

(** A field: its type, and whether the class gives it a default. *)
Record field := { f_type : nat; f_default : bool }.
(** A class: its name, whether some encoder handles it (a dataclass, a class with [model_dump], or a class of an encoder that was
    registered), its own annotations, and its bases.  [object] and other classes without annotations are left out. *)
Inductive cls := Class (name : str) (handled : bool) (own : dict field) (bases : list cls).
Definition c_name (c : cls) : str := let 'Class n _ _ _ := c in n.
Definition c_handled (c : cls) : bool := let 'Class _ h _ _ := c in h.
Definition c_own (c : cls) : dict field := let 'Class _ _ o _ := c in o.

(** helpers.py:30-52 [get_base_annotations] with [is_class=False]: for each base, the annotations of its bases and then its own. *)
Fixpoint base_annotations (c : cls) : dict field :=
  let 'Class _ _ _ bases := c in
  (fix go (bs : list cls) (acc : dict field) : dict field :=
     match bs with
     | [] => acc
     | b :: bs' => go bs' (dupdate (dupdate acc (base_annotations b)) (c_own b))
     end) bases [].
(** helpers.py:93-97. *)
Definition field_annotations (c : cls) : dict field := dupdate (base_annotations c) (c_own c).

(** Annotations: a class, a generic like [list[A]] or [Optional[A]], a union [A | B] (which has arguments and no [__origin__]),
    [Annotated[A, m]] (whose [__origin__] is [A] and whose arguments are [A] and [m]), and other values. *)
Inductive ann :=
| ACls (c : cls)
| AGen (origin : nat) (args : list ann)
| ABar (args : list ann)
| AAnnotated (a : ann) (meta : nat)
| AOther (n : nat).
(** Converted ones.  A model has fields with a type, and whether they are required. *)
Inductive out :=
| OCls (c : cls)
| OModel (name : str) (fields : dict (nat * bool))
| OGen (origin : nat) (args : list out)
| OBar (args : list ann)
| OOther (n : nat).
Inductive result := Fine (o : out) | TypeError.

(** helpers.py:98-105: every field is declared as [(annotation, ...)], that is as required. *)
Definition model_of (c : cls) : out :=
  OModel (c_name c) (map (fun kv => (fst kv, (f_type (snd kv), true))) (field_annotations c)).

(** helpers.py:55-106 [convert_annotation_to_pydantic_model].  Subscribing the origin of an [Annotated] is a TypeError: a class
    that is not generic (or a generic that has its arguments) takes none.  [AGen] with no arguments is returned as it is. *)
Fixpoint convert (a : ann) : result :=
  match a with
  | ACls c => Fine (if c_handled c then model_of c else OCls c)
  | AGen o args =>
      match (fix all (l : list ann) : option (list out) :=
               match l with
               | [] => Some []
               | x :: l' => match convert x with
                            | Fine y => option_map (cons y) (all l')
                            | TypeError => None
                            end
               end) args with
      | Some ys => Fine (OGen o ys)
      | None => TypeError
      end
  | ABar args =>
      (* the arguments are converted, and then the annotation is returned as it is *)
      if forallb (fun x => match convert x with Fine _ => true | TypeError => false end) args then Fine (OBar args) else TypeError
  | AAnnotated _ _ => TypeError
  | AOther n => Fine (OOther n)
  end.
