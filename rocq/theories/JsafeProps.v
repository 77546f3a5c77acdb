(** C385-C386: the metadata of an application graph as JSON. *)
From Coq Require Import ZArith Lia Permutation Sorted.
From Verif Require Import PyStr PyStrFacts CollModel CollProofs JsafeModel.

(** ** Specification *)
(** The same values, but for the order in which sets give their elements. *)
Inductive same : value -> value -> Prop :=
| same_refl v : same v v
| same_set l l' : Permutation l l' -> same (PySet l) (PySet l')
| same_seq l l' : same_all l l' -> same (Sequence l) (Sequence l')
| same_map l l' : same_items l l' -> same (Mapping l) (Mapping l')
with same_all : list value -> list value -> Prop :=
| all_nil : same_all [] []
| all_cons x y l l' : same x y -> same_all l l' -> same_all (x :: l) (y :: l')
with same_items : list (str * value) -> list (str * value) -> Prop :=
| items_nil : same_items [] []
| items_cons k x y l l' : same x y -> same_items l l' -> same_items ((k, x) :: l) ((k, y) :: l').
Scheme same_mind := Induction for same Sort Prop
with all_mind := Induction for same_all Sort Prop
with items_mind := Induction for same_items Sort Prop.
Combined Scheme same_mutind from same_mind, all_mind, items_mind.
(** There is a JSON text for it. *)
Inductive is_json : safe -> Prop :=
| js_plain a : is_json (Plain a)
| js_object l : (forall k x, In (k, x) l -> is_json x) -> is_json (Object l)
| js_array l : (forall x, In x l -> is_json x) -> is_json (Array l).
(** Made of texts, numbers, members with such values, mappings, lists, tuples and sets. *)
Inductive ordinary : value -> Prop :=
| or_atom a : ordinary (Atom a)
| or_member a : ordinary (Member (Atom a))
| or_mapping l : (forall k x, In (k, x) l -> ordinary x) -> ordinary (Mapping l)
| or_sequence l : (forall x, In x l -> ordinary x) -> ordinary (Sequence l)
| or_set l : ordinary (PySet l).

(** ** Helpers *)
Definition safe_items : list (str * value) -> option (list (str * safe)) :=
  fix go (l : list (str * value)) : option (list (str * safe)) :=
    match l with
    | [] => Some []
    | (k, x) :: r => match to_json_safe x, go r with Some y, Some s => Some ((k, y) :: s) | _, _ => None end
    end.
Definition safe_all : list value -> option (list safe) :=
  fix go (l : list value) : option (list safe) :=
    match l with
    | [] => Some []
    | x :: r => match to_json_safe x, go r with Some y, Some s => Some (y :: s) | _, _ => None end
    end.
Lemma safe_mapping l : to_json_safe (Mapping l) = match safe_items l with Some s => Some (Object s) | None => None end.
Proof. reflexivity. Qed.
Lemma safe_sequence l : to_json_safe (Sequence l) = match safe_all l with Some s => Some (Array s) | None => None end.
Proof. reflexivity. Qed.
Lemma atom_total a b : atom_leb a b = true \/ atom_leb b a = true.
Proof. destruct a, b; cbn; auto; [apply str_leb_total|]. destruct (Z.leb_spec n n0), (Z.leb_spec n0 n); auto. lia. Qed.
Lemma atom_anti a b : atom_leb a b = true -> atom_leb b a = true -> a = b.
Proof. destruct a, b; cbn; intros A B; try discriminate; f_equal; [apply str_leb_anti; assumption|]. apply Z.leb_le in A, B. lia. Qed.
Lemma atom_trans a b c : atom_leb a b = true -> atom_leb b c = true -> atom_leb a c = true.
Proof. destruct a, b, c; cbn; intros A B; try discriminate; try reflexivity; [apply (str_leb_trans _ t0); assumption|]. apply Z.leb_le in A, B. apply Z.leb_le. lia. Qed.
Definition le_atom (a b : atom) : Prop := atom_leb a b = true.
Lemma insert_perm a l : Permutation (insert_atom a l) (a :: l).
Proof. induction l as [|x r IH]; cbn [insert_atom]; [apply Permutation_refl|]. destruct (atom_leb a x); [apply Permutation_refl|]. rewrite IH. apply perm_swap. Qed.
Lemma sort_perm l : Permutation (fold_right insert_atom [] l) l.
Proof. induction l as [|x r IH]; cbn [fold_right]; [apply Permutation_refl|]. rewrite insert_perm, IH. apply Permutation_refl. Qed.
Lemma sort_sorted l : StronglySorted le_atom (fold_right insert_atom [] l).
Proof.
  induction l as [|a l IH]; cbn [fold_right]; [constructor|]. induction IH as [|x r S IHr F]; cbn [insert_atom]; [repeat constructor|]. destruct (atom_leb a x) eqn:E.
  - constructor; [constructor; assumption|]. constructor; [exact E|]. eapply Forall_impl; [|exact F]. intros b. apply atom_trans. exact E.
  - constructor; [exact IHr|]. apply Forall_forall. intros y I. apply (Permutation_in _ (insert_perm a r)) in I. destruct I as [<-|I].
    + destruct (atom_total x a) as [T|T]; [exact T|]. congruence.
    + rewrite Forall_forall in F. exact (F y I).
Qed.
Lemma sorted_unique a : forall b, StronglySorted le_atom a -> StronglySorted le_atom b -> Permutation a b -> a = b.
Proof.
  induction a as [|x a IH]; intros b SA SB P; [apply Permutation_nil in P; symmetry; exact P|].
  destruct b as [|y b]; [apply Permutation_sym, Permutation_nil in P; discriminate P|].
  inversion SA as [|? ? SA' FA]; inversion SB as [|? ? SB' FB]; subst. rewrite Forall_forall in FA, FB.
  assert (E : x = y).
  { assert (I1 : In x (y :: b)) by (apply (Permutation_in _ P); left; reflexivity). assert (I2 : In y (x :: a)) by (apply (Permutation_in _ (Permutation_sym P)); left; reflexivity).
    destruct I1 as [->|I1]; [reflexivity|]. destruct I2 as [->|I2]; [reflexivity|]. apply atom_anti; [apply FA; exact I2|apply FB; exact I1]. }
  subst y. f_equal. apply IH; [exact SA'|exact SB'|]. apply Permutation_cons_inv in P. exact P.
Qed.
Lemma forallb_perm {A} (f : A -> bool) l l' : Permutation l l' -> forallb f l = forallb f l'.
Proof. intros P. induction P as [|x l l' P IH|x y l|l1 l2 l3 P1 IH1 P2 IH2]; cbn [forallb]; [reflexivity|rewrite IH; reflexivity| |congruence]. destruct (f x), (f y); reflexivity. Qed.
Lemma sorted_same l l' : Permutation l l' -> sorted_atoms l = sorted_atoms l'.
Proof.
  intros P. unfold sorted_atoms. rewrite (forallb_perm _ l l' P), (forallb_perm (fun a => match a with Num _ => true | _ => false end) l l' P).
  destruct (_ || _); [|reflexivity]. f_equal. apply sorted_unique; [apply sort_sorted|apply sort_sorted|].
  transitivity l; [apply sort_perm|]. transitivity l'; [exact P|apply Permutation_sym, sort_perm].
Qed.

(** ** C385 *)
(** What is reported of an application does not depend on the order in which its sets give their
    elements. *)
Theorem C385_same : forall v w, same v w -> to_json_safe v = to_json_safe w.
Proof.
  assert (H : (forall v w, same v w -> to_json_safe v = to_json_safe w) /\ (forall l l', same_all l l' -> safe_all l = safe_all l')
              /\ (forall l l', same_items l l' -> safe_items l = safe_items l')).
  { apply same_mutind.
    - reflexivity.
    - intros l l' P. cbn [to_json_safe]. rewrite (sorted_same (map snd l) (map snd l')); [reflexivity|]. apply Permutation_map. exact P.
    - intros l l' _ E. rewrite !safe_sequence, E. reflexivity.
    - intros l l' _ E. rewrite !safe_mapping, E. reflexivity.
    - reflexivity.
    - intros x y l l' _ E _ R. cbn [safe_all]. rewrite E. fold safe_all. rewrite R. reflexivity.
    - reflexivity.
    - intros k x y l l' _ E _ R. cbn [safe_items]. rewrite E. fold safe_items. rewrite R. reflexivity. }
  exact (proj1 H).
Qed.
Print Assumptions C385_same.
Example C385_case :
  to_json_safe (Mapping [(u "methods", PySet [(false, Text (u "POST")); (true, Text (u "GET"))]); (u "n", Sequence [PySet [(false, Num 2%Z); (false, Num 1%Z)]])])
  = Some (Object [(u "methods", Array [Plain (Text (u "GET")); Plain (Text (u "POST"))]); (u "n", Array [Array [Plain (Num 1%Z); Plain (Num 2%Z)]])]).
Proof. vm_compute. reflexivity. Qed.

(** ** C386 *)
(** What is reported of an application has a JSON text. *)
Definition C386_statement : Prop := forall v, exists s, to_json_safe v = Some s /\ is_json s.
Theorem C386_json_partial : forall v s, ordinary v -> to_json_safe v = Some s -> is_json s.
Proof.
  fix IH 1. intros v s O. destruct v as [a|w|l|l|l|l].
  - cbn. intros E. injection E as <-. constructor.
  - inversion O as [|a EA| | |]; subst. cbn. intros E. injection E as <-. constructor.
  - assert (OL : forall k x, In (k, x) l -> ordinary x) by (inversion O; assumption). clear O. rewrite safe_mapping.
    assert (K : forall t, safe_items l = Some t -> forall k y, In (k, y) t -> is_json y).
    { induction l as [|(k, x) r IHr]; cbn [safe_items]; fold safe_items; intros t E; [injection E as <-; intros k y []|].
      destruct (to_json_safe x) as [y|] eqn:X; [|discriminate E]. destruct (safe_items r) as [q|] eqn:R; [|discriminate E]. injection E as <-. intros k' y' [J|J].
      - injection J as <- <-. apply (IH x y); [|exact X]. apply (OL k). left. reflexivity.
      - apply (IHr (fun k0 x0 I => OL k0 x0 (or_intror I)) q eq_refl k' y' J). }
    destruct (safe_items l) as [t|]; intros E; [|discriminate E]. injection E as <-. constructor. exact (K t eq_refl).
  - assert (OL : forall x, In x l -> ordinary x) by (inversion O; assumption). clear O. rewrite safe_sequence.
    assert (K : forall t, safe_all l = Some t -> forall y, In y t -> is_json y).
    { induction l as [|x r IHr]; cbn [safe_all]; fold safe_all; intros t E; [injection E as <-; intros y []|].
      destruct (to_json_safe x) as [y|] eqn:X; [|discriminate E]. destruct (safe_all r) as [q|] eqn:R; [|discriminate E]. injection E as <-. intros y' [J|J].
      - subst y'. apply (IH x y); [|exact X]. apply OL. left. reflexivity.
      - apply (IHr (fun x0 I => OL x0 (or_intror I)) q eq_refl y' J). }
    destruct (safe_all l) as [t|]; intros E; [|discriminate E]. injection E as <-. constructor. exact (K t eq_refl).
  - cbn [to_json_safe]. destruct (sorted_atoms (map snd l)) as [t|]; intros E; [|discriminate E]. injection E as <-. constructor. intros x I. apply in_map_iff in I as (a & <- & _). constructor.
  - exfalso. inversion O.
Qed.
Print Assumptions C386_json_partial.
(** A frozenset is left as it is, as is the set that a member of an enumeration has; texts among numbers
    raise. *)
Theorem C386_refuted : ~ C386_statement
  /\ (forall l, exists s, to_json_safe (Frozen l) = Some s /\ ~ is_json s)
  /\ (forall l, exists s, to_json_safe (Member (PySet l)) = Some s /\ ~ is_json s)
  /\ (forall b c t n l, to_json_safe (PySet ((b, Text t) :: (c, Num n) :: l)) = None).
Proof.
  assert (N : forall v, ~ is_json (Left v)) by (intros v J; inversion J).
  split; [|split; [|split]].
  - intros H. destruct (H (Frozen [])) as (s & E & J). cbn in E. injection E as <-. exact (N _ J).
  - intros l. eexists. split; [reflexivity|apply N].
  - intros l. eexists. split; [reflexivity|apply N].
  - intros b c t n l. reflexivity.
Qed.
Print Assumptions C386_refuted.
Example C386_case : ordinary (Mapping [(u "kind", Member (Atom (Text (u "route")))); (u "tags", PySet [(false, Text (u "a"))])])
  /\ to_json_safe (Mapping [(u "kind", Member (Atom (Text (u "route")))); (u "tags", PySet [(false, Text (u "a"))])])
     = Some (Object [(u "kind", Plain (Text (u "route"))); (u "tags", Array [Plain (Text (u "a"))])]).
Proof.
  split; [|vm_compute; reflexivity]. constructor. intros k x [E|[E|[]]]; injection E as <- <-; constructor.
Qed.
