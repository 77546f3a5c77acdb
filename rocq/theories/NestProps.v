(** C92: nested form fields.  C93: their values. *)
From Verif Require Import PyStr PyStrFacts NestModel NestSpec NestProofs.

(** ** C92: the nested structure has the sent values at their places and no others, and its lists are no longer than
    the fields need. *)
Section C92.
Context {V : Type}.
Definition holds (fields : list (list seg * V)) (t : tree V) : Prop :=
  (forall p v, get p t = Some (Leaf v) <-> In (p, v) fields)
  /\ (forall p l, get p t = Some (Seq l) -> exists q k i r v, p = q ++ [Key k] /\ length l = S i /\ In (q ++ At k i :: r, v) fields).

Lemma put_holds fields t p v : (exists m, t = Dict m) -> holds fields t -> p <> [] -> Forall good_seg p -> (forall f, In f fields -> apart p (fst f)) ->
  exists t', put (split_char 46 (place_text p)) v t = Some t' /\ (exists m, t' = Dict m) /\ holds (fields ++ [(p, v)]) t'.
Proof.
  intros D (H1 & H2) NE G A. pose proof (place_read p NE G) as R. set (parts := split_char 46 (place_text p)) in *. assert (NP : parts <> []) by apply split_char_nonnil.
  destruct (put_some v parts t D) as (t' & P).
  - intros q w Q. rewrite R. apply H1 in Q. exact (A _ Q).
  - intros q k i l Q. destruct (H2 _ _ Q) as (q0 & k0 & i0 & r & w & E & _). apply app_inj_tail in E as [_ E]. discriminate E.
  - exists t'. split; [exact P|]. split; [destruct (put_dict _ _ _ _ P) as (a & b & _ & ->); eexists; reflexivity|]. split.
    + intros q w. rewrite in_app_iff. split.
      * intros Q. destruct (get_back _ _ _ _ _ _ NP P Q) as [[-> ->]|X]; [right; left; rewrite R; reflexivity|left; apply H1; exact X].
      * intros [I|[[= <- <-]|[]]]; [|rewrite <- R; exact (get_put v parts _ _ NP P)]. apply (get_frame v parts q t t' (Leaf w) P); [rewrite R; exact (A _ I)|apply H1; exact I].
    + intros q l Q. destruct (get_lists _ _ _ _ _ _ P Q) as [(l0 & X & L)|(q0 & k & i & r & E1 & E2 & L)].
      * destruct (H2 _ _ X) as (q0 & k & i & r & w & E & L0 & I). exists q0, k, i, r, w. refine (conj E (conj _ _)); [congruence|]. apply in_app_iff. left. exact I.
      * exists q0, k, i, r, v. refine (conj E1 (conj L _)). apply in_app_iff. right. left. rewrite <- E2, R. reflexivity.
Qed.
Theorem C92_nested : forall fields : list (list seg * V), good_fields fields -> exists t, expand_nested_keys (form fields) = Some t /\ holds fields t.
Proof.
  assert (GEN : forall rest done t, (exists m, t = Dict m) -> holds done t -> Forall (fun f : list seg * V => fst f <> [] /\ Forall good_seg (fst f)) rest ->
    ForallOrdPairs (fun f g => apart (fst f) (fst g)) rest -> (forall f g, In f rest -> In g done -> apart (fst f) (fst g)) ->
    exists t', expand_from t (form rest) = Some t' /\ holds (done ++ rest) t').
  { induction rest as [|(p, v) rest IH]; intros done t D H G O X.
    - exists t. split; [reflexivity|]. rewrite app_nil_r. exact H.
    - inversion G as [|? ? [G1 G2] G3]; subst. inversion O as [|? ? O1 O2]; subst. cbn [fst] in *. destruct (put_holds done t p v D H G1 G2) as (t1 & P & D1 & H1); [intros f I; exact (X (p, v) f (or_introl eq_refl) I)|].
      destruct (IH _ t1 D1 H1 G3 O2) as (t' & E & H').
      + intros f g I J. apply in_app_iff in J as [J|[<-|[]]]; [exact (X f g (or_intror I) J)|]. cbn [fst]. apply apart_sym. rewrite Forall_forall in O1. exact (O1 f I).
      + exists t'. split; [|rewrite <- app_assoc in H'; exact H']. cbn [form map fst snd expand_from]. rewrite P. exact E. }
  intros fields (G & O). unfold expand_nested_keys. destruct (GEN fields [] (Dict [])) as (t & E & H).
  - eexists; reflexivity.
  - split; [|intros p l Q; destruct p as [|[k|k i] p]; discriminate Q]. intros p v. split; [intros Q; destruct p as [|[k|k i] p]; discriminate Q|intros []].
  - exact G.
  - exact O.
  - intros f g _ [].
  - exists t. split; [exact E|exact H].
Qed.
End C92.
Print Assumptions C92_nested.
Definition ex_fields : list (list seg * str) :=
  [([At (u "items") 1; Key (u "sku")], u "b"); ([Key (u "user"); Key (u "name")], u "lilya"); ([At (u "items") 0; Key (u "sku")], u "a"); ([Key (u "user"); At (u "tags") 0], u "x"); ([At (u "items") 0; Key (u "n")], u "3")].
Example C92_case : good_fields ex_fields
  /\ map fst (form ex_fields) = [u "items[1].sku"; u "user.name"; u "items[0].sku"; u "user.tags[0]"; u "items[0].n"]
  /\ expand_nested_keys (form ex_fields)
     = Some (Dict [(u "items", Seq [Dict [(u "sku", Leaf (u "a")); (u "n", Leaf (u "3"))]; Dict [(u "sku", Leaf (u "b"))]]); (u "user", Dict [(u "name", Leaf (u "lilya")); (u "tags", Seq [Leaf (u "x")])])]).
Proof.
  refine (conj (conj _ _) (conj _ _)); [| |vm_compute; reflexivity..].
  - assert (K : forall k, cmem 46 k = false -> match rev k with c :: _ => negb (N.eqb c 93 || N.eqb c 10) | [] => true end = true -> good_seg (Key k)).
    { intros k D E. split; [apply cmem_not_In; exact D|]. intros k'. split; intros ->; rewrite rev_app_distr in E; discriminate E. }
    assert (A : forall k i, cmem 46 k = false -> cmem 10 k = false -> k <> [] -> good_seg (At k i)).
    { intros k i D E NE. split; [apply cmem_not_In; exact D|]. split; [exact NE|apply cmem_not_In; exact E]. }
    repeat constructor; try discriminate; try (apply K; reflexivity); try (apply A; [reflexivity|reflexivity|discriminate]); cbn [fst]; try (apply cmem_not_In; reflexivity); intros k'; split; intros E; apply (f_equal (@rev N)) in E; rewrite rev_app_distr in E; discriminate E.
  - unfold ex_fields. repeat (apply FOP_cons || apply FOP_nil || apply Forall_cons || apply Forall_nil); cbn [fst]; first [apply apart_name; discriminate | apply apart_index; discriminate | apply apart_next; apply apart_name; discriminate].
Qed.
(** A value inside a text: the request fails. *)
Theorem C92_overlap : expand_nested_keys [(u "a[0]", u "x"); (u "a[0].b", u "y")] = None.
Proof. vm_compute. reflexivity. Qed.
Print Assumptions C92_overlap.

(** ** C93: a text that is not JSON arrives as it was sent. *)
Section C93.
Context {U : Type} (loads : str -> option (tree (value U))).
Lemma get_deep p : forall t x, get p t = Some x -> get p (deep_parse_json loads t) = Some (deep_parse_json loads x).
Proof.
  assert (DM : forall k (m : list (str * tree (value U))), dget k (map (fun p => (fst p, deep_parse_json loads (snd p))) m) = option_map (deep_parse_json loads) (dget k m)).
  { intros k m. induction m as [|(k', t) m IH]; [reflexivity|]. cbn [map dget fst snd]. destruct (seqb k k'); [reflexivity|exact IH]. }
  induction p as [|[k|k i] p IH]; intros t x G.
  - injection G as <-. reflexivity.
  - destruct t as [w|m|l]; try discriminate. cbn [get deep_parse_json] in *. rewrite DM. destruct (dget k m) as [t|]; [|discriminate]. cbn [option_map]. apply IH. exact G.
  - destruct t as [w|m|l]; try discriminate. cbn [get deep_parse_json] in *. rewrite DM. destruct (dget k m) as [[w|m'|l]|]; try discriminate. cbn [option_map deep_parse_json]. rewrite nth_error_map. destruct (nth_error l i) as [t|]; [|discriminate]. cbn [option_map]. apply IH. exact G.
Qed.
Lemma value_at fields p x : good_fields fields -> In (p, x) fields -> exists t, form_data loads (form fields) = Some t /\ get p t = Some (maybe_parse_json loads x).
Proof.
  intros G I. destruct (C92_nested fields G) as (t & E & H & _). unfold form_data. rewrite E. eexists. split; [reflexivity|]. apply (get_deep p t (Leaf x)). apply H. exact I.
Qed.
(** The first character that is no white space. *)
Definition looks_like_json (s : str) : Prop := exists a c b, s = a ++ c :: b /\ forallb is_space a = true /\ (c = 123%N \/ c = 91%N).
Definition C93_statement : Prop := forall fields p s, good_fields fields -> In (p, Text s) fields -> ~ looks_like_json s ->
  exists t, form_data loads (form fields) = Some t /\ get p t = Some (Leaf (Text s)).
Theorem C93_text_partial : forall fields p s, good_fields fields -> In (p, Text s) fields -> ~ looks_like_json s -> strip s = s ->
  exists t, form_data loads (form fields) = Some t /\ get p t = Some (Leaf (Text s)).
Proof.
  intros fields p s G I J S. destruct (value_at fields p _ G I) as (t & E & H). exists t. split; [exact E|]. rewrite H. cbn [maybe_parse_json]. cbv zeta. rewrite S. destruct s as [|c s]; [reflexivity|].
  destruct (N.eqb c 123 || N.eqb c 91) eqn:B; [|reflexivity]. exfalso. apply J. exists [], c, s. refine (conj eq_refl (conj eq_refl _)). apply orb_true_iff in B as [B|B]; apply N.eqb_eq in B; auto.
Qed.
(** Uploads are left alone. *)
Theorem C93_object : forall fields p x, good_fields fields -> In (p, Object x) fields ->
  exists t, form_data loads (form fields) = Some t /\ get p t = Some (Leaf (Object x)).
Proof. intros fields p x G I. exact (value_at fields p _ G I). Qed.
(** And a JSON object or list arrives as what it says. *)
Theorem C93_json : forall fields p c s j, good_fields fields -> In (p, Text (c :: s)) fields -> (c = 123%N \/ c = 91%N) -> strip (c :: s) = c :: s -> loads (c :: s) = Some j ->
  exists t, form_data loads (form fields) = Some t /\ get p t = Some j.
Proof.
  intros fields p c s j G I C S L. destruct (value_at fields p _ G I) as (t & E & H). exists t. split; [exact E|]. rewrite H. cbn [maybe_parse_json]. cbv zeta. rewrite S, L.
  assert (B : (N.eqb c 123 || N.eqb c 91) = true) by (destruct C as [-> | -> ]; reflexivity). rewrite B. reflexivity.
Qed.
End C93.
Print Assumptions C93_text_partial.
Print Assumptions C93_object.
Print Assumptions C93_json.
(** The spaces around a text are lost. *)
Theorem C93_refuted : ~ forall loads : str -> option (tree (value unit)), C93_statement loads.
Proof.
  intros H. specialize (H (fun _ => None) [([Key (u "a")], Text (u " x "))] [Key (u "a")] (u " x ")). destruct H as (t & E & G).
  - split; [|repeat constructor]. repeat constructor; try discriminate; cbn [fst]; try (apply cmem_not_In; reflexivity); intros E; apply (f_equal (@rev N)) in E; rewrite rev_app_distr in E; discriminate E.
  - left. reflexivity.
  - intros (a & c & b & E & S & C). destruct a as [|x a]; [injection E as <- _; destruct C; discriminate|]. injection E as <- E. destruct a as [|y a]; [injection E as <- _; destruct C; discriminate|]. injection E as <- E. discriminate S.
  - vm_compute in E. injection E as <-. vm_compute in G. discriminate G.
Qed.
Print Assumptions C93_refuted.
Example C93_case : form_data (fun s => if seqb s (u "{}") then Some (Dict []) else None) [(u "a.b", Text (u "x y")); (u "f", Object tt); (u "j", Text (u "{}")); (u "k", Text (u "{bad"))]
  = Some (Dict [(u "a", Dict [(u "b", Leaf (Text (u "x y")))]); (u "f", Leaf (Object tt)); (u "j", Dict []); (u "k", Leaf (Text (u "{bad")))]).
Proof. vm_compute. reflexivity. Qed.
