(** Lemmas for C92 and C93. *)
From Verif Require Import PyStr PyStrFacts NestModel NestSpec.

Definition seg_of (part : str) : seg := match index_match part with Some (k, i) => At k (N.to_nat i) | None => Key part end.
Section Nest.
Context {V : Type}.
Implicit Types (d t : tree V) (l : list (tree V)).

Lemma pad_length i l : length (pad i l) = Nat.max (length l) (S i).
Proof. unfold pad. rewrite app_length, repeat_length. lia. Qed.
Lemma pad_nth i l j : nth_error (pad i l) j = match nth_error l j with Some t => Some t | None => if Nat.ltb j (Nat.max (length l) (S i)) then Some (Dict []) else None end.
Proof.
  unfold pad. destruct (nth_error l j) as [t|] eqn:E.
  - rewrite nth_error_app1; [exact E|]. apply nth_error_Some. rewrite E. discriminate.
  - apply nth_error_None in E. rewrite nth_error_app2 by exact E. destruct (Nat.ltb_spec j (Nat.max (length l) (S i))) as [L|L].
    + apply nth_error_repeat. lia.
    + apply nth_error_None. rewrite repeat_length. lia.
Qed.
Lemma set_nth_length i t l : i < length l -> length (set_nth i t l) = length l.
Proof. intros H. unfold set_nth. rewrite app_length, firstn_length. cbn [length]. rewrite skipn_length. lia. Qed.
Lemma set_nth_same i t l : i < length l -> nth_error (set_nth i t l) i = Some t.
Proof. intros H. unfold set_nth. rewrite nth_error_app2; rewrite firstn_length; [|lia]. replace (i - Nat.min i (length l)) with 0 by lia. reflexivity. Qed.
Lemma set_nth_other i j t l : i < length l -> i <> j -> nth_error (set_nth i t l) j = nth_error l j.
Proof.
  intros H E. unfold set_nth. destruct (lt_dec j i) as [L|L].
  - rewrite nth_error_app1 by (rewrite firstn_length; lia). clear - L. revert l j L. induction i as [|i IH]; intros l j L; [lia|]. destruct l as [|x l]; [destruct j; reflexivity|]. destruct j as [|j]; [reflexivity|]. cbn [firstn nth_error]. apply IH. lia.
  - rewrite nth_error_app2 by (rewrite firstn_length; lia). rewrite firstn_length. replace (j - Nat.min i (length l)) with (S (j - S i)) by lia. cbn [nth_error]. clear - L E.
    replace (nth_error (skipn (S i) l) (j - S i)) with (nth_error l (S i + (j - S i))); [f_equal; lia|]. generalize (S i) (j - S i). clear. intros n. revert l. induction n as [|n IH]; intros l m; [reflexivity|]. destruct l; [destruct m; reflexivity|]. cbn [skipn plus nth_error]. apply IH.
Qed.

(** What [put] does, by the kind of the first part. *)
Lemma put_dict parts v d d' : put parts v d = Some d' -> exists m m', d = Dict m /\ d' = Dict m'.
Proof.
  destruct d as [w|m|l], parts as [|part rest]; cbn [put]; try discriminate; [intros [= <-]; eauto|]. cbv zeta. destruct (index_match part) as [(k, i)|].
  - destruct rest; [intros [= <-]; eauto|]. destruct (put _ v _); [intros [= <-]; eauto|discriminate].
  - destruct rest; [intros [= <-]; eauto|]. destruct (put _ v _); [intros [= <-]; eauto|discriminate].
Qed.
Definition sub_list (k : str) (m : list (str * tree V)) : list (tree V) := match dget k m with Some (Seq l) => l | _ => [] end.
Definition sub_dict (k : str) (m : list (str * tree V)) : tree V := match dget k m with Some (Dict s) => Dict s | _ => Dict [] end.
(** [below rest v t t']: [t'] is [t] with [v] put at [rest], or is [v] itself. *)
Definition below (rest : list str) v t t' : Prop := match rest with [] => t' = Leaf v | _ => put rest v t = Some t' end.
Lemma put_cons part rest v m d' : put (part :: rest) v (Dict m) = Some d' ->
  match seg_of part with
  | Key k => exists t', below rest v (sub_dict k m) t' /\ d' = Dict (dset k t' m)
  | At k i => exists t', below rest v (nth i (pad i (sub_list k m)) (Dict [])) t' /\ d' = Dict (dset k (Seq (set_nth i t' (pad i (sub_list k m)))) m)
  end.
Proof.
  unfold seg_of, sub_list, sub_dict, below. cbn [put]. cbv zeta. destruct (index_match part) as [(k, i)|].
  - destruct rest as [|x rest]; [intros [= <-]; eexists; split; reflexivity|]. destruct (put (x :: rest) v _) as [t'|]; [|discriminate]. intros [= <-]. eexists; split; reflexivity.
  - destruct rest as [|x rest]; [intros [= <-]; eexists; split; reflexivity|]. destruct (put (x :: rest) v _) as [t'|]; [|discriminate]. intros [= <-]. eexists; split; reflexivity.
Qed.
Lemma nth_pad i l : nth_error (pad i l) i = Some (nth i (pad i l) (Dict [])).
Proof. apply nth_error_nth'. rewrite pad_length. lia. Qed.
Lemma in_pad i l : i < length (pad i l).
Proof. rewrite pad_length. lia. Qed.

Lemma get_put v parts : forall d d', parts <> [] -> put parts v d = Some d' -> get (map seg_of parts) d' = Some (Leaf v).
Proof.
  induction parts as [|part rest IH]; intros d d' NE H; [contradiction NE; reflexivity|]. destruct (put_dict _ _ _ _ H) as (m & m' & -> & _). apply put_cons in H. cbn [map].
  assert (B : forall t t', below rest v t t' -> get (map seg_of rest) t' = Some (Leaf v)).
  { intros t t'. destruct rest as [|x rest]; cbn [below]; [intros ->; reflexivity|]. apply IH. discriminate. }
  destruct (seg_of part) as [k|k i]; destruct H as (t' & H & ->); cbn [get]; rewrite dget_dset_same.
  - exact (B _ _ H).
  - rewrite set_nth_same by apply in_pad. exact (B _ _ H).
Qed.
Lemma get_frame v parts : forall q d d' x, put parts v d = Some d' -> apart (map seg_of parts) q -> get q d = Some x -> get q d' = Some x.
Proof.
  induction parts as [|part rest IH]; intros q d d' x H A G; [inversion A|]. destruct (put_dict _ _ _ _ H) as (m & m' & -> & _). apply put_cons in H. cbn [map] in A.
  assert (B : forall q t t', below rest v t t' -> apart (map seg_of rest) q -> get q t = Some x -> get q t' = Some x).
  { intros q0 t t' W A0. destruct rest as [|y rest]; cbn [below] in W; [inversion A0|]. intros G0. exact (IH _ _ _ _ W A0 G0). }
  destruct (seg_of part) as [k|k i]; destruct H as (t' & H & ->); inversion A as [s p q' A' E1 E2|s s' p q' A' E1 E2|k' i' j p q' A' E1 E2]; subst; cbn [seg_name] in *.
  - cbn [get] in *. rewrite dget_dset_same. destruct (dget k m) as [t|] eqn:D; [|discriminate]. unfold sub_dict in H. rewrite D in H. destruct t as [w|s|l].
    + inversion A'; subst; discriminate G || (destruct s; discriminate G) || (destruct s'; discriminate G) || idtac; cbn in G; try (destruct s; discriminate G); try (destruct s'; discriminate G); discriminate.
    + exact (B _ _ _ H A' G).
    + exfalso. inversion A'; subst; cbn in G; try (destruct s; discriminate G); try (destruct s'; discriminate G); discriminate.
  - destruct s' as [k'|k' j]; cbn [get seg_name] in *; rewrite dget_dset_other by congruence; exact G.
  - cbn [get] in *. rewrite dget_dset_same. destruct (dget k m) as [t|] eqn:D; [|discriminate]. destruct t as [w|s|l]; try discriminate. unfold sub_list in *. rewrite D in *. rewrite set_nth_same by apply in_pad.
    destruct (nth_error l i) as [t|] eqn:Q; [|discriminate]. assert (W : nth i (pad i l) (Dict []) = t). { pose proof (nth_pad i l) as X. rewrite pad_nth, Q in X. injection X as <-. reflexivity. }
    rewrite W in H. exact (B _ _ _ H A' G).
  - destruct s' as [k'|k' j]; cbn [get seg_name] in *; rewrite dget_dset_other by congruence; exact G.
  - cbn [get] in *. rewrite dget_dset_same. destruct (dget k m) as [t|] eqn:D; [|discriminate]. destruct t as [w|s|l]; try discriminate. unfold sub_list in *. rewrite D in *.
    rewrite set_nth_other by (try apply in_pad; exact A'). rewrite pad_nth. destruct (nth_error l j); [exact G|discriminate].
Qed.
Lemma get_empty q x : get q (Dict (V:=V) []) = Some x -> q = [] /\ x = Dict [].
Proof. destruct q as [|[k|k i] q]; cbn; try discriminate. intros [= <-]. split; reflexivity. Qed.
Lemma sub_nth i k m j t : nth_error (pad i (sub_list k m)) j = Some t -> t = Dict [] \/ exists l, dget k m = Some (Seq l) /\ nth_error l j = Some t.
Proof.
  rewrite pad_nth. unfold sub_list. intros H. assert (P : forall x : bool, (if x then Some (Dict (V:=V) []) else None) = Some t -> t = Dict []) by (intros [|] E; [injection E as <-; reflexivity|discriminate]).
  assert (NN : nth_error (@nil (tree V)) j = None) by (destruct j; reflexivity).
  destruct (dget k m) as [[w|s|l]|]; [rewrite NN in H; left; exact (P _ H)|rewrite NN in H; left; exact (P _ H)| |rewrite NN in H; left; exact (P _ H)].
  destruct (nth_error l j) as [x|] eqn:Q; [|left; exact (P _ H)]. right. exists l. split; [reflexivity|]. rewrite Q. exact H.
Qed.
(** Leaves of the result. *)
Lemma get_back v parts : forall q d d' w, parts <> [] -> put parts v d = Some d' -> get q d' = Some (Leaf w) -> (q = map seg_of parts /\ w = v) \/ get q d = Some (Leaf w).
Proof.
  induction parts as [|part rest IH]; intros q d d' w NE H G; [contradiction NE; reflexivity|]. destruct (put_dict _ _ _ _ H) as (m & m' & -> & _). apply put_cons in H. cbn [map].
  assert (B : forall q t t', below rest v t t' -> get q t' = Some (Leaf w) -> (q = map seg_of rest /\ w = v) \/ get q t = Some (Leaf w)).
  { intros q0 t t' W G0. destruct rest as [|y rest]; cbn [below] in W; [subst; destruct q0 as [|[]]; [injection G0 as <-; left; split; reflexivity|discriminate G0|discriminate G0]|]. eapply IH; [discriminate|exact W|exact G0]. }
  destruct q as [|s q]; [destruct (seg_of part); destruct H as (t' & H & ->); discriminate G|].
  destruct (seg_of part) as [k|k i]; destruct H as (t' & H & ->); destruct s as [k'|k' j]; cbn [get] in *; destruct (list_eq_dec N.eq_dec k' k) as [-> | E]; rewrite ?dget_dset_same, ?dget_dset_other in G by assumption; try (right; exact G).
  - destruct (B _ _ _ H G) as [[-> ->]|X]; [left; split; reflexivity|right]. unfold sub_dict in X. destruct (dget k m) as [[|s|]|]; try exact X; apply get_empty in X as [-> X]; discriminate X.
  - exfalso. destruct rest as [|y rest]; cbn [below] in H; [subst; discriminate G|]. destruct (put_dict _ _ _ _ H) as (a & b & _ & ->). discriminate G.
  - exfalso. destruct q as [|[|]]; discriminate G.
  - destruct (Nat.eq_dec i j) as [<- | NJ].
    + rewrite set_nth_same in G by apply in_pad. destruct (B _ _ _ H G) as [[-> ->]|X]; [left; split; reflexivity|right].
      destruct (sub_nth _ _ _ _ _ (nth_pad i (sub_list k m))) as [Y|(l & Y & Z)]; [rewrite Y in X; apply get_empty in X as [_ X]; discriminate X|]. rewrite Y, Z. exact X.
    + rewrite set_nth_other in G by (try apply in_pad; exact NJ). right. destruct (nth_error (pad i (sub_list k m)) j) as [t|] eqn:Q; [|discriminate].
      destruct (sub_nth _ _ _ _ _ Q) as [-> |(l & Y & Z)]; [apply get_empty in G as [_ G]; discriminate G|]. rewrite Y, Z. exact G.
Qed.
(** Lists of the result: no list holds a list, and a list is as long as some field needs. *)
Lemma get_lists v parts : forall q d d' l, put parts v d = Some d' -> get q d' = Some (Seq l) ->
  (exists l0, get q d = Some (Seq l0) /\ length l0 = length l) \/ (exists q0 k i r, q = q0 ++ [Key k] /\ map seg_of parts = q0 ++ At k i :: r /\ length l = S i).
Proof.
  induction parts as [|part rest IH]; intros q d d' l H G; [destruct d; try discriminate; injection H as <-; left; exists l; split; [exact G|reflexivity]|].
  destruct (put_dict _ _ _ _ H) as (m & m' & -> & _). apply put_cons in H. cbn [map].
  assert (B : forall s q t t', below rest v t t' -> get q t' = Some (Seq l) -> (exists l0, get q t = Some (Seq l0) /\ length l0 = length l) \/ (exists q0 k i r, s :: q = q0 ++ [Key k] /\ s :: map seg_of rest = q0 ++ At k i :: r /\ length l = S i)).
  { intros s q0 t t' W G0. destruct rest as [|y rest]; cbn [below] in W; [subst; destruct q0 as [|[]]; discriminate G0|]. destruct (IH _ _ _ _ W G0) as [X|(q1 & k & i & r & -> & E & L)]; [left; exact X|right].
    exists (s :: q1), k, i, r. rewrite E. refine (conj eq_refl (conj eq_refl L)). }
  destruct q as [|s q]; [destruct (seg_of part); destruct H as (t' & H & ->); discriminate G|].
  destruct (seg_of part) as [k|k i]; destruct H as (t' & H & ->); destruct s as [k'|k' j]; cbn [get] in *; destruct (list_eq_dec N.eq_dec k' k) as [-> | E]; rewrite ?dget_dset_same, ?dget_dset_other in G by assumption;
    try (left; exists l; split; [exact G|reflexivity]).
  - destruct (B (Key k) _ _ _ H G) as [X|X]; [|right; exact X]. left. destruct X as (l0 & X & L). exists l0. split; [|exact L]. unfold sub_dict in X. destruct (dget k m) as [[|s|]|]; try exact X; apply get_empty in X as [_ X]; discriminate X.
  - exfalso. destruct rest as [|y rest]; cbn [below] in H; [subst; discriminate G|]. destruct (put_dict _ _ _ _ H) as (a & b & _ & ->). discriminate G.
  - destruct q as [|[|]]; try discriminate G. injection G as <-. rewrite set_nth_length, pad_length by apply in_pad. destruct (le_lt_dec (length (sub_list k m)) i) as [L|L].
    + right. exists [], k, i, (map seg_of rest). refine (conj eq_refl (conj eq_refl _)). lia.
    + left. unfold sub_list in *. destruct (dget k m) as [[|s|l0]|]; cbn [length] in L; try lia. exists l0. split; [reflexivity|]. lia.
  - destruct (Nat.eq_dec i j) as [<- | NJ].
    + rewrite set_nth_same in G by apply in_pad. destruct (B (At k i) _ _ _ H G) as [X|X]; [|right; exact X]. left. destruct X as (l0 & X & L). exists l0. split; [|exact L].
      destruct (sub_nth _ _ _ _ _ (nth_pad i (sub_list k m))) as [Y|(l1 & Y & Z)]; [rewrite Y in X; apply get_empty in X as [_ X]; discriminate X|]. rewrite Y, Z. exact X.
    + rewrite set_nth_other in G by (try apply in_pad; exact NJ). left. destruct (nth_error (pad i (sub_list k m)) j) as [t|] eqn:Q; [|discriminate].
      destruct (sub_nth _ _ _ _ _ Q) as [-> |(l1 & Y & Z)]; [apply get_empty in G as [_ G]; discriminate G|]. rewrite Y, Z. exists l. split; [exact G|reflexivity].
Qed.
(** [put] succeeds when no text is in the way. *)
Lemma put_some v parts : forall d, (exists m, d = Dict m) -> (forall q w, get q d = Some (Leaf w) -> apart (map seg_of parts) q) -> (forall q k i l, get (q ++ [At k i]) d <> Some (Seq l)) ->
  exists d', put parts v d = Some d'.
Proof.
  induction parts as [|part rest IH]; intros d (m & ->) A NS; [eexists; reflexivity|]. cbn [put map] in *. cbv zeta. unfold seg_of in A at 1. destruct (index_match part) as [(k, i)|].
  - destruct rest as [|y rest]; [eexists; reflexivity|]. set (j := N.to_nat i) in *. fold (sub_list k m). destruct (sub_nth _ _ _ _ _ (nth_pad j (sub_list k m))) as [Y|(l & Y & Z)].
    + rewrite Y. destruct (IH (Dict [])) as (d' & ->); [eexists; reflexivity| | |eexists; reflexivity].
      * intros q w G. apply get_empty in G as [_ G]. discriminate G.
      * intros q k' i' l G. apply get_empty in G as [_ G]. discriminate G.
    + set (t := nth j (pad j (sub_list k m)) (Dict [])) in *. destruct (IH t) as (d' & ->); [| | |eexists; reflexivity].
      * destruct t as [w|s|l'] eqn:T; [|eexists; reflexivity|]; exfalso.
        -- specialize (A [At k j] w). cbn [get] in A. rewrite Y, Z in A. specialize (A eq_refl). inversion A as [s p q A' E1 E2|s s' p q A' E1 E2|k' i' j' p q A' E1 E2]; subst; [inversion A'|contradiction A'; reflexivity|contradiction A'; reflexivity].
        -- apply (NS [] k j l'). cbn [app get]. rewrite Y, Z. reflexivity.
      * intros q w G. specialize (A (At k j :: q) w). cbn [get] in A. rewrite Y, Z in A. specialize (A G). inversion A as [s p q' A' E1 E2|s s' p q' A' E1 E2|k' i' j' p q' A' E1 E2]; subst; [exact A'|contradiction A'; reflexivity|contradiction A'; reflexivity].
      * intros q k' i' l' G. apply (NS (At k j :: q) k' i' l'). cbn [app get]. rewrite Y, Z. exact G.
  - destruct rest as [|y rest]; [eexists; reflexivity|]. fold (sub_dict part m). destruct (IH (sub_dict part m)) as (d' & ->); [| | |eexists; reflexivity].
    + unfold sub_dict. destruct (dget part m) as [[]|]; eexists; reflexivity.
    + intros q w G. unfold sub_dict in G. destruct (dget part m) as [[|s|]|] eqn:D; try (apply get_empty in G as [_ G]; discriminate G).
      specialize (A (Key part :: q) w). cbn [get] in A. rewrite D in A. specialize (A G). inversion A as [s0 p q' A' E1 E2|s0 s' p q' A' E1 E2|k' i' j' p q' A' E1 E2]; subst; [exact A'|contradiction A'; reflexivity].
    + intros q k' i' l G. unfold sub_dict in G. destruct (dget part m) as [[|s|]|] eqn:D; try (apply get_empty in G as [_ G]; discriminate G). apply (NS (Key part :: q) k' i' l). cbn [app get]. rewrite D. exact G.
Qed.
End Nest.

(** Reading a place. *)
Lemma seg_text_of s : good_seg s -> seg_of (seg_text s) = s.
Proof.
  intros (_ & G). unfold seg_of, index_match. destruct s as [k|k i]; cbn [seg_text].
  - assert (H : (match rev k with 10%N :: r => rev r | _ => k end) = k). { destruct (rev k) as [|c r] eqn:R; [reflexivity|]. destruct (N.eq_dec c 10) as [-> | NE]; [|destruct c as [|[[[[]|[]|]|[[]|[]|]|]|[[[]|[]|]|[[]|[]|]|]|]]; try reflexivity; contradiction NE; reflexivity].
      exfalso. destruct (G (rev r)) as [_ X]. apply X. rewrite <- (rev_involutive k), R. reflexivity. }
    rewrite H. destruct (rsplit1 91 k) as [[[|c k0] r]|] eqn:E; [reflexivity| |reflexivity].
    destruct (rev r) as [|c' ds] eqn:R; [reflexivity|]. destruct (N.eq_dec c' 93) as [-> | NE].
    + exfalso. unfold rsplit1 in E. destruct (split1 91 (rev k)) as [[x y]|] eqn:S1; [|discriminate]. injection E as E1 E2. apply split1_some in S1 as [S1 _].
      subst r. rewrite rev_involutive in R. subst x. destruct (G (rev (ds ++ 91%N :: y))) as [X _]. apply X. rewrite <- (rev_involutive k), S1. reflexivity.
    + assert (Q : forall (A : Type) (a b : A), match c' with 93%N => a | _ => b end = b); [|rewrite Q; reflexivity].
      intros A a b. destruct c' as [|p]; [reflexivity|]. do 7 (destruct p as [p|p|]; try reflexivity). contradiction NE; reflexivity.
  - destruct G as [NE NL]. destruct k as [|c k]; [contradiction NE; reflexivity|]. set (full := (c :: k) ++ u "[" ++ dec (N.of_nat i) ++ u "]").
    assert (R : rev full = 93%N :: rev (dec (N.of_nat i)) ++ 91%N :: rev (c :: k)). { unfold full. change (u "[" ++ dec (N.of_nat i) ++ u "]") with (91%N :: dec (N.of_nat i) ++ [93%N]). rewrite rev_app_distr. change (rev (91%N :: dec (N.of_nat i) ++ [93%N])) with (rev (dec (N.of_nat i) ++ [93%N]) ++ [91%N]). rewrite rev_app_distr. cbn [rev app]. rewrite <- !app_assoc. reflexivity. }
    rewrite R. assert (E : rsplit1 91 full = Some (c :: k, dec (N.of_nat i) ++ u "]")). { unfold full. change (u "[" ++ dec (N.of_nat i) ++ u "]") with (91%N :: dec (N.of_nat i) ++ u "]"). apply rsplit1_app.
      intros I. apply in_app_iff in I as [I|[I|[]]]; [|discriminate I]. pose proof (proj1 (forallb_forall _ _) (dec_digits (N.of_nat i)) _ I) as X. discriminate X. }
    rewrite E, rev_app_distr. change (rev (u "]")) with [93%N]. cbn [app]. assert (D : forallb is_digit (rev (dec (N.of_nat i))) = true).
    { apply forallb_forall. intros x I. apply in_rev in I. exact (proj1 (forallb_forall _ _) (dec_digits (N.of_nat i)) _ I). }
    rewrite D. assert (Z : seqb (rev (dec (N.of_nat i))) [] = false). { apply seqb_neq. intros X. apply (dec_nonnil (N.of_nat i)). rewrite <- (rev_involutive (dec _)), X. reflexivity. }
    rewrite Z. assert (M : cmem 10 (c :: k) = false) by (apply cmem_not_In; exact NL). rewrite M. cbn [negb andb]. rewrite rev_involutive, dec_val, Nat2N.id. reflexivity.
Qed.
Lemma place_read p : p <> [] -> Forall good_seg p -> map seg_of (split_char 46 (place_text p)) = p.
Proof.
  intros NE G. unfold place_text. rewrite split_char_join.
  - rewrite map_map. rewrite <- (map_id p) at 2. apply map_ext_in. intros s I. apply seg_text_of. rewrite Forall_forall in G. exact (G s I).
  - destruct p; [contradiction NE; reflexivity|discriminate].
  - intros w I. apply in_map_iff in I as (s & <- & I). rewrite Forall_forall in G. specialize (G s I). destruct G as [G _]. destruct s as [k|k i]; cbn [seg_text seg_name] in *; [exact G|].
    intros J. apply in_app_iff in J as [J|J]; [exact (G J)|]. apply in_app_iff in J as [J|J]; [destruct J as [J|[]]; discriminate J|]. apply in_app_iff in J as [J|[J|[]]]; [|discriminate J].
    pose proof (proj1 (forallb_forall _ _) (dec_digits (N.of_nat i)) _ J) as X. discriminate X.
Qed.
Lemma apart_sym p q : apart p q -> apart q p.
Proof. induction 1; [apply apart_next; assumption|apply apart_name; congruence|apply apart_index; congruence]. Qed.
