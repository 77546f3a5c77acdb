(** Properties of the encoders. *)
From Coq Require Import ZArith Lia ZifyN ZifyBool.
From Verif Require Import PyStr PyStrFacts Base64 Utf8 JsonModel JsonSpec JsonProofs EncModel EncSpec.
Ltac Zify.zify_post_hook ::= Z.div_mod_to_equations.
Local Open Scope N_scope.

(** * C108: the newest encoder of a name is used, and the newest that accepts a value *)
Definition other (n : str) (x : encoder) : bool := negb (seqb (e_name x) n).
Lemma survivors_names l : NoDup (map e_name (survivors l)).
Proof.
  induction l as [|e l IH]; cbn [survivors map]; [constructor|]. constructor.
  - intros I. apply in_map_iff in I. destruct I as (x & E & I). apply filter_In in I. destruct I as [_ I]. rewrite E, seqb_refl in I. discriminate I.
  - clear -IH. induction (survivors l) as [|x r IHr]; cbn [filter map]; [constructor|]. inversion IH; subst.
    destruct (negb (seqb (e_name x) (e_name e))); [|now apply IHr]. cbn [map]. constructor; [|now apply IHr].
    intros I. apply H1. apply in_map_iff in I. destruct I as (y & <- & I). apply filter_In in I. apply in_map. apply I.
Qed.
Lemma remove_filter n l : NoDup (map e_name l) -> remove_first n l = filter (other n) l.
Proof.
  induction l as [|e l IH]; cbn [map remove_first filter]; intros D; [reflexivity|]. inversion D; subst. unfold other at 1. destruct (seqb_spec (e_name e) n) as [E|E]; cbn [negb].
  - clear -H1 E. subst n. induction l as [|x l IH]; [reflexivity|]. cbn [filter]. unfold other at 1. cbn [map In] in H1.
    destruct (seqb_spec (e_name x) (e_name e)) as [E|E]; [destruct H1; auto|]. cbn [negb]. rewrite <- IH by tauto. reflexivity.
  - now rewrite IH.
Qed.
Lemma survivors_id l : NoDup (map e_name l) -> survivors l = l.
Proof.
  induction l as [|e l IH]; cbn [map survivors]; intros D; [reflexivity|]. inversion D; subst. rewrite IH by assumption. f_equal.
  clear -H1. induction l as [|x l IH]; [reflexivity|]. cbn [map In filter] in *. destruct (seqb_spec (e_name x) (e_name e)) as [E|E]; [destruct H1; auto|].
  cbn [negb]. rewrite IH by tauto. reflexivity.
Qed.
Lemma run_types acts : forall h D, fst (run (survivors (h ++ D)) acts) = survivors (rev (registered acts) ++ h ++ D).
Proof.
  induction acts as [|a acts IH]; intros h D; [reflexivity|]. cbn [run].
  assert (REG : forall e, step (survivors (h ++ D)) (Register e) = (survivors ((e :: h) ++ D), None)).
  { intros e. cbn [step app survivors]. unfold register_encoder. rewrite remove_filter by apply survivors_names. reflexivity. }
  destruct a as [e|w x n v|w t v].
  - rewrite REG. specialize (IH (e :: h) D). destruct (run _ acts) as [T os]. cbn [fst] in *. rewrite IH. unfold registered. cbn [flat_map app rev].
    rewrite <- app_assoc. reflexivity.
  - cbn [step]. specialize (IH h D). destruct (run _ acts) as [T os]. exact IH.
  - cbn [step]. specialize (IH h D). destruct (run _ acts) as [T os]. exact IH.
Qed.
Lemma chosen_find types v : chosen types v = List.find (serves v) types.
Proof.
  induction types as [|e r IH]; [reflexivity|]. cbn [chosen List.find]. unfold serves at 1. destruct (e_ser e); [|exact IH]. destruct (e_is e v); [reflexivity | exact IH].
Qed.
Theorem C108_newest : forall defaults acts v, NoDup (map e_name defaults) ->
  let types := fst (run defaults acts) in
  types = survivors (rev (registered acts) ++ defaults) /\ NoDup (map e_name types) /\
  chosen types v = List.find (serves v) (survivors (rev (registered acts) ++ defaults)).
Proof.
  intros D acts v ND types. assert (E : types = survivors (rev (registered acts) ++ D)).
  { unfold types. rewrite <- (survivors_id D ND) at 1. apply (run_types acts [] D). }
  refine (conj E (conj _ _)); [rewrite E; apply survivors_names | rewrite E; apply chosen_find].
Qed.
Print Assumptions C108_newest.
(** Encoders given for one call or by one response come first there and nowhere else. *)
Theorem C108_call_only : forall defaults acts own exclude n v,
  (forall other_types, json_encode defaults (Some own) exclude n v = json_encode other_types (Some own) exclude n v) /\
  fst (run defaults (Encode (Some own) exclude n v :: acts)) = fst (run defaults acts) /\
  snd (run defaults (Encode (Some own) exclude n v :: acts)) = json_encode defaults (Some own) exclude n v :: snd (run defaults acts) /\
  (forall e, List.find (serves v) own = Some e -> chosen (own ++ defaults) v = Some e).
Proof.
  intros D acts own x n v. refine (conj (fun _ => eq_refl) (conj _ (conj _ _))).
  - cbn [run step]. destruct (run D acts). reflexivity.
  - cbn [run step]. destruct (run D acts). reflexivity.
  - intros e E. rewrite chosen_find. induction own as [|x' own IH]; [discriminate E|]. cbn [List.find app] in *. destruct (serves v x'); auto.
Qed.
Print Assumptions C108_call_only.

(** ** Conversions *)
Lemma pv_ind' (P : pv -> Prop) :
  (forall v, (forall l, v <> PList l) -> (forall l, v <> PTuple l) -> (forall l, v <> PSet l) -> (forall l, v <> PDict l) -> (forall c l, v <> PData c l) -> (forall c l, v <> PNamed c l) -> P v) ->
  (forall l, Forall P l -> P (PList l)) -> (forall l, Forall P l -> P (PTuple l)) -> (forall l, Forall P l -> P (PSet l)) ->
  (forall l, Forall (fun e => P (snd e)) l -> P (PDict l)) -> (forall c l, Forall (fun e => P (snd e)) l -> P (PData c l)) ->
  (forall c l, Forall (fun e => P (snd e)) l -> P (PNamed c l)) -> forall v, P v.
Proof.
  intros H0 HL HT HS HD HA HN. fix IH 1.
  assert (F : forall l, Forall P l -> Forall P l) by (intros l X; exact X).
  intros v. destruct v as [|b|z|t|s|l|l|l|l|c l|c l|c s|b|n|y m d|y m d hh mm ss us|c]; try (apply H0; discriminate).
  - apply HL. induction l as [|a l IHl]; constructor; [apply IH | exact IHl].
  - apply HT. induction l as [|a l IHl]; constructor; [apply IH | exact IHl].
  - apply HS. induction l as [|a l IHl]; constructor; [apply IH | exact IHl].
  - apply HD. induction l as [|a l IHl]; constructor; [apply IH | exact IHl].
  - apply HA. induction l as [|a l IHl]; constructor; [apply IH | exact IHl].
  - apply HN. induction l as [|a l IHl]; constructor; [apply IH | exact IHl].
Qed.
Lemma all_some_mono {A B} (f g : A -> option B) l r : (forall a b, f a = Some b -> g a = Some b) -> all_some (map f l) = Some r -> all_some (map g l) = Some r.
Proof.
  intros M. revert r. induction l as [|a l IH]; cbn [map all_some]; intros r E; [exact E|]. destruct (f a) as [b|] eqn:F; [|discriminate]. rewrite (M a b F).
  destruct (all_some (map f l)) as [r'|]; [|discriminate]. now rewrite (IH r' eq_refl).
Qed.
Lemma conv_more types n : forall v j, conv types n v = Some j -> conv types (S n) v = Some j.
Proof.
  induction n as [|n IH]; [discriminate|]. intros v j E.
  assert (LS : forall l j, option_map JArr (all_some (map (conv types n) l)) = Some j -> option_map JArr (all_some (map (conv types (S n)) l)) = Some j).
  { intros l j' X. destruct (all_some (map (conv types n) l)) as [r|] eqn:A; [|discriminate]. now rewrite (all_some_mono _ _ _ _ IH A). }
  remember (S n) as m eqn:M. assert (E' := E). rewrite M in E'. cbn [conv] in E' |- *. destruct v; try exact E'.
  - now apply LS.
  - now apply LS.
  - destruct (json_encode_default types (PSet l)); [auto | discriminate].
  - destruct (all_some (map (fun e => match conv types n (snd e) with Some j => Some (fst e, j) | None => None end) l)) as [r|] eqn:A; [|discriminate].
    erewrite all_some_mono; [exact E'| |exact A]. cbv beta. intros a b. destruct (conv types n (snd a)) as [x|] eqn:C; [|discriminate]. now rewrite (IH _ _ C).
  - destruct (json_encode_default types (PData cls l)); [auto | discriminate].
  - destruct (all_some (map (fun e => conv types n (snd e)) l)) as [r|] eqn:A; [|discriminate].
    erewrite all_some_mono; [exact E'| |exact A]. cbv beta. intros a b C. now apply IH.
  - destruct (json_encode_default types (PEnum cls s)); [auto | discriminate].
  - destruct (json_encode_default types (PBytes b)); [auto | discriminate].
  - destruct (json_encode_default types (PUuid n0)); [auto | discriminate].
  - destruct (json_encode_default types (PDate y m0 d)); [auto | discriminate].
  - destruct (json_encode_default types (PDateTime y m0 d hh mm ss us)); [auto | discriminate].
  - destruct (json_encode_default types (POther cls)); [auto | discriminate].
Qed.
Lemma conv_le types n m v j : (n <= m)%nat -> conv types n v = Some j -> conv types m v = Some j.
Proof. induction 1; auto using conv_more. Qed.
Definition converts (types : list encoder) (v : pv) (j : jvalue) : Prop := exists n, conv types n v = Some j.
Lemma converts_list types {A} (l : list A) (f : A -> pv) g : Forall (fun a => converts types (f a) (g a)) l -> exists n, all_some (map (fun a => conv types n (f a)) l) = Some (map g l).
Proof.
  induction l as [|a l IH]; intros F; [exists 0%nat; reflexivity|]. inversion F; subst. destruct H1 as (n & E). destruct (IH H2) as (m & EM).
  exists (Nat.max n m). cbn [map all_some]. rewrite (conv_le types n (Nat.max n m) _ _ ltac:(lia) E).
  rewrite (all_some_mono _ (fun a => conv types (Nat.max n m) (f a)) l _ (fun a b C => conv_le types m (Nat.max n m) _ _ ltac:(lia) C) EM). reflexivity.
Qed.
Lemma converts_pairs types l g : Forall (fun e => converts types (snd e) (g (snd e))) l ->
  exists n, all_some (map (fun e : str * pv => match conv types n (snd e) with Some j => Some (fst e, j) | None => None end) l) = Some (map (fun e => (fst e, g (snd e))) l).
Proof.
  intros F. destruct (converts_list types l snd (fun e => g (snd e)) F) as (n & E). exists n. clear F. revert E. induction l as [|e l IH]; [reflexivity|]. cbn [map all_some].
  destruct (conv types n (snd e)) as [j|]; [|discriminate]. destruct (all_some (map (fun a => conv types n (snd a)) l)) as [r|]; [|discriminate]. intros [= -> ->].
  rewrite (IH eq_refl). reflexivity.
Qed.
Lemma atom_native types v : match v with PNone | PBool _ | PInt _ | PFloat _ | PStr _ => True | _ => False end -> converts types v (as_json v).
Proof. intros H. exists 1%nat. destruct v; try contradiction; reflexivity. Qed.
Lemma converts_arr types l (g : pv -> jvalue) : Forall (fun v => converts types v (g v)) l -> converts types (PList l) (JArr (map g l)) /\ converts types (PTuple l) (JArr (map g l)).
Proof. intros F. destruct (converts_list types l (fun v => v) g F) as (n & E). change (all_some (map (conv types n) l) = Some (map g l)) in E. split; exists (S n); cbn [conv]; now rewrite E. Qed.
(** Values json knows never reach an encoder. *)
Theorem C108_native : forall types v, native v -> exists n, forall m, (n <= m)%nat -> conv types m v = Some (as_json v).
Proof.
  intros types v H. cut (converts types v (as_json v)); [intros (n & E); exists n; intros m L; now apply (conv_le types n)|]. revert H.
  induction v as [v A1 A2 A3 A4 A5 A6|l IH|l IH|l IH|l IH|c l IH|c l IH] using pv_ind'; cbn [native as_json].
  - intros H. destruct v; try contradiction; try (now apply atom_native); try (eelim A1; reflexivity); try (eelim A2; reflexivity); try (eelim A4; reflexivity); try (eelim A6; reflexivity).
  - intros F. apply fold_and in F. apply converts_arr. rewrite Forall_forall in *. auto.
  - intros F. apply fold_and in F. apply converts_arr. rewrite Forall_forall in *. auto.
  - contradiction.
  - intros F. apply fold_and in F. destruct (converts_pairs types l as_json) as (n & E); [rewrite Forall_forall in *; auto|]. exists (S n). cbn [conv]. now rewrite E.
  - contradiction.
  - intros F. apply fold_and in F. destruct (converts_list types l snd (fun e => as_json (snd e))) as (n & E); [rewrite Forall_forall in *; auto|]. exists (S n). cbn [conv]. now rewrite E.
Qed.
Print Assumptions C108_native.
(** A value json does not know, which no encoder accepts, is refused wherever it stands: nothing is written in its place. *)
Theorem C108_unknown : forall types v n,
  match v with PNone | PBool _ | PInt _ | PFloat _ | PStr _ | PList _ | PTuple _ | PDict _ | PNamed _ _ => False | _ => True end ->
  (forall e, In e types -> e_ser e <> None -> e_is e v = false) ->
  conv types n v = None
  /\ (forall a b, conv types n (PList (a ++ v :: b)) = None)
  /\ (forall a k b, conv types n (PDict (a ++ (k, v) :: b)) = None)
  /\ (forall exclude, exclude = false -> json_text types None exclude n v = None).
Proof.
  intros types v n K NO.
  assert (C : chosen types v = None).
  { clear K. induction types as [|e r IH]; [reflexivity|]. cbn [chosen]. rewrite IH by (intros; apply NO; [right|]; assumption). destruct (e_ser e) as [f|] eqn:E; [|reflexivity].
    rewrite (NO e (or_introl eq_refl)) by (rewrite E; discriminate). reflexivity. }
  assert (V : forall n, conv types n v = None).
  { intros [|m]; [reflexivity|]. cbn [conv]. unfold json_encode_default. destruct v; try contradiction K; rewrite C; reflexivity. }
  assert (A : forall X Y (f : X -> option Y) a x b, f x = None -> all_some (map f (a ++ x :: b)) = None).
  { intros X Y f a x b E. induction a as [|y a IH]; cbn [List.app map all_some]; [rewrite E; reflexivity|]. rewrite IH. destruct (f y); reflexivity. }
  refine (conj (V n) (conj _ (conj _ _))).
  - intros a b. destruct n as [|n]; [reflexivity|]. cbn [conv]. rewrite A by apply V. reflexivity.
  - intros a k b. destruct n as [|n]; [reflexivity|]. cbn [conv]. rewrite A by (cbn [snd]; rewrite V; reflexivity). reflexivity.
  - intros ex ->. unfold json_text. rewrite V. reflexivity.
Qed.
Print Assumptions C108_unknown.
Example C108_unknown_case : (forall e, In e DEFAULT_ENCODER_TYPES -> e_ser e <> None -> e_is e (POther (u "Socket")) = false)
  /\ json_text DEFAULT_ENCODER_TYPES None false 9 (PDict [(u "a", PInt 1); (u "s", POther (u "Socket"))]) = None.
Proof. split; [|reflexivity]. intros e I _. cbn in I. decompose [or] I; subst; try reflexivity; contradiction. Qed.
Example C108_case :
  let mine := {| e_name := u "mine"; e_is v := match v with PBytes _ => true | _ => false end; e_ser := Some (fun _ => Some (PStr (u "bytes"))); e_struct := None; e_encode := None |} in
  let acts := [Encode None false 5 (PList [PBytes [255]; PTuple [PUuid 7]]); Register mine; Encode None false 5 (PList [PBytes [255]; PInt 1])] in
  map e_name (fst (run DEFAULT_ENCODER_TYPES acts)) = u "mine" :: map e_name DEFAULT_ENCODER_TYPES /\
  snd (run DEFAULT_ENCODER_TYPES acts) = [Some (PList [PStr (u "/w=="); PList [PStr (u "00000000-0000-0000-0000-000000000007")]]); None; Some (PList [PStr (u "bytes"); PInt 1])].
Proof. vm_compute. split; reflexivity. Qed.

(** * C110: without None *)
Definition C110_statement : Prop := forall v n j, json_encode DEFAULT_ENCODER_TYPES None true n v = Some (back j) -> no_nulls_inside j.
Theorem C110_refuted : ~ C110_statement.
Proof.
  intros H. specialize (H (PData (u "C") [(u "a", PNone)]) 3%nat (JObj [(u "a", JNull)]) ltac:(vm_compute; reflexivity)).
  cbn in H. destruct H as ((N & _) & _). now apply N.
Qed.
Definition D := DEFAULT_ENCODER_TYPES.
Lemma builtin_converts v : builtin v -> converts D v (as_json v).
Proof.
  induction v as [v A1 A2 A3 A4 A5 A6|l IH|l IH|l IH|l IH|c l IH|c l IH] using pv_ind'; cbn [builtin as_json].
  - intros H. destruct v; try contradiction; try (now apply atom_native); try (eelim A1; reflexivity); try (eelim A2; reflexivity); try (eelim A3; reflexivity); try (eelim A4; reflexivity); try (eelim A6; reflexivity).
  - intros F. apply fold_and in F. apply converts_arr. rewrite Forall_forall in *. auto.
  - intros F. apply fold_and in F. apply converts_arr. rewrite Forall_forall in *. auto.
  - intros F. apply fold_and in F. destruct (converts_arr D l as_json) as [(n & E) _]; [rewrite Forall_forall in *; auto|]. exists (S n). exact E.
  - intros F. apply fold_and in F. destruct (converts_pairs D l as_json) as (n & E); [rewrite Forall_forall in *; auto|]. exists (S n). cbn [conv]. now rewrite E.
  - contradiction.
  - intros F. apply fold_and in F. destruct (converts_list D l snd (fun e => as_json (snd e))) as (n & E); [rewrite Forall_forall in *; auto|]. exists (S n). cbn [conv]. now rewrite E.
Qed.
Lemma null_none v : builtin v -> null (as_json v) = is_none v.
Proof. destruct v; easy. Qed.
Lemma without_null j : null (without_nulls j) = null j.
Proof. destruct j; reflexivity. Qed.
Definition kept_items (l : list pv) : list pv := flat_map (fun v => if is_none v then [] else [exclude_none v]) l.
Lemma kept_json l : Forall (fun v => builtin v -> as_json (exclude_none v) = without_nulls (as_json v)) l -> Forall builtin l ->
  map as_json (kept_items l) = filter (fun x => negb (null x)) (map without_nulls (map as_json l)).
Proof.
  intros IH F. induction F as [|v l B F IHl]; [reflexivity|]. inversion IH; subst. cbn [map filter]. rewrite without_null, (null_none v B). unfold kept_items. cbn [flat_map].
  rewrite map_app. fold (kept_items l). rewrite IHl by assumption. destruct (is_none v); [reflexivity|]. cbn [map app negb]. now rewrite (H1 B).
Qed.
Lemma kept_builtin l : Forall (fun v => builtin v -> builtin (exclude_none v)) l -> Forall builtin l -> Forall builtin (kept_items l).
Proof.
  intros IH F. rewrite Forall_forall in *. intros w I. apply in_flat_map in I. destruct I as (v & I & W). destruct (is_none v); [destruct W|]. destruct W as [<-|[]]. auto.
Qed.
Lemma named_items l : flat_map (fun e : str * pv => if is_none (snd e) then [] else [exclude_none (snd e)]) l = kept_items (map snd l).
Proof. induction l as [|e l IH]; [reflexivity|]. cbn [flat_map map]. rewrite IH. reflexivity. Qed.
Definition kept_pairs (l : list (str * pv)) : list (str * pv) := flat_map (fun e => if is_none (snd e) then [] else [(fst e, exclude_none (snd e))]) l.
Lemma kept_pairs_json l : Forall (fun e => builtin (snd e) -> as_json (exclude_none (snd e)) = without_nulls (as_json (snd e))) l -> Forall (fun e => builtin (snd e)) l ->
  map (fun e => (fst e, as_json (snd e))) (kept_pairs l) = filter (fun e => negb (null (snd e))) (map (fun e => (fst e, without_nulls (snd e))) (map (fun e => (fst e, as_json (snd e))) l)).
Proof.
  intros IH F. induction F as [|e l B F IHl]; [reflexivity|]. inversion IH; subst. cbn [map filter fst snd]. rewrite without_null, (null_none _ B). unfold kept_pairs. cbn [flat_map].
  rewrite map_app. fold (kept_pairs l). rewrite IHl by assumption. destruct (is_none (snd e)); [reflexivity|]. cbn [map app negb fst snd]. now rewrite (H1 B).
Qed.
Lemma exclude_json v : builtin v -> as_json (exclude_none v) = without_nulls (as_json v).
Proof.
  induction v as [v A1 A2 A3 A4 A5 A6|l IH|l IH|l IH|l IH|c l IH|c l IH] using pv_ind'; cbn [builtin as_json exclude_none without_nulls].
  - intros H. destruct v; try contradiction; try reflexivity; try (eelim A1; reflexivity); try (eelim A2; reflexivity); try (eelim A3; reflexivity); try (eelim A4; reflexivity); try (eelim A6; reflexivity).
  - intros F. apply fold_and in F. f_equal. now apply kept_json.
  - intros F. apply fold_and in F. f_equal. now apply kept_json.
  - intros F. apply fold_and in F. f_equal. now apply kept_json.
  - intros F. apply fold_and in F. f_equal. now apply kept_pairs_json.
  - contradiction.
  - intros F. apply fold_and in F. f_equal. rewrite named_items. rewrite <- (map_map snd as_json). apply kept_json; rewrite Forall_map; assumption.
Qed.
Lemma exclude_builtin v : builtin v -> builtin (exclude_none v).
Proof.
  induction v as [v A1 A2 A3 A4 A5 A6|l IH|l IH|l IH|l IH|c l IH|c l IH] using pv_ind'; cbn [builtin exclude_none].
  - intros H. destruct v; try contradiction; try exact I; try (eelim A1; reflexivity); try (eelim A2; reflexivity); try (eelim A3; reflexivity); try (eelim A4; reflexivity); try (eelim A6; reflexivity).
  - rewrite !fold_and. now apply kept_builtin.
  - rewrite !fold_and. now apply kept_builtin.
  - rewrite !fold_and. now apply kept_builtin.
  - rewrite !fold_and. intros F. rewrite Forall_forall in *. intros w W. apply in_flat_map in W. destruct W as (e & IE & W). destruct (is_none (snd e)); [destruct W|].
    destruct W as [<-|[]]. cbn [snd]. auto.
  - contradiction.
  - rewrite !fold_and. intros F. rewrite named_items. apply kept_builtin; rewrite Forall_map; assumption.
Qed.
Lemma none_exclude v : is_none (exclude_none v) = is_none v.
Proof. destruct v; reflexivity. Qed.
Lemma kept_twice l : Forall (fun v => exclude_none (exclude_none v) = exclude_none v) l -> kept_items (kept_items l) = kept_items l.
Proof.
  intros F. induction F as [|v l E F IH]; [reflexivity|]. unfold kept_items at 2 3. cbn [flat_map]. fold (kept_items l). destruct (is_none v) eqn:N; [exact IH|].
  cbn [app]. unfold kept_items at 1. cbn [flat_map]. fold (kept_items (kept_items l)). rewrite none_exclude, N, E, IH. reflexivity.
Qed.
Theorem C110_idempotent : forall v, exclude_none (exclude_none v) = exclude_none v.
Proof.
  induction v as [v A1 A2 A3 A4 A5 A6|l IH|l IH|l IH|l IH|c l IH|c l IH] using pv_ind'; cbn [exclude_none].
  - destruct v; try reflexivity; try (eelim A1; reflexivity); try (eelim A2; reflexivity); try (eelim A3; reflexivity); try (eelim A4; reflexivity); try (eelim A6; reflexivity).
  - f_equal. now apply kept_twice.
  - f_equal. now apply kept_twice.
  - f_equal. now apply kept_twice.
  - f_equal. fold (kept_pairs l). fold (kept_pairs (kept_pairs l)). induction IH as [|e l E F IH]; [reflexivity|]. unfold kept_pairs at 2 3. cbn [flat_map]. fold (kept_pairs l).
    destruct (is_none (snd e)) eqn:N; [exact IH|]. cbn [app]. unfold kept_pairs at 1. cbn [flat_map fst snd]. fold (kept_pairs (kept_pairs l)).
    rewrite none_exclude, N, E, IH. reflexivity.
  - reflexivity.
  - rewrite named_items. f_equal. apply kept_twice. now rewrite Forall_map.
Qed.
Print Assumptions C110_idempotent.
Lemma jvalue_no_nulls j : no_nulls_inside (without_nulls j).
Proof.
  assert (NN : forall x, negb (null x) = true -> x <> JNull) by (intros x H ->; discriminate H).
  induction j as [|b|z|t|s|l IH|l IH] using jvalue_ind'; cbn [without_nulls no_nulls_inside]; auto.
  - rewrite fold_and. rewrite Forall_forall in *. intros x I. apply filter_In in I. destruct I as [I N]. apply in_map_iff in I. destruct I as (y & <- & I). auto.
  - rewrite fold_and. rewrite Forall_forall in *. intros x I. apply filter_In in I. destruct I as [I N]. apply in_map_iff in I. destruct I as (y & <- & I). cbn [snd] in *. auto.
Qed.
Theorem C110_exclude_partial : forall v, builtin v -> exists n, forall m with_encoders, (n <= m)%nat -> In with_encoders [None; Some DEFAULT_ENCODER_TYPES] ->
  json_text DEFAULT_ENCODER_TYPES with_encoders false m v = dumps (as_json v) /\
  json_text DEFAULT_ENCODER_TYPES with_encoders true m v = dumps (without_nulls (as_json v)) /\
  no_nulls_inside (without_nulls (as_json v)).
Proof.
  intros v B. destruct (builtin_converts v B) as (n1 & E1). destruct (builtin_converts _ (exclude_builtin v B)) as (n2 & E2). exists (Nat.max n1 n2).
  intros m w L W. rewrite exclude_json in E2 by exact B. apply (conv_le D n1 m) in E1; [|lia]. apply (conv_le D n2 m) in E2; [|lia].
  refine (conj _ (conj _ (jvalue_no_nulls _))); unfold json_text; cbn [In] in W; destruct W as [<-|[<-|[]]]; fold D; rewrite ?C110_idempotent; rewrite ?E1, ?E2; reflexivity.
Qed.
Print Assumptions C110_exclude_partial.
Example C110_case :
  json_text D None true 9 (PDict [(u "a", PNone); (u "b", PList [PNone; PTuple [PInt 1; PNone]; PSet [PNone]; PDict [(u "c", PNone)]])]) = Some (u "{""b"":[[1],[],{}]}").
Proof. vm_compute. reflexivity. Qed.

(** * C109: what was encoded is restored *)
Definition restored (t : pt) (v : pv) : Prop :=
  exists n r, json_encode DEFAULT_ENCODER_TYPES None false n v = Some r /\ apply_structure DEFAULT_ENCODER_TYPES t r = Some v.
Definition C109_statement : Prop := forall t v, instance t v -> existing v -> exists n0, forall n, (n0 <= n)%nat ->
  exists r, json_encode DEFAULT_ENCODER_TYPES None false n v = Some r /\ apply_structure DEFAULT_ENCODER_TYPES t r = Some v.
Theorem C109_refuted : ~ C109_statement.
Proof.
  intros H. set (inner := PData (u "B") [(u "x", PInt 1)]). set (v := PData (u "A") [(u "b", inner)]).
  destruct (H (TData (u "A") [u "b"]) v) as (n0 & X).
  - split; reflexivity.
  - assert (SC : forall c, In c [120; 98] -> Forall scalar [c]) by (intros c I; cbn [In] in I; constructor; [unfold scalar; lia | constructor]).
    assert (ND : forall k : str, NoDup [k]) by (intros k; constructor; [intros [] | constructor]).
    cbn. refine (conj (ND _) (conj (conj (SC 98 _) (conj (ND _) (conj (conj (SC 120 _) (or_intror I)) I))) I)); cbn; auto.
  - destruct (X (n0 + 5)%nat ltac:(lia)) as (r & E & A). rewrite Nat.add_comm in E. cbn in E. vm_compute in E. injection E as <-. vm_compute in A. discriminate A.
Qed.

(** Texts *)
Lemma float_head t : float_literal t -> exists c r, t = c :: r /\ (is_digit c = true \/ (c = 45 /\ exists d r', r = d :: r' /\ is_digit d = true)).
Proof.
  intros (sign & i & f & e & -> & SI & P & _). destruct (int_head i P) as (c & d & -> & C). cbn [In] in SI. destruct SI as [<-|[<-|[]]].
  - exists c, (d ++ f ++ e). split; [reflexivity | auto].
  - exists 45, (c :: d ++ f ++ e). split; [reflexivity|]. right. split; [reflexivity|]. exists c, (d ++ f ++ e). auto.
Qed.
Lemma writable_finite j : writable j -> finite j = true.
Proof.
  induction j as [|b|z|t|s|l IH|l IH] using jvalue_ind'; cbn [writable finite]; auto.
  - intros F. apply negb_true_iff, smem_not_In. intros I. destruct (float_head t F) as (c & r & -> & C).
    cbn [In] in I. destruct I as [I|[I|[I|[]]]]; apply (f_equal (fun s => (hd 0 s, hd 0 (tl s)))) in I; cbn in I; injection I as <- I2; (destruct C as [C|[C (x & r' & -> & X)]]; [discriminate C|]); try discriminate C.
    cbn in I2. subst x. discriminate X.
  - intros F. apply fold_and in F. apply forallb_forall. rewrite Forall_forall in *. auto.
  - intros [_ F]. apply fold_and in F. apply forallb_forall. rewrite Forall_forall in *. intros e I. apply IH; [exact I | apply F, I].
Qed.
Lemma plain_facts v : plain v -> writable (as_json v) /\ back (as_json v) = v /\ native v.
Proof.
  induction v as [v A1 A2 A3 A4 A5 A6|l IH|l IH|l IH|l IH|c l IH|c l IH] using pv_ind'; cbn [plain as_json writable back native]; try contradiction.
  - intros H. destruct v; try contradiction; cbn in *; auto; try (eelim A1; reflexivity); try (eelim A4; reflexivity).
  - intros F. apply fold_and in F. rewrite !fold_and. rewrite !Forall_forall in *. refine (conj _ (conj _ _)).
    + intros j I. apply in_map_iff in I. destruct I as (v & <- & I). apply IH; auto.
    + f_equal. rewrite map_map. rewrite <- (map_id l) at 2. apply map_ext_in. intros v I. apply IH; auto.
    + intros v I. apply IH; auto.
  - intros [ND F]. apply fold_and in F. rewrite !fold_and. rewrite !Forall_forall in *. refine (conj (conj _ _) (conj _ _)).
    + rewrite map_map. exact ND.
    + intros j I. apply in_map_iff in I. destruct I as (e & <- & I). cbn [fst snd]. destruct (F e I). split; [assumption | apply IH; auto].
    + f_equal. rewrite map_map. rewrite <- (map_id l) at 2. apply map_ext_in. intros e I. cbn [fst snd]. destruct (F e I). destruct (IH e I) as (_ & -> & _); [assumption | now destruct e].
    + intros e I. destruct (F e I). apply IH; auto.
Qed.
Lemma encode_of v j : converts D v j -> writable j -> exists n0, forall n, (n0 <= n)%nat -> json_encode D None false n v = Some (back j).
Proof.
  intros (n0 & E) W. exists n0. intros n L. unfold json_encode, json_text. rewrite (conv_le D n0 n _ _ L E). unfold dumps. rewrite (writable_finite j W).
  rewrite (loads_json j _ (write_json j W)). reflexivity.
Qed.
Lemma plain_converts v : plain v -> converts D v (as_json v).
Proof. intros P. destruct (C108_native D v) as (n & E); [apply plain_facts, P|]. exists n. apply E. lia. Qed.
Lemma via_default v w j : json_encode_default D v = Some w -> converts D w j ->
  match v with PNone | PBool _ | PInt _ | PFloat _ | PStr _ | PList _ | PTuple _ | PDict _ | PNamed _ _ => False | _ => True end -> converts D v j.
Proof. intros E (n & C) H. exists (S n). destruct v; try contradiction; cbn [conv]; rewrite E; exact C. Qed.
(** Padded numbers. *)
Lemma pad_digits w : forall n, forallb is_digit (pad w n) = true.
Proof.
  induction w as [|w IH]; intros n; [reflexivity|]. cbn [pad]. rewrite forallb_app, IH. cbn [forallb andb]. rewrite andb_true_r. unfold is_digit. lia.
Qed.
Lemma pad_length w : forall n, length (pad w n) = w.
Proof. induction w as [|w IH]; intros n; [reflexivity|]. cbn [pad]. rewrite app_length, IH. cbn. lia. Qed.
Lemma pad_value w : forall n, n < 10 ^ N.of_nat w -> digits_val (pad w n) = n.
Proof.
  induction w as [|w IH]; intros n L.
  - cbn in *. lia.
  - cbn [pad]. unfold digits_val. rewrite fold_left_app. fold (digits_val (pad w (n / 10))). rewrite Nat2N.inj_succ, N.pow_succ_r' in L.
    rewrite IH; [cbn; lia|]. apply N.div_lt_upper_bound; lia.
Qed.
Lemma fixed_pad w n : n < 10 ^ N.of_nat w -> fixed (pad w n) = Some n.
Proof. intros L. unfold fixed. now rewrite pad_digits, pad_value. Qed.
Lemma four (s : str) : length s = 4%nat -> exists a b c d, s = [a; b; c; d].
Proof. destruct s as [|a [|b [|c [|d [|]]]]]; try discriminate. eauto 6. Qed.
Lemma two (s : str) : length s = 2%nat -> exists a b, s = [a; b].
Proof. destruct s as [|a [|b [|]]]; try discriminate. eauto. Qed.
Lemma month_same y m : 1 <= m <= 12 -> month_length y m = month_days y m.
Proof.
  intros M. assert (L : leap_year y = leap y).
  { unfold leap_year, leap. destruct (N.eqb_spec (y mod 400) 0) as [E|_]; destruct (N.eqb_spec (y mod 100) 0); destruct (N.eqb_spec (y mod 4) 0); cbn [negb orb andb]; try reflexivity; lia. }
  unfold month_length, month_days. rewrite L.
  assert (C : In m [1; 2; 3; 4; 5; 6; 7; 8; 9; 10; 11; 12]) by (cbn [In]; lia). cbn [In] in C.
  destruct C as [<-|[<-|[<-|[<-|[<-|[<-|[<-|[<-|[<-|[<-|[<-|[<-|[]]]]]]]]]]]]]; reflexivity.
Qed.
Lemma month_31 y m : month_days y m <= 31.
Proof. unfold month_days. repeat match goal with |- context [if ?b then _ else _] => destruct b end; lia. Qed.
Lemma iso_date_str y m d : y <= 9999 -> m <= 12 -> d <= 31 -> iso_date (date_str y m d) = Some (y, m, d) /\ length (date_str y m d) = 10%nat.
Proof.
  intros Y M DD. assert (FY : fixed (pad 4 y) = Some y) by (apply fixed_pad; cbn; lia). assert (FM : fixed (pad 2 m) = Some m) by (apply fixed_pad; cbn; lia).
  assert (FD : fixed (pad 2 d) = Some d) by (apply fixed_pad; cbn; lia).
  unfold date_str. destruct (four _ (pad_length 4 y)) as (y1 & y2 & y3 & y4 & EY). destruct (two _ (pad_length 2 m)) as (m1 & m2 & EM). destruct (two _ (pad_length 2 d)) as (d1 & d2 & ED).
  rewrite EY, EM, ED in *. split; [|reflexivity]. cbn [app]. unfold iso_date. cbn [N.eqb Pos.eqb andb]. now rewrite FY, FM, FD.
Qed.
Lemma iso_time_str hh mm ss us : hh < 24 -> mm < 60 -> ss < 60 -> us < 1000000 -> iso_time (time_str hh mm ss us) = Some (hh, mm, ss, us).
Proof.
  intros A B C E. assert (FH : fixed (pad 2 hh) = Some hh) by (apply fixed_pad; cbn; lia). assert (FM : fixed (pad 2 mm) = Some mm) by (apply fixed_pad; cbn; lia).
  assert (FS : fixed (pad 2 ss) = Some ss) by (apply fixed_pad; cbn; lia). assert (FU : fixed (pad 6 us) = Some us) by (apply fixed_pad; cbn; lia).
  pose proof (pad_length 6 us) as L6. unfold time_str.
  destruct (two _ (pad_length 2 hh)) as (h1 & h2 & EH). destruct (two _ (pad_length 2 mm)) as (m1 & m2 & EM). destruct (two _ (pad_length 2 ss)) as (s1 & s2 & ES).
  rewrite EH, EM, ES in *. cbn [app]. unfold iso_time. cbn [N.eqb Pos.eqb andb]. rewrite FH, FM, FS. destruct (N.eqb_spec us 0) as [->|]; [reflexivity|].
  cbn [app]. rewrite L6. cbn [N.eqb Pos.eqb Nat.eqb andb]. now rewrite FU.
Qed.
Lemma ascii_scalar s : forallb (fun c => c <? 128) s = true -> Forall scalar s.
Proof. intros H. rewrite forallb_forall in H. apply Forall_forall. intros c I. specialize (H c I). unfold scalar. lia. Qed.
Lemma pad_ascii w n : Forall scalar (pad w n).
Proof. apply ascii_scalar. pose proof (pad_digits w n) as P. rewrite forallb_forall in *. intros c I. specialize (P c I). unfold is_digit in P. lia. Qed.
Lemma one_scalar c : c < 128 -> Forall scalar [c].
Proof. intros L. constructor; [unfold scalar; lia | constructor]. Qed.
Lemma date_scalar y m d : Forall scalar (date_str y m d).
Proof. unfold date_str. rewrite !Forall_app. repeat split; try apply pad_ascii; apply one_scalar; lia. Qed.
Lemma time_scalar hh mm ss us : Forall scalar (time_str hh mm ss us).
Proof.
  unfold time_str. rewrite !Forall_app. repeat split; try apply pad_ascii; try (apply one_scalar; lia).
  destruct (us =? 0); [constructor|]. apply Forall_app. split; [apply one_scalar; lia | apply pad_ascii].
Qed.
(** UUIDs. *)
Lemma hexpad_length w : forall n, length (hexpad w n) = w.
Proof. induction w as [|w IH]; intros n; [reflexivity|]. cbn [hexpad]. rewrite app_length, IH. cbn. lia. Qed.
Lemma hexnum_app s : forall acc t, hexnum acc (s ++ t) = match hexnum acc s with Some a => hexnum a t | None => None end.
Proof. induction s as [|c s IH]; intros acc t; [reflexivity|]. cbn [app hexnum]. destruct (hexval c); [apply IH | reflexivity]. Qed.
Lemma hexlow_val v : v < 16 -> hexval (hexlow v) = Some v.
Proof. intros L. apply hexval_digit, hexlow_digit, L. Qed.
Lemma hexpad_value w : forall n, n < 16 ^ N.of_nat w -> hexnum 0 (hexpad w n) = Some n.
Proof.
  induction w as [|w IH]; intros n L.
  - cbn in *. f_equal. lia.
  - cbn [hexpad]. rewrite hexnum_app. rewrite Nat2N.inj_succ, N.pow_succ_r' in L. rewrite IH by (apply N.div_lt_upper_bound; lia).
    cbn [hexnum]. rewrite hexlow_val by lia. f_equal. lia.
Qed.
Definition hexch (c : N) : bool := is_digit c || between 97 102 c.
Lemma hexpad_chars w : forall n, forallb hexch (hexpad w n) = true.
Proof.
  induction w as [|w IH]; intros n; [reflexivity|]. cbn [hexpad]. rewrite forallb_app, IH. cbn [forallb andb]. rewrite andb_true_r. unfold hexch, is_digit, between, hexlow. destruct (N.ltb_spec (n mod 16) 10); lia.
Qed.
Lemma replace_free a old s : ~ In a s -> replace (a :: old) [] s = s.
Proof.
  induction s as [|c s IH]; intros N; [apply replace_nil; discriminate|]. rewrite replace_miss; [rewrite IH; [reflexivity | intros I; apply N; now right] | discriminate|].
  cbn [prefixb]. destruct (N.eqb_spec a c) as [->|]; [destruct N; now left | reflexivity].
Qed.
Lemma strip_free p s : forallb (fun c => negb (p c)) s = true -> strip_by p s = s.
Proof.
  intros H. assert (L : forall s, forallb (fun c => negb (p c)) s = true -> lstrip_by p s = s).
  { intros [|c t]; [reflexivity|]. cbn. destruct (p c); [discriminate | reflexivity]. }
  unfold strip_by, rstrip_by. rewrite (L s H). rewrite L; [apply rev_involutive|]. rewrite forallb_forall in *. intros c I. apply H. now apply in_rev.
Qed.
Lemma filter_all {A} (p : A -> bool) l : forallb p l = true -> filter p l = l.
Proof. induction l as [|a l IH]; [reflexivity|]. cbn. destruct (p a); [|discriminate]. cbn. intros H. now rewrite IH. Qed.
Lemma uuid_chars n c : In c (uuid_str n) -> c = 45 \/ hexch c = true.
Proof.
  intros I. pose proof (hexpad_chars 32 n) as H. rewrite forallb_forall in H. unfold uuid_str in I. set (h := hexpad 32 n) in *. clearbody h.
  assert (F : forall a (s : str), In c (firstn a s) -> In c s) by (intros a s X; rewrite <- (firstn_skipn a s); apply in_app_iff; auto).
  assert (K : forall a (s : str), In c (skipn a s) -> In c s) by (intros a s X; rewrite <- (firstn_skipn a s); apply in_app_iff; auto).
  rewrite !in_app_iff in I. cbn [In] in I. decompose [or] I; try contradiction; subst; eauto.
Qed.
Lemma uuid_round n : n < 2 ^ 128 -> uuid_parse (uuid_str n) = Some n.
Proof.
  intros L. unfold uuid_parse.
  assert (NC : forall x, x <> 45 -> hexch x = false -> ~ In x (uuid_str n)) by (intros x A B I; apply uuid_chars in I; destruct I; congruence).
  change (u "urn:") with (117 :: u "rn:"). change (u "uuid:") with (117 :: u "uid:").
  rewrite (replace_free 117 (u "rn:")), (replace_free 117 (u "uid:")) by (apply NC; [discriminate | reflexivity]).
  rewrite strip_free.
  2:{ apply forallb_forall. intros c I. apply uuid_chars in I. destruct I as [->|I]; [reflexivity|]. unfold hexch, is_digit, between in I. lia. }
  assert (F : filter (fun c => negb (c =? 45)) (uuid_str n) = hexpad 32 n).
  { pose proof (hexpad_chars 32 n) as H. unfold uuid_str. set (h := hexpad 32 n) in *. clearbody h.
    assert (FA : forall s, (forall c, In c s -> In c h) -> filter (fun c => negb (c =? 45)) s = s).
    { intros s S. apply filter_all, forallb_forall. intros c I. rewrite forallb_forall in H. specialize (H c (S c I)). unfold hexch, is_digit, between in H. lia. }
    assert (FI : forall a (s : str) c, In c (firstn a s) -> In c s) by (intros a s c X; rewrite <- (firstn_skipn a s); apply in_app_iff; auto).
    assert (K : forall a (s : str) c, In c (skipn a s) -> In c s) by (intros a s c X; rewrite <- (firstn_skipn a s); apply in_app_iff; auto).
    rewrite !filter_app. cbn [filter N.eqb Pos.eqb negb app]. rewrite !FA by eauto.
    assert (CUT : forall a b (s : str), firstn b (skipn a s) ++ skipn (b + a) s = skipn a s) by (intros a b s; rewrite <- skipn_skipn; apply firstn_skipn).
    pose proof (CUT 16%nat 4%nat h) as C1. pose proof (CUT 12%nat 4%nat h) as C2. pose proof (CUT 8%nat 4%nat h) as C3. cbn [Nat.add] in C1, C2, C3.
    rewrite C1, C2, C3. apply firstn_skipn. }
  rewrite F, hexpad_length. cbn [Nat.eqb]. apply hexpad_value. exact L.
Qed.
Lemma by_name_same l : NoDup (map fst l) -> by_name (map fst l) l = Some l.
Proof.
  intros ND. unfold by_name. rewrite map_length, Nat.eqb_refl. rewrite map_map.
  assert (G : forall l', (forall e, In e l' -> dget (fst e) l = Some (snd e)) ->
    all_some (map (fun e : str * pv => match dget (fst e) l with Some v => Some (fst e, v) | None => None end) l') = Some l').
  { induction l' as [|e l' IH]; intros H; [reflexivity|]. cbn [map all_some]. rewrite (H e (or_introl eq_refl)), IH by (intros x I; apply H; now right). now destruct e. }
  apply G. clear G. induction l as [|[k v] l IH]; [easy|]. cbn [map fst] in ND. inversion ND; subst. intros e [<-|I]; cbn [dget fst snd].
  - now rewrite seqb_refl.
  - destruct (seqb_spec (fst e) k) as [E|E]; [destruct H1; rewrite <- E; now apply in_map | now apply IH].
Qed.
Lemma by_place_same l : by_place (map fst l) (map snd l) = Some l.
Proof.
  unfold by_place. rewrite !map_length, Nat.eqb_refl. f_equal. induction l as [|[k v] l IH]; [reflexivity|]. cbn [map combine fst snd]. now rewrite IH.
Qed.
Lemma asdict_plain v : plain v -> asdict v = v.
Proof.
  induction v as [v A1 A2 A3 A4 A5 A6|l IH|l IH|l IH|l IH|c l IH|c l IH] using pv_ind'; cbn [plain asdict]; try contradiction.
  - intros H. destruct v; try contradiction; try reflexivity; try (eelim A1; reflexivity); try (eelim A4; reflexivity).
  - intros F. apply fold_and in F. f_equal. rewrite <- (map_id l) at 2. apply map_ext_in. intros v I. rewrite Forall_forall in *. auto.
  - intros [_ F]. apply fold_and in F. f_equal. rewrite <- (map_id l) at 2. apply map_ext_in. intros e I. rewrite Forall_forall in *. destruct (F e I).
    rewrite (IH e I) by assumption. now destruct e.
Qed.
Lemma restored_leaf : forall t v, instance t v -> simple v -> exists j, converts D v j /\ writable j /\ apply_structure D t (back j) = Some v.
Proof.
  assert (GO : forall t v j, converts D v j -> writable j -> apply_structure D t (back j) = Some v -> exists j, converts D v j /\ writable j /\ apply_structure D t (back j) = Some v).
  { intros t v j C W A. exists j. auto. }
  assert (TX : forall t v s, json_encode_default D v = Some (PStr s) -> Forall scalar s ->
            match v with PNone | PBool _ | PInt _ | PFloat _ | PStr _ | PList _ | PTuple _ | PDict _ | PNamed _ _ => False | _ => True end ->
            apply_structure D t (PStr s) = Some v -> exists j, converts D v j /\ writable j /\ apply_structure D t (back j) = Some v).
  { intros t v s E SC H A. apply (GO t v (JStr s)); [|exact SC|exact A]. apply (via_default v (PStr s) (JStr s) E); [exists 1%nat; reflexivity | exact H]. }
  intros t v. destruct t as [c fs|c fs|c ms| | | | | |c]; destruct v as [|b|z|x|s|l|l|l|l|c' l|c' l|c' s|b|k|y m d|y m d hh mm ss us|c']; cbn [instance simple]; try contradiction.
  - intros [-> <-] [ND F]. assert (PL : plain (PDict l)) by (cbn [plain]; rewrite fold_and; auto).
    destruct (plain_facts _ PL) as (W & B & _). apply (GO _ _ (as_json (PDict l))).
    + apply (via_default _ (asdict (PData c' l))); [reflexivity | | exact I]. change (asdict (PData c' l)) with (asdict (PDict l)). rewrite asdict_plain by exact PL. now apply plain_converts.
    + exact W.
    + rewrite B. change (option_map (PData c') (by_name (map fst l) l) = Some (PData c' l)). now rewrite by_name_same.
  - intros [-> <-] [ND F]. assert (PL : plain (PList (map snd l))).
    { cbn [plain]. rewrite fold_and, Forall_map. eapply Forall_impl; [|exact F]. cbv beta. intros e [_ X]. exact X. }
    destruct (plain_facts _ PL) as (W & B & _). apply (GO _ _ (as_json (PList (map snd l)))).
    + destruct (plain_converts _ PL) as (n & E). exists n. destruct n as [|n]; [discriminate E|]. cbn [conv] in *. rewrite map_map in E. exact E.
    + exact W.
    + rewrite B. change (option_map (PNamed c') (by_place (map fst l) (map snd l)) = Some (PNamed c' l)). now rewrite by_place_same.
  - intros [-> IN] SC. apply (TX _ _ s); [reflexivity | exact SC | exact I|]. change ((if smem s ms then Some (PEnum c' s) else None) = Some (PEnum c' s)).
    apply smem_In in IN. now rewrite IN.
  - intros _ B. assert (AS : forallb (fun c => c <? 128) (b64encode b) = true).
    { apply forallb_forall. intros c I. pose proof (b64_chars 43 47 b B c I) as X. cbv zeta in X. lia. }
    apply (TX _ _ (b64encode b)); [reflexivity | now apply ascii_scalar | exact I|].
    change ((if forallb (fun c => c <? 128) (b64encode b) then option_map PBytes (b64decode (b64encode b)) else None) = Some (PBytes b)). rewrite AS.
    unfold b64decode, b64encode. rewrite b64_round_trip; [reflexivity | left; auto | exact B].
  - intros _ L. assert (SC : Forall scalar (uuid_str k)).
    { apply Forall_forall. intros c I. apply uuid_chars in I. destruct I as [->|I]; unfold scalar; [lia|]. unfold hexch, is_digit, between in I. lia. }
    apply (TX _ _ (uuid_str k)); [reflexivity | exact SC | exact I|]. change (option_map PUuid (uuid_parse (uuid_str k)) = Some (PUuid k)). now rewrite uuid_round.
  - intros _ (Y & M & DD). rewrite (month_same _ _ M) in DD. pose proof (month_31 y m). destruct (iso_date_str y m d) as [E L]; [lia | lia | lia|].
    assert (FI : fromisoformat (date_str y m d) = Some (PDateTime y m d 0 0 0 0)).
    { unfold fromisoformat. rewrite firstn_all2 by lia. rewrite skipn_all2 by lia. rewrite E. cbn [iso_time].
      assert (G : good_date y m d = true) by (unfold good_date; lia). now rewrite G. }
    apply (TX _ _ (date_str y m d)); [reflexivity | apply date_scalar | exact I|].
    change (match fromisoformat (date_str y m d), TDate with Some (PDateTime y m d _ _ _ _ as o), TDateTime => Some o | Some (PDateTime y m d _ _ _ _), _ => Some (PDate y m d) | _, _ => None end = Some (PDate y m d)).
    now rewrite FI.
  - intros _ (Y & M & DD & HH & MM & SS & US). rewrite (month_same _ _ M) in DD. pose proof (month_31 y m). destruct (iso_date_str y m d) as [E L]; [lia | lia | lia|].
    pose proof (iso_time_str hh mm ss us HH MM SS US) as ET.
    assert (FI : fromisoformat (date_str y m d ++ [84] ++ time_str hh mm ss us) = Some (PDateTime y m d hh mm ss us)).
    { unfold fromisoformat. rewrite firstn_app, L, firstn_all2 by lia. cbn [Nat.sub firstn]. rewrite app_nil_r, E.
      rewrite skipn_app, L, skipn_all2 by lia. cbn [Nat.sub app skipn]. rewrite ET.
      assert (G : good_date y m d && good_time hh mm ss us = true) by (unfold good_date, good_time; lia). now rewrite G. }
    apply (TX _ _ (date_str y m d ++ [84] ++ time_str hh mm ss us)); [reflexivity | | exact I|].
    + rewrite !Forall_app. refine (conj (date_scalar _ _ _) (conj (one_scalar 84 _) (time_scalar _ _ _ _))). lia.
    + change (match fromisoformat (date_str y m d ++ [84] ++ time_str hh mm ss us), TDateTime with Some (PDateTime y m d _ _ _ _ as o), TDateTime => Some o | Some (PDateTime y m d _ _ _ _), _ => Some (PDate y m d) | _, _ => None end = Some (PDateTime y m d hh mm ss us)).
      now rewrite FI.
  - intros _ PL. destruct (plain_facts (PList l) PL) as (W & B & _). apply (GO _ _ (as_json (PList l))); [now apply plain_converts | exact W|]. now rewrite B.
Qed.
Theorem C109_restored_partial : forall t v, instance t v -> simple v -> exists n0, forall n, (n0 <= n)%nat ->
  exists r, json_encode DEFAULT_ENCODER_TYPES None false n v = Some r /\ apply_structure DEFAULT_ENCODER_TYPES t r = Some v.
Proof.
  intros t v I S. destruct (restored_leaf t v I S) as (j & C & W & A). destruct (encode_of v j C W) as (n0 & E). exists n0. intros n L. exists (back j). auto.
Qed.
Print Assumptions C109_restored_partial.
Example C109_case : instance TDateTime (PDateTime 2024 2 29 23 59 59 1) /\ simple (PDateTime 2024 2 29 23 59 59 1) /\
  json_encode D None false 9 (PDateTime 2024 2 29 23 59 59 1) = Some (PStr (u "2024-02-29T23:59:59.000001")).
Proof. refine (conj I (conj _ _)); [unfold simple; repeat split; vm_compute; congruence | vm_compute; reflexivity]. Qed.

(** The result has the class asked for. *)
Definition C109_class_statement : Prop := forall t v r, apply_structure DEFAULT_ENCODER_TYPES t v = Some r -> (forall c, t <> TOther c) -> instance t r.
Theorem C109_class_refuted : ~ C109_class_statement.
Proof.
  intros H. specialize (H TList (PSet [PInt 1]) (PSet [PInt 1]) eq_refl). apply H. discriminate.
Qed.
Lemma by_name_fields fs : forall l r, by_name fs l = Some r -> map fst r = fs.
Proof.
  intros l r. unfold by_name. destruct (Nat.eqb _ _); [|discriminate]. revert r. induction fs as [|f fs IH]; cbn [map all_some]; intros r; [now intros [= <-]|].
  destruct (dget f l) as [v|]; [|discriminate]. destruct (all_some _) as [r'|]; [|discriminate]. intros [= <-]. cbn [map fst]. now rewrite (IH r' eq_refl).
Qed.
(** It has when the value is JSON: when it is a value json.loads returns. *)
Theorem C109_class_partial : forall t v r, plain v ->
  apply_structure DEFAULT_ENCODER_TYPES t v = Some r -> (forall c, t <> TOther c) -> instance t r.
Proof.
  intros t v r P E NT. destruct t as [c fs|c fs|c ms| | | | | |c]; try (now destruct (NT c)); destruct v as [|b|z|x|s|l|l|l|l|c' l|c' l|c' s|b|k|y m d|y m d hh mm ss us|c']; try contradiction; try discriminate E.
  - change (option_map (PData c) (by_name fs l) = Some r) in E. destruct (by_name fs l) as [x|] eqn:B; [|discriminate]. injection E as <-. split; [reflexivity | exact (by_name_fields _ _ _ B)].
  - change (option_map (PNamed c) (by_place fs l) = Some r) in E. unfold by_place in E. destruct (Nat.eqb_spec (length l) (length fs)) as [L|]; [|discriminate]. injection E as <-. split; [reflexivity|].
    clear -L. revert l L. induction fs as [|f fs IH]; intros [|v l] L; try discriminate L; [reflexivity|]. cbn [combine map fst]. now rewrite IH by (now injection L).
  - change (option_map (PNamed c) (by_name fs l) = Some r) in E. destruct (by_name fs l) as [x|] eqn:B; [|discriminate]. injection E as <-. split; [reflexivity | exact (by_name_fields _ _ _ B)].
  - change ((if smem s ms then Some (PEnum c s) else None) = Some r) in E. destruct (smem s ms) eqn:M; [|discriminate]. injection E as <-. split; [reflexivity | now apply smem_In].
  - change ((if forallb (fun c => c <? 128) s then option_map PBytes (b64decode s) else None) = Some r) in E. destruct (forallb _ s); [|discriminate]. destruct (b64decode s); [|discriminate]. injection E as <-. exact I.
  - change (option_map PUuid (uuid_parse s) = Some r) in E. destruct (uuid_parse s); [|discriminate]. injection E as <-. exact I.
  - change (match fromisoformat s, TDate with Some (PDateTime y m d _ _ _ _ as o), TDateTime => Some o | Some (PDateTime y m d _ _ _ _), _ => Some (PDate y m d) | _, _ => None end = Some r) in E.
    destruct (fromisoformat s) as [[]|]; try discriminate. injection E as <-. exact I.
  - change (match fromisoformat s, TDateTime with Some (PDateTime y m d _ _ _ _ as o), TDateTime => Some o | Some (PDateTime y m d _ _ _ _), _ => Some (PDate y m d) | _, _ => None end = Some r) in E.
    destruct (fromisoformat s) as [[]|]; try discriminate. injection E as <-. exact I.
  - injection E as <-. exact I.
  - injection E as <-. exact I.
  - injection E as <-. exact I.
Qed.
Print Assumptions C109_class_partial.
