(** The properties C116, C117, C118 and C119. *)
From Verif Require Import PyStr PyStrFacts Utf8 JsonModel JsonSpec JsonProofs EncModel EncSpec EncProps CacheModel MemoModel MemoSpec.
Local Open Scope N_scope.

(** ** Keys *)
Lemma json_of_plain v : plain v -> json_of v = as_json v.
Proof.
  induction v as [v A1 A2 A3 A4 A5 A6|l IH|l IH|l IH|l IH|c l IH|c l IH] using pv_ind'; cbn [plain as_json json_of]; try contradiction.
  - intros H. destruct v; try contradiction; cbn in *; auto; try (eelim A1; reflexivity); try (eelim A4; reflexivity).
  - intros F. apply fold_and in F. rewrite !Forall_forall in *. f_equal. apply map_ext_in. auto.
  - intros [_ F]. apply fold_and in F. rewrite !Forall_forall in *. f_equal. apply map_ext_in. intros e I. f_equal. apply IH; [exact I | apply F, I].
Qed.
Lemma conv_plain n v j : plain v -> conv DEFAULT_ENCODER_TYPES n v = Some j -> j = as_json v.
Proof.
  intros P C. destruct (plain_converts v P) as (m & E).
  apply (conv_le _ n (Nat.max n m)) in C; [|lia]. apply (conv_le _ m (Nat.max n m)) in E; [|lia]. unfold D in E. congruence.
Qed.
Lemma json_encode_plain n v w : plain v -> json_encode DEFAULT_ENCODER_TYPES None false n v = Some w -> w = v.
Proof.
  intros P. unfold json_encode, json_text. destruct (conv _ n v) as [j|] eqn:C; [|discriminate]. rewrite (conv_plain n v j P C).
  destruct (plain_facts v P) as (W & B & _). unfold dumps. rewrite (writable_finite _ W), (loads_json _ _ (write_json _ W)). cbn [option_map]. congruence.
Qed.
Lemma encoded_plain n v w : plain v -> encoded n v = Some w -> w = v.
Proof.
  unfold encoded. intros P. destruct (json_encode _ _ _ n v) as [x|] eqn:E; [|discriminate]. rewrite (json_encode_plain n v x P E).
  cbn [option_map]. intros [= <-]. destruct v; try contradiction P; reflexivity.
Qed.
Lemma encoded_args_plain n l r : Forall plain l -> all_some (map (encoded n) l) = Some r -> r = l.
Proof.
  revert r. induction l as [|v l IH]; intros r; cbn [map all_some]; [congruence|]. intros F.
  inversion_clear F. destruct (encoded n v) as [w|] eqn:E; [|discriminate]. destruct (all_some _) as [r'|]; [|discriminate].
  intros [= <-]. rewrite (encoded_plain n v w), (IH r'); auto.
Qed.
Lemma encoded_kwargs_plain n l r : Forall (fun e => Forall scalar (fst e) /\ plain (snd e)) l ->
  all_some (map (fun e => match encoded n (snd e) with Some v => Some (fst e, v) | None => None end) l) = Some r -> r = l.
Proof.
  revert r. induction l as [|[k v] l IH]; intros r; cbn [map all_some fst snd]; [congruence|]. intros F.
  inversion_clear F as [|? ? [_ P] F']. cbn [snd] in P. destruct (encoded n v) as [w|] eqn:E; [|discriminate]. destruct (all_some _) as [r'|]; [|discriminate].
  intros [= <-]. rewrite (encoded_plain n v w), (IH r'); auto.
Qed.
Definition call_json (c : call) : jvalue :=
  JObj [(u "args", JArr (map as_json (fst c))); (u "kwargs", JObj (map (fun e => (fst e, as_json (snd e))) (snd c)))].
Lemma call_writable c : plain_call c -> writable (call_json c).
Proof.
  intros (A & ND & K). unfold call_json. cbn [writable map fst fold_right snd].
  assert (S1 : Forall scalar (u "args")) by (apply ascii_scalar; vm_compute; reflexivity).
  assert (S2 : Forall scalar (u "kwargs")) by (apply ascii_scalar; vm_compute; reflexivity).
  refine (conj _ (conj (conj S1 _) (conj (conj S2 (conj _ _)) I))).
  - constructor; [|constructor; [intros []|constructor]]. intros [E|[]]. vm_compute in E. discriminate E.
  - apply fold_and. rewrite Forall_map. eapply Forall_impl; [|exact A]. intros v P. apply plain_facts, P.
  - rewrite map_map. exact ND.
  - apply fold_and. rewrite Forall_map. eapply Forall_impl; [|exact K]. intros e [S P]. split; [exact S | apply plain_facts, P].
Qed.
Lemma call_json_inj c d : plain_call c -> plain_call d -> call_json c = call_json d -> c = d.
Proof.
  intros (A & _ & K) (A' & _ & K') E. unfold call_json in E.
  apply (f_equal (fun j => match j with JObj [(_, a); (_, k)] => (a, k) | _ => (j, j) end)) in E. injection E as E1 E2.
  destruct c as [c1 c2], d as [d1 d2]. cbn [fst snd] in *. f_equal.
  - clear E2 K K'. revert d1 E1 A'. induction A as [|v l P A IH]; intros [|w d1] E1 A'; try discriminate; [reflexivity|]. cbn [map] in E1.
    inversion_clear A'. assert (V : as_json v = as_json w) by congruence. assert (R : map as_json l = map as_json d1) by congruence. f_equal; [|auto].
    destruct (plain_facts v P) as (_ & B & _), (plain_facts w) as (_ & B' & _); [assumption|]. congruence.
  - clear E1 A A'. revert d2 E2 K'. induction K as [|[k v] l [_ P] K IH]; intros [|[k' w] d2] E2 K'; try discriminate; [reflexivity|]. cbn [map fst snd] in *.
    inversion_clear K' as [|? ? [_ P'] K'']. cbn [snd] in P'. injection E2 as <- V R. f_equal; [f_equal|apply IH; [exact R|assumption]].
    destruct (plain_facts v P) as (_ & B & _), (plain_facts w) as (_ & B' & _); [assumption|]. congruence.
Qed.
Section Keys.
Context (has_attr : pv -> str -> bool) (md5 : str -> str) (depth : nat).
Notation key := (generate_cache_key has_attr md5 depth).
Lemma key_text_clean f c t : plain_call c -> not_self has_attr f c -> key_text has_attr depth f c = Some t -> t = write false (call_json c).
Proof.
  intros P (B & NS). unfold key_text, encoded_args, bound_method. rewrite B. cbn [orb].
  assert (NB : match fst c with [] => false | a :: _ => has_attr a (f_name f) end = false).
  { destruct (fst c) as [|a r]; [reflexivity | apply (NS a r eq_refl)]. }
  rewrite NB.
  destruct P as (A & ND & K). destruct (all_some (map (encoded depth) (fst c))) as [args|] eqn:EA; [|discriminate].
  destruct (all_some (map _ (snd c))) as [kw|] eqn:EK; [|discriminate].
  apply encoded_args_plain in EA; [|exact A]. apply encoded_kwargs_plain in EK; [|exact K]. subst args kw.
  replace (map json_of (fst c)) with (map as_json (fst c)) by (apply map_ext_in; intros v I; symmetry; apply json_of_plain; rewrite Forall_forall in A; auto).
  replace (map (fun e => (fst e, json_of (snd e))) (snd c)) with (map (fun e => (fst e, as_json (snd e))) (snd c))
    by (apply map_ext_in; intros e I; f_equal; symmetry; apply json_of_plain; rewrite Forall_forall in K; apply K; auto).
  fold (call_json c). unfold dumps. rewrite (writable_finite _ (call_writable c (conj A (conj ND K)))). congruence.
Qed.
Lemma key_inj program f g c d k : apart program -> clean has_attr program f c -> clean has_attr program g d ->
  key f c = Some k -> key g d = Some k -> (f = g /\ c = d) \/ collision md5.
Proof.
  intros (NC & INJ) (Pf & Pc & Nf) (Pg & Pd & Ng). unfold generate_cache_key.
  destruct (key_text has_attr depth f c) as [t|] eqn:T; [|discriminate]. destruct (key_text has_attr depth g d) as [t'|] eqn:T'; [|discriminate].
  destruct (encode t); [|discriminate]. destruct (encode t'); [|discriminate]. intros K1 K2.
  assert (E : key_base f ++ u ":" ++ md5 t = key_base g ++ u ":" ++ md5 t') by congruence. clear K1 K2.
  change (u ":") with [58] in E. cbn [app] in E. change (key_base f) with (full_name f) in E. change (key_base g) with (full_name g) in E.
  assert (X : full_name f = full_name g /\ md5 t = md5 t').
  { pose proof (NC f Pf) as N1. pose proof (NC g Pg) as N2. revert E N1 N2. generalize (full_name f) (full_name g). intros a. induction a as [|x a IH]; intros [|y b]; cbn [app In]; intros E N1 N2.
    - split; congruence. - assert (y = 58) by congruence. tauto. - assert (x = 58) by congruence. tauto.
    - assert (x = y) by congruence. destruct (IH b); [congruence|tauto|tauto|]. split; congruence. }
  destruct X as [X1 X2]. apply INJ in X1; auto. subst g.
  destruct (seqb t t') eqn:S.
  - apply seqb_eq in S. left. split; [reflexivity|]. subst t'. apply key_text_clean in T; auto. apply key_text_clean in T'; auto.
    apply call_json_inj; auto. assert (L1 := loads_json _ _ (write_json _ (call_writable c Pc))). assert (L2 := loads_json _ _ (write_json _ (call_writable d Pd))). congruence.
  - right. exists t, t'. split; [|exact X2]. intros ->. rewrite seqb_refl in S. discriminate.
Qed.
End Keys.
Lemma stored_restored n v b w : plain v -> stored n v = Some b -> restored b = Some w -> w = v.
Proof.
  unfold stored, json_text, restored, loads_bytes. intros P. destruct (conv _ n v) as [j|] eqn:C; [|discriminate]. apply (conv_plain n v j P) in C. subst j.
  destruct (plain_facts v P) as (W & B & _). unfold dumps. rewrite (writable_finite _ W). intros E. apply encode_some in E. destruct E as [_ ->].
  rewrite (strict_enc _ (proj1 (write_scalar _ W))), (loads_json _ _ (write_json _ W)). cbn [option_map]. congruence.
Qed.
Lemma stored_back n v b : plain v -> stored n v = Some b -> restored b = Some v.
Proof.
  unfold stored, json_text, restored, loads_bytes. intros P. destruct (conv _ n v) as [j|] eqn:C; [|discriminate]. apply (conv_plain n v j P) in C. subst j.
  destruct (plain_facts v P) as (W & B & _). unfold dumps. rewrite (writable_finite _ W). intros E. apply encode_some in E. destruct E as [_ ->].
  rewrite (strict_enc _ (proj1 (write_scalar _ W))), (loads_json _ _ (write_json _ W)). cbn [option_map]. congruence.
Qed.

(** ** Histories *)
Section Histories.
Context (has_attr : pv -> str -> bool) (md5 : str -> str) (depth : nat) (ttl : func -> option Z) (default : option Z).
Notation key := (generate_cache_key has_attr md5 depth).
Notation after := (after has_attr md5 depth ttl default).
Notation shows := (shows has_attr md5 depth ttl default).
Notation step := (memo_step has_attr md5 depth ttl default).
Definition expires (f : func) (t : Z) : option Z :=
  match ttl_of (ttl f) default with Some x => if Z.eqb x 0 then None else Some (t + x)%Z | None => None end.
Lemma after_snoc es e : after (es ++ [e]) = fst (step (after es) e).
Proof. unfold MemoModel.after. now rewrite fold_left_app. Qed.
Lemma after_app es e es2 : after (es ++ e :: es2) = fold_left (fun m e => fst (step m e)) es2 (fst (step (after es) e)).
Proof. unfold MemoModel.after. rewrite fold_left_app. reflexivity. Qed.
(** What the entry of a key tells. *)
Definition origin (es : list event) (k data : str) (e : option Z) : Prop :=
  exists es1 id t v es2 f c, es = es1 ++ Ends id t true v :: es2 /\ shows es1 (Ends id t true v) = Returns f c v /\
    key f c = Some k /\ stored depth v = Some data /\ e = expires f t /\ (forall g d, In (Invalidates g d true) es2 -> key g d <> Some k).
Lemma origin_snoc es k data e x : (forall g d, x = Invalidates g d true -> key g d <> Some k) -> origin es k data e -> origin (es ++ [x]) k data e.
Proof.
  intros H (es1 & id & t & v & es2 & f & c & -> & A & B & C & D & E). exists es1, id, t, v, (es2 ++ [x]), f, c.
  refine (conj _ (conj A (conj B (conj C (conj D _))))). { now rewrite <- app_assoc. }
  intros g d I. apply in_app_iff in I. destruct I as [I|[I|[]]]; [exact (E g d I) | exact (H g d I)].
Qed.
Lemma lookup_keeps ok now k s s' o k' x : lookup ok now k s = (s', o) -> dget k' s' = Some x -> dget k' s = Some x.
Proof.
  unfold lookup. destruct ok; [|intros [= <- _]; auto]. unfold cache_get. destruct (dget k s) as [[data e]|] eqn:G; [|intros [= <- _]; auto].
  destruct (match e with Some e => (e <? now)%Z | None => false end).
  - intros [= <- _]. unfold cache_delete. destruct (seqb k' k) eqn:Q; [apply seqb_eq in Q; subst k'; rewrite dget_ddel_same; discriminate|].
    rewrite dget_ddel_other; [auto|]. intros ->. rewrite seqb_refl in Q. discriminate.
  - destruct (restored data) as [[]|]; intros [= <- _]; auto.
Qed.
Lemma store_origin es : forall k data e, dget k (m_store (after es)) = Some (data, e) -> origin es k data e.
Proof.
  induction es as [|x es IH] using rev_ind; intros k data e; [discriminate|]. rewrite after_snoc.
  destruct x as [id f c now ok|id now ok v|f c ok]; cbn [memo_step].
  - destruct (key f c) as [k0|]; [|intros G; apply origin_snoc; [discriminate | apply IH, G]].
    destruct (lookup ok now k0 (m_store (after es))) as [s [v|]] eqn:L; cbn [fst m_store]; intros G;
      (apply origin_snoc; [discriminate | apply IH; eapply lookup_keeps; eassumption]).
  - destruct (running id (m_running (after es))) as [[f c]|] eqn:R; [|intros G; apply origin_snoc; [discriminate | apply IH, G]].
    destruct (key f c) as [k0|] eqn:K; [|intros G; apply origin_snoc; [discriminate | apply IH, G]].
    cbn [fst m_store]. unfold keep. destruct ok; [|intros G; apply origin_snoc; [discriminate | apply IH, G]].
    unfold cache_set. destruct (stored depth v) as [b|] eqn:S; [|intros G; apply origin_snoc; [discriminate | apply IH, G]].
    destruct (seqb k k0) eqn:Q.
    + apply seqb_eq in Q. subst k0. rewrite dget_dset_same. intros [= <- <-].
      exists es, id, now, v, [], f, c. refine (conj eq_refl (conj _ (conj K (conj S (conj eq_refl _))))).
      * unfold MemoModel.shows. cbn [memo_step]. now rewrite R, K.
      * intros g d [].
    + rewrite dget_dset_other; [intros G; apply origin_snoc; [discriminate | apply IH, G]|]. intros ->. rewrite seqb_refl in Q. discriminate.
  - destruct (key f c) as [k0|] eqn:K.
    + cbn [fst m_store]. destruct ok; [|intros G; apply origin_snoc; [discriminate | apply IH, G]]. unfold cache_delete.
      destruct (seqb k k0) eqn:Q; [apply seqb_eq in Q; subst k0; rewrite dget_ddel_same; discriminate|].
      assert (N : k <> k0) by (intros ->; rewrite seqb_refl in Q; discriminate).
      rewrite dget_ddel_other by exact N. intros G. apply origin_snoc; [|apply IH, G]. intros g d [= <- <-]. rewrite K. congruence.
    + cbn [fst]. intros G. apply origin_snoc; [|apply IH, G]. intros g d [= <- <- _]. rewrite K. discriminate.
Qed.
Context (program : func -> Prop).
Notation clean := (clean has_attr program).
Lemma running_clean es : Forall (clean_event has_attr program) es -> Forall (fun e => clean (fst (snd e)) (snd (snd e))) (m_running (after es)).
Proof.
  induction es as [|x es IH] using rev_ind; intros F; [constructor|]. apply Forall_app in F. destruct F as [F Fx]. inversion_clear Fx as [|? ? X _]. specialize (IH F).
  rewrite after_snoc. destruct x as [id f c now ok|id now ok v|f c ok]; cbn [memo_step].
  - destruct (key f c) as [k0|]; [|exact IH]. destruct (lookup _ _ _ _) as [s [v|]]; cbn [fst m_running]; [exact IH | constructor; [exact X | exact IH]].
  - destruct (running _ _) as [[f c]|]; [|exact IH]. destruct (key f c); [|exact IH]. cbn [fst m_running].
    rewrite !Forall_forall in *. intros e I. apply filter_In in I. apply IH, I.
  - destruct (key f c); exact IH.
Qed.
Lemma returns_clean es id t ok v f c : Forall (clean_event has_attr program) es -> shows es (Ends id t ok v) = Returns f c v -> clean f c.
Proof.
  intros F. apply running_clean in F. unfold MemoModel.shows. cbn [memo_step]. unfold running.
  destruct (List.find _ (m_running (after es))) as [[i [g d]]|] eqn:E; cbn [option_map snd]; [|discriminate].
  destruct (key g d); [|discriminate]. intros [= -> ->]. apply List.find_some in E. rewrite Forall_forall in F. apply (F _ (proj1 E)).
Qed.
(** A hit and where it comes from. *)
Lemma hit es id f c now ok v : apart program -> Forall (clean_event has_attr program) es -> clean f c ->
  shows es (Begins id f c now ok) = Returns f c v ->
  (exists es1 id' t es2, es = es1 ++ Ends id' t true v :: es2 /\ shows es1 (Ends id' t true v) = Returns f c v /\
    (forall e, expires f t = Some e -> (now <= e)%Z) /\ v <> PNone /\ ~ In (Invalidates f c true) es2) \/ collision md5.
Proof.
  intros A F C. unfold MemoModel.shows at 1. cbn [memo_step]. destruct (key f c) as [k|] eqn:K; [|discriminate].
  destruct (lookup ok now k (m_store (after es))) as [s [w|]] eqn:L; [|discriminate]. cbn [snd]. intros [= ->].
  revert L. unfold lookup. destruct ok; [|discriminate]. unfold cache_get. destruct (dget k (m_store (after es))) as [[data e]|] eqn:G; [|discriminate].
  destruct (match e with Some e => (e <? now)%Z | None => false end) eqn:X; [discriminate|].
  intros L. assert (R : restored data = Some v /\ v <> PNone) by (destruct (restored data) as [[]|]; split; congruence). clear L. destruct R as [R NN].
  apply store_origin in G. destruct G as (es1 & id' & t & w & es2 & g & d & -> & S & K' & ST & -> & NI).
  apply Forall_app in F. destruct F as [F1 F2]. inversion_clear F2 as [|? ? P F3]. cbn [clean_event] in P.
  rewrite (stored_back depth w data P ST) in R. assert (w = v) by congruence. subst w.
  destruct (key_inj has_attr md5 depth program f g c d k A C (returns_clean _ _ _ _ _ _ _ F1 S) K K') as [[<- <-]|CO]; [left|right; exact CO].
  exists es1, id', t, es2. refine (conj eq_refl (conj S (conj _ (conj NN _)))).
  - intros e E. rewrite E in X. apply Z.ltb_ge in X. exact X.
  - intros I. exact (NI f c I K).
Qed.
End Histories.

(** ** C116.  A cached function never returns what another function, or the function for other arguments, returned. *)
Definition C116_statement (has_attr : pv -> str -> bool) : Prop :=
  forall md5 depth ttl default es id f c now ok v,
  shows has_attr md5 depth ttl default es (Begins id f c now ok) = Returns f c v ->
  (exists es1 id' t ok' es2, es = es1 ++ Ends id' t ok' v :: es2 /\ shows has_attr md5 depth ttl default es1 (Ends id' t ok' v) = Returns f c v)
  \/ collision md5.

(** A function [count(text)]: texts have an attribute of that name, so the text is taken for [self]. *)
Definition count : func := {| f_id := 0; f_module := u "app"; f_qual := u "count"; f_name := u "count"; f_bound := false |}.
Lemma no_collision : ~ collision (fun t => t).
Proof. intros (a & b & N & E). exact (N E). Qed.
Lemma key_attr h f s : h (PStr s) (f_name f) = true -> forall md5 depth, generate_cache_key h md5 depth f ([PStr s], []) = generate_cache_key (fun _ _ => true) md5 depth f ([PStr s], []).
Proof. intros H md5 depth. unfold generate_cache_key, key_text, encoded_args, bound_method. cbn [fst]. rewrite H. reflexivity. Qed.
Lemma two_events {h m n ttl d} b id t ok w f c v : (forall i a k x, b <> Ends i a k x) ->
  (exists es1 id' t' ok' es2, [b; Ends id t ok w] = es1 ++ Ends id' t' ok' v :: es2 /\ shows h m n ttl d es1 (Ends id' t' ok' v) = Returns f c v) ->
  w = v /\ shows h m n ttl d [b] (Ends id t ok v) = Returns f c v.
Proof.
  intros B (es1 & id' & t' & ok' & es2 & E & R). destruct es1 as [|e1 [|e2 es1]]; cbn [app] in E.
  - exfalso. eapply B. assert (Q : b = Ends id' t' ok' v) by congruence. exact Q.
  - injection E as <- <- <- <- <- <-. split; [reflexivity | exact R].
  - assert (L := f_equal (@length _) E). cbn [length] in L. rewrite app_length in L. cbn in L. lia.
Qed.
Theorem C116_self_refuted : forall has_attr, (forall s, has_attr (PStr s) (u "count") = true) -> ~ C116_statement has_attr.
Proof.
  intros h H S.
  assert (K : forall s, generate_cache_key h (fun t => t) 5 count ([PStr s], []) = Some (u "app.count:{""args"":[],""kwargs"":{}}")).
  { intros s. rewrite key_attr by apply H. vm_compute. reflexivity. }
  destruct (S (fun t => t) 5%nat (fun _ => None) None
    [Begins 0 count ([PStr (u "abc")], []) 0 true; Ends 0 0 true (PInt 3)] 1%nat count ([PStr (u "hello")], []) 0%Z true (PInt 3)) as [X|X].
  - unfold shows, after. cbn [fold_left memo_step fst snd]. rewrite !K. cbn [lookup m_store cache_get dget fst snd running m_running List.find Nat.eqb option_map]. rewrite K. vm_compute. reflexivity.
  - apply two_events in X; [|discriminate]. destruct X as [_ R]. revert R. unfold shows, after. cbn [fold_left memo_step fst snd]. rewrite K.
    cbn [lookup m_store cache_get dget fst snd running m_running List.find Nat.eqb option_map]. rewrite K. cbn [snd]. intros R.
    apply (f_equal (fun o => match o with Returns _ ([PStr s], _) _ => s | _ => [] end)) in R. vm_compute in R. discriminate R.
  - exact (no_collision X).
Qed.
Print Assumptions C116_self_refuted.
(** Two functions made by one [def] within a function. *)
Definition made (n : nat) : func := {| f_id := n; f_module := u "app"; f_qual := u "make.<locals>.get"; f_name := u "get"; f_bound := false |}.
Theorem C116_closure_refuted : forall has_attr, ~ C116_statement has_attr.
Proof.
  intros h S. destruct (S (fun t => t) 5%nat (fun _ => None) None
    [Begins 0 (made 1) ([], []) 0 true; Ends 0 0 true (PInt 1)] 1%nat (made 2) ([], []) 0%Z true (PInt 1)) as [X|X].
  - vm_compute. reflexivity.
  - apply two_events in X; [|discriminate]. destruct X as [_ R]. vm_compute in R. discriminate R.
  - exact (no_collision X).
Qed.
Print Assumptions C116_closure_refuted.
(** A date and its text as an argument; a tuple as a result. *)
Definition kind : func := {| f_id := 0; f_module := u "app"; f_qual := u "kind"; f_name := u "kind"; f_bound := false |}.
Theorem C116_argument_refuted : ~ C116_statement (fun _ _ => false).
Proof.
  intros S. destruct (S (fun t => t) 5%nat (fun _ => None) None
    [Begins 0 kind ([PDate 2024 2 29], []) 0 true; Ends 0 0 true (PStr (u "date"))] 1%nat kind ([PStr (u "2024-02-29")], []) 0%Z true (PStr (u "date"))) as [X|X].
  - vm_compute. reflexivity.
  - apply two_events in X; [|discriminate]. destruct X as [_ R]. vm_compute in R. discriminate R.
  - exact (no_collision X).
Qed.
Print Assumptions C116_argument_refuted.
Theorem C116_result_refuted : ~ C116_statement (fun _ _ => false).
Proof.
  intros S. destruct (S (fun t => t) 5%nat (fun _ => None) None
    [Begins 0 kind ([], []) 0 true; Ends 0 0 true (PTuple [PInt 1; PInt 2])] 1%nat kind ([], []) 0%Z true (PList [PInt 1; PInt 2])) as [X|X].
  - vm_compute. reflexivity.
  - apply two_events in X; [|discriminate]. destruct X as [X _]. discriminate X.
  - exact (no_collision X).
Qed.
Print Assumptions C116_result_refuted.

Theorem C116_own_partial : forall has_attr md5 depth ttl default program es id f c now ok v,
  apart program -> Forall (clean_event has_attr program) es -> clean has_attr program f c ->
  shows has_attr md5 depth ttl default es (Begins id f c now ok) = Returns f c v ->
  (exists es1 id' t ok' es2, es = es1 ++ Ends id' t ok' v :: es2 /\ shows has_attr md5 depth ttl default es1 (Ends id' t ok' v) = Returns f c v)
  \/ collision md5.
Proof.
  intros has_attr md5 depth ttl default program es id f c now ok v A F C S.
  destruct (hit _ _ _ _ _ _ _ _ _ _ _ _ _ A F C S) as [(es1 & id' & t & es2 & E & R & _)|X]; [left | right; exact X].
  exists es1, id', t, true, es2. split; assumption.
Qed.
Print Assumptions C116_own_partial.
(** A function whose value depends only on its arguments therefore returns that value, cached or not. *)
Theorem C116_function_partial : forall has_attr md5 depth ttl default program (value : func -> call -> pv) es id f c now ok v,
  apart program -> Forall (clean_event has_attr program) es -> clean has_attr program f c ->
  (forall es1 id' t ok' w g d es2, es = es1 ++ Ends id' t ok' w :: es2 -> shows has_attr md5 depth ttl default es1 (Ends id' t ok' w) = Returns g d w -> w = value g d) ->
  shows has_attr md5 depth ttl default es (Begins id f c now ok) = Returns f c v -> v = value f c \/ collision md5.
Proof.
  intros has_attr md5 depth ttl default program value es id f c now ok v A F C V S.
  destruct (C116_own_partial _ _ _ _ _ _ _ _ _ _ _ _ _ A F C S) as [(es1 & id' & t & ok' & es2 & E & R)|X]; [left | right; exact X].
  eapply V; eassumption.
Qed.
Print Assumptions C116_function_partial.
(** Two overlapping calls, one of them answered from the cache later. *)
Definition square : func := {| f_id := 1; f_module := u "app"; f_qual := u "square"; f_name := u "square"; f_bound := false |}.
Definition users (f : func) : Prop := In f [kind; square].
Definition of (z : Z) : call := ([PInt z], [(u "deep", PList [PStr (u "x"); PNone])]).
Definition busy : list event :=
  [Begins 0 square (of 3) 0 true; Begins 1 square (of 4) 1 true; Begins 2 square (of 3) 1 true; Ends 1 2 true (PInt 16);
   Ends 0 2 true (PInt 9); Begins 3 kind (of 3) 3 true; Ends 2 3 false (PInt 9)].
Lemma users_apart : apart users.
Proof.
  split.
  - intros f I. repeat (destruct I as [<-|I]; [vm_compute; intuition discriminate|]). contradiction.
  - intros f g [<-|[<-|[]]] [<-|[<-|[]]]; intros E; try reflexivity; vm_compute in E; discriminate.
Qed.
Lemma of_clean f z : users f -> clean (fun _ _ => false) users f (of z).
Proof.
  intros U. refine (conj U (conj _ (conj _ _))).
  - refine (conj _ (conj _ _)); cbn [fst snd of map].
    + repeat constructor.
    + constructor; [intros []|constructor].
    + constructor; [|constructor]. cbn [fst snd plain fold_right map]. refine (conj _ (conj _ (conj I I))); apply ascii_scalar; reflexivity.
  - destruct U as [<-|[<-|[]]]; reflexivity.
  - reflexivity.
Qed.
Lemma busy_clean : Forall (clean_event (fun _ _ => false) users) busy.
Proof. unfold busy. repeat (apply Forall_cons; [first [exact I | apply of_clean; cbn; auto]|]). apply Forall_nil. Qed.
Example C116_case : shows (fun _ _ => false) (fun t => t) 5 (fun _ => Some 10%Z) None busy (Begins 4 square (of 3) 9 true) = Returns square (of 3) (PInt 9).
Proof. vm_compute. reflexivity. Qed.

(** ** C118.  While a result lives the function is not run again for it. *)
Definition C118_statement (has_attr : pv -> str -> bool) : Prop :=
  forall md5 depth ttl default es1 id t v es2 f c id' now,
  shows has_attr md5 depth ttl default es1 (Ends id t true v) = Returns f c v ->
  json_encode DEFAULT_ENCODER_TYPES None false depth v = Some v ->
  ttl f <> Some 0%Z -> in_life (ttl f) default t now -> Forall (between t now) es2 -> (forall ok, ~ In (Invalidates f c ok) es2) ->
  (exists v', shows has_attr md5 depth ttl default (es1 ++ Ends id t true v :: es2) (Begins id' f c now true) = Returns f c v') \/ collision md5.
Theorem C118_none_refuted : forall has_attr, ~ C118_statement has_attr.
Proof.
  intros h S. destruct (S (fun t => t) 5%nat (fun _ => None) None [Begins 0 kind ([], []) 0 true] 0%nat 0%Z PNone [] kind ([], []) 1%nat 0%Z) as [(v & X)|X].
  - vm_compute. reflexivity. - reflexivity. - discriminate. - exact I. - constructor. - intros ok [].
  - vm_compute in X. discriminate X.
  - exact (no_collision X).
Qed.
Print Assumptions C118_none_refuted.
(** Nor does a call wait for another that is running the function for the same arguments. *)
Definition C118_single_statement (has_attr : pv -> str -> bool) : Prop :=
  forall md5 depth ttl default es1 id f c t es2 id' now ok ok',
  shows has_attr md5 depth ttl default es1 (Begins id f c t ok) = Runs f c -> (forall t' ok v, ~ In (Ends id t' ok v) es2) ->
  shows has_attr md5 depth ttl default (es1 ++ Begins id f c t ok :: es2) (Begins id' f c now ok') <> Runs f c.
Theorem C118_single_refuted : forall has_attr, ~ C118_single_statement has_attr.
Proof.
  intros h S. apply (S (fun t => t) 5%nat (fun _ => None) None [] 0%nat kind ([], []) 0%Z [] 1%nat 0%Z true true); [vm_compute; reflexivity | intros t ok v [] | vm_compute; reflexivity].
Qed.
Print Assumptions C118_single_refuted.

Lemma other_key k k' : seqb k k' = false -> k <> k'.
Proof. intros Q ->. rewrite seqb_refl in Q. discriminate. Qed.
Lemma life_expires (ttl : func -> option Z) default f t now e : ttl f <> Some 0%Z -> in_life (ttl f) default t now -> expires ttl default f t = Some e -> (now <= e)%Z.
Proof.
  unfold expires, ttl_of, in_life. intros N L. destruct (ttl f) as [x|].
  - destruct (Z.eqb x 0) eqn:Q; [apply Z.eqb_eq in Q; congruence|]. rewrite Q. intros [= <-]. exact L.
  - destruct default as [x|]; [|discriminate]. destruct (Z.eqb x 0); [discriminate|]. intros [= <-]. exact L.
Qed.
Lemma later_life (ttl : func -> option Z) default f t t' now : (t <= t')%Z -> in_life (ttl f) default t now -> in_life (ttl f) default t' now.
Proof. unfold in_life. destruct (ttl f), default; lia. Qed.
Definition at_hand (k : str) (now : Z) (m : mstate) : Prop :=
  exists data e w, dget k (m_store m) = Some (data, e) /\ (forall x, e = Some x -> (now <= x)%Z) /\ restored data = Some w /\ w <> PNone.
Lemma at_hand_hit h md5 depth ttl default es f c k now id : generate_cache_key h md5 depth f c = Some k -> at_hand k now (after h md5 depth ttl default es) ->
  exists v, shows h md5 depth ttl default es (Begins id f c now true) = Returns f c v.
Proof.
  intros K (data & e & w & G & X & R & NN). unfold shows. cbn [memo_step]. rewrite K. unfold lookup, cache_get. rewrite G.
  replace (match e with Some e => (e <? now)%Z | None => false end) with false by (destruct e as [e|]; [symmetry; apply Z.ltb_ge, X; reflexivity | reflexivity]).
  rewrite R. destruct w; try contradiction; eexists; reflexivity.
Qed.
Theorem C118_live_partial : forall has_attr md5 depth ttl default program es1 id t v es2 f c id' now,
  apart program -> Forall (clean_event has_attr program) (es1 ++ Ends id t true v :: es2) ->
  (forall i a ok w, In (Ends i a ok w) es2 -> w <> PNone) ->
  shows has_attr md5 depth ttl default es1 (Ends id t true v) = Returns f c v -> v <> PNone ->
  json_encode DEFAULT_ENCODER_TYPES None false depth v = Some v ->
  ttl f <> Some 0%Z -> in_life (ttl f) default t now -> Forall (between t now) es2 -> (forall ok, ~ In (Invalidates f c ok) es2) ->
  (exists v', shows has_attr md5 depth ttl default (es1 ++ Ends id t true v :: es2) (Begins id' f c now true) = Returns f c v') \/ collision md5.
Proof.
  intros h md5 depth ttl default program es1 id t v es2 f c id' now A F NN S Nv J T0 L B NI.
  assert (C : clean h program f c) by (apply Forall_app in F; eapply returns_clean; [exact (proj1 F) | exact S]).
  assert (K : exists k, generate_cache_key h md5 depth f c = Some k /\ fst (memo_step h md5 depth ttl default (after h md5 depth ttl default es1) (Ends id t true v))
     = {| m_store := keep depth true t k v (ttl_of (ttl f) default) (m_store (after h md5 depth ttl default es1));
          m_running := filter (fun e => negb (Nat.eqb (fst e) id)) (m_running (after h md5 depth ttl default es1)) |}).
  { revert S. unfold shows. cbn [memo_step]. destruct (running id _) as [[g d]|]; [|discriminate]. destruct (generate_cache_key h md5 depth g d) as [k|] eqn:K; [|discriminate].
    cbn [snd fst]. intros [= -> ->]. exists k. split; [exact K | reflexivity]. }
  destruct K as (k & K & ST).
  enough (H : at_hand k now (after h md5 depth ttl default (es1 ++ Ends id t true v :: es2)) \/ collision md5).
  { destruct H as [H|H]; [left | right; exact H]. eapply at_hand_hit; eassumption. }
  induction es2 as [|x es2 IH] using rev_ind.
  - left. rewrite after_app. cbn [fold_left]. rewrite ST. unfold keep, cache_set, at_hand. cbn [m_store].
    assert (P : plain v) by (apply Forall_app in F; destruct F as [_ F]; inversion_clear F; assumption).
    destruct (stored depth v) as [b|] eqn:SB.
    + rewrite dget_dset_same. exists b, (expires ttl default f t), v. refine (conj eq_refl (conj _ (conj (stored_back depth v b P SB) Nv))).
      intros x. apply life_expires; assumption.
    + exfalso. revert SB J. unfold stored, json_encode. destruct (json_text _ _ _ depth v) as [tx|] eqn:TX; [|discriminate]. intros SB _.
      revert TX. unfold json_text. destruct (conv _ depth v) as [j|] eqn:CV; [|discriminate]. apply (conv_plain depth v j P) in CV. subst j.
      destruct (plain_facts v P) as (W & _). unfold dumps. rewrite (writable_finite _ W). intros [= <-].
      assert (E : encode (write false (as_json v)) = Some (utf8_enc (write false (as_json v)))) by (apply encode_some; split; [apply scalar_unicode, write_scalar, W | reflexivity]).
      congruence.
  - assert (F' : Forall (clean_event h program) (es1 ++ Ends id t true v :: es2) /\ clean_event h program x).
    { rewrite app_comm_cons, app_assoc in F. apply Forall_app in F. destruct F as [F X]. inversion_clear X. split; assumption. }
    destruct F' as [F' CX]. apply Forall_app in B. destruct B as [B BX]. inversion_clear BX as [|? ? BX' _].
    destruct IH as [IH|IH]; auto.
    { intros i a o w I. apply (NN i a o w). rewrite in_app_iff. tauto. }
    { intros o I. apply (NI o). rewrite in_app_iff. tauto. }
    rewrite app_comm_cons, app_assoc, after_snoc. set (pre := es1 ++ Ends id t true v :: es2) in *.
    destruct IH as (data & e & w & G & X & R & NNw).
    destruct x as [i g d a ok|i a ok w'|g d ok]; cbn [memo_step].
    + left. exists data, e, w. refine (conj _ (conj X (conj R NNw))). destruct (generate_cache_key h md5 depth g d) as [k'|]; [|exact G].
      destruct (lookup ok a k' (m_store (after h md5 depth ttl default pre))) as [s o] eqn:LK.
      assert (GS : dget k s = Some (data, e)).
      { revert LK. unfold lookup. destruct ok; [|intros [= <- _]; exact G]. unfold cache_get. destruct (dget k' _) as [[data' e']|] eqn:G'; [|intros [= <- _]; exact G].
        destruct (match e' with Some e => (e <? a)%Z | None => false end) eqn:EX.
        - intros [= <- _]. unfold cache_delete. destruct (seqb k k') eqn:Q; [|rewrite dget_ddel_other; [exact G | apply other_key, Q]].
          apply seqb_eq in Q. subst k'. exfalso. assert (e' = e) by congruence. subst e'. destruct e as [e|]; [|discriminate]. apply Z.ltb_lt in EX.
          specialize (X e eq_refl). unfold between in BX'. cbn [time_of] in BX'. lia.
        - destruct (restored data') as [[]|]; intros [= <- _]; exact G. }
      destruct o; exact GS.
    + destruct (running i _) as [[g d]|] eqn:RU; [|left; exists data, e, w; repeat split; assumption].
      destruct (generate_cache_key h md5 depth g d) as [k'|] eqn:K'; [|left; exists data, e, w; repeat split; assumption].
      cbn [fst m_store]. unfold keep. destruct ok; [|left; exists data, e, w; repeat split; assumption]. unfold cache_set.
      destruct (stored depth w') as [b|] eqn:SB; [|left; exists data, e, w; repeat split; assumption].
      unfold at_hand. cbn [m_store]. destruct (seqb k k') eqn:Q.
      * apply seqb_eq in Q. subst k'.
        assert (SH : shows h md5 depth ttl default pre (Ends i a true w') = Returns g d w') by (unfold shows; cbn [memo_step]; rewrite RU, K'; reflexivity).
        destruct (key_inj h md5 depth program f g c d k A C (returns_clean _ _ _ _ _ _ _ _ _ _ _ _ _ F' SH) K K') as [[<- <-]|CO]; [left | right; exact CO].
        rewrite dget_dset_same. exists b, (expires ttl default f a), w'. refine (conj eq_refl (conj _ (conj (stored_back depth w' b CX SB) _))).
        -- intros x. apply life_expires; [exact T0|]. eapply later_life; [|exact L]. unfold between in BX'. cbn [time_of] in BX'. lia.
        -- apply (NN i a true w'). apply in_app_iff. right. left. reflexivity.
      * left. rewrite dget_dset_other by (apply other_key, Q). exists data, e, w. repeat split; assumption.
    + destruct (generate_cache_key h md5 depth g d) as [k'|] eqn:K'; [|left; exists data, e, w; repeat split; assumption].
      cbn [fst m_store]. destruct ok; [|left; exists data, e, w; repeat split; assumption].
      unfold at_hand. cbn [m_store]. unfold cache_delete. destruct (seqb k k') eqn:Q.
      * apply seqb_eq in Q. subst k'. destruct (key_inj h md5 depth program f g c d k A C CX K K') as [[<- <-]|CO]; [|right; exact CO].
        exfalso. apply (NI true). apply in_app_iff. right. left. reflexivity.
      * left. rewrite dget_ddel_other by (apply other_key, Q). exists data, e, w. repeat split; assumption.
Qed.
Print Assumptions C118_live_partial.
Example C118_case : exists v, shows (fun _ _ => false) (fun t => t) 5 (fun _ => Some 10%Z) None busy (Begins 4 square (of 3) 12 true) = Returns square (of 3) v.
Proof.
  destruct (C118_live_partial (fun _ _ => false) (fun t => t) 5 (fun _ => Some 10%Z) None users (firstn 4 busy) 0 2 (PInt 9) (skipn 5 busy) square (of 3) 4 12
    users_apart) as [H|H].
  - exact busy_clean. - intros i a ok w [E|[E|[]]]; congruence. - vm_compute. reflexivity. - discriminate. - reflexivity. - discriminate. - vm_compute. discriminate.
  - repeat constructor; cbn; lia. - intros ok [E|[E|[]]]; discriminate.
  - exact H. - destruct (no_collision H).
Qed.

(** ** C119.  No value is returned after its life, or after it has been invalidated. *)
Definition C119_life_statement (has_attr : pv -> str -> bool) : Prop :=
  forall md5 depth ttl default program es id f c now ok v,
  apart program -> Forall (clean_event has_attr program) es -> clean has_attr program f c ->
  shows has_attr md5 depth ttl default es (Begins id f c now ok) = Returns f c v ->
  (exists es1 id' t ok' es2, es = es1 ++ Ends id' t ok' v :: es2 /\ shows has_attr md5 depth ttl default es1 (Ends id' t ok' v) = Returns f c v /\
     in_life (ttl f) default t now) \/ collision md5.
Definition still : call := ([], []).
Lemma still_clean f : users f -> clean (fun _ _ => false) users f still.
Proof.
  intros U. refine (conj U (conj (conj (Forall_nil _) (conj (NoDup_nil _) (Forall_nil _))) (conj _ _))); [destruct U as [<-|[<-|[]]]; reflexivity | reflexivity].
Qed.
(** [ttl=0] is taken for no lifetime at all. *)
Theorem C119_life_refuted : ~ C119_life_statement (fun _ _ => false).
Proof.
  intros S. destruct (S (fun t => t) 5%nat (fun _ => Some 0%Z) None users
    [Begins 0 kind still 0 true; Ends 0 0 true (PInt 1)] 1%nat kind still 1000%Z true (PInt 1) users_apart) as [X|X].
  - repeat (apply Forall_cons; [first [exact I | apply still_clean; cbn; auto]|]). apply Forall_nil.
  - apply still_clean. cbn. auto.
  - vm_compute. reflexivity.
  - destruct X as (es1 & id & t & ok & es2 & E & R & L).
    assert (T : t = 0%Z).
    { destruct es1 as [|e1 [|e2 es1]]; cbn [app] in E; [discriminate E | congruence |].
      assert (N := f_equal (@length _) E). cbn [length] in N. rewrite app_length in N. cbn in N. lia. }
    subst t. cbn in L. lia.
  - exact (no_collision X).
Qed.
Print Assumptions C119_life_refuted.
Theorem C119_life_partial : forall has_attr md5 depth ttl default program es id f c now ok v,
  apart program -> Forall (clean_event has_attr program) es -> clean has_attr program f c ->
  ttl f <> Some 0%Z -> default <> Some 0%Z ->
  shows has_attr md5 depth ttl default es (Begins id f c now ok) = Returns f c v ->
  (exists es1 id' t ok' es2, es = es1 ++ Ends id' t ok' v :: es2 /\ shows has_attr md5 depth ttl default es1 (Ends id' t ok' v) = Returns f c v /\
     in_life (ttl f) default t now) \/ collision md5.
Proof.
  intros h md5 depth ttl default program es id f c now ok v A F C T D S.
  destruct (hit _ _ _ _ _ _ _ _ _ _ _ _ _ A F C S) as [(es1 & id' & t & es2 & E & R & X & _)|X]; [left | right; exact X].
  exists es1, id', t, true, es2. refine (conj E (conj R _)). revert X. unfold expires, ttl_of, in_life. destruct (ttl f) as [x|].
  - destruct (Z.eqb x 0) eqn:Q; [apply Z.eqb_eq in Q; congruence|]. rewrite Q. intros X. now apply X.
  - destruct default as [x|]; [|auto]. destruct (Z.eqb x 0) eqn:Q; [apply Z.eqb_eq in Q; congruence|]. intros X. now apply X.
Qed.
Print Assumptions C119_life_partial.

(** After an invalidation only runs begun after it count. *)
Definition C119_fresh_statement (has_attr : pv -> str -> bool) (works : bool) : Prop :=
  forall md5 depth ttl default program es1 es2 id f c now ok v,
  let es := es1 ++ Invalidates f c works :: es2 in
  apart program -> Forall (clean_event has_attr program) es ->
  shows has_attr md5 depth ttl default es (Begins id f c now ok) = Returns f c v ->
  (exists a id' t ok' b t' ok'' d, es2 = a ++ Begins id' f c t ok' :: b ++ Ends id' t' ok'' v :: d) \/ collision md5.
(** A run that was going on stores what it found before; and the backend cannot be called from a running event loop. *)
Theorem C119_race_refuted : ~ C119_fresh_statement (fun _ _ => false) true.
Proof.
  intros S. destruct (S (fun t => t) 5%nat (fun _ => None) None users [Begins 0 kind still 0 true] [Ends 0 0 true (PInt 1)] 1%nat kind still 1%Z true (PInt 1) users_apart) as [X|X].
  - repeat (apply Forall_cons; [first [exact I | apply still_clean; cbn; auto]|]). apply Forall_nil.
  - vm_compute. reflexivity.
  - destruct X as (a & id & t & ok & b & t' & ok' & d & E). assert (N := f_equal (@length _) E). rewrite app_length in N. cbn [length] in N. rewrite app_length in N. cbn in N. lia.
  - exact (no_collision X).
Qed.
Print Assumptions C119_race_refuted.
Theorem C119_loop_refuted : ~ C119_fresh_statement (fun _ _ => false) false.
Proof.
  intros S. destruct (S (fun t => t) 5%nat (fun _ => None) None users [Begins 0 kind still 0 true; Ends 0 0 true (PInt 1)] [] 1%nat kind still 1%Z true (PInt 1) users_apart) as [X|X].
  - repeat (apply Forall_cons; [first [exact I | apply still_clean; cbn; auto]|]). apply Forall_nil.
  - vm_compute. reflexivity.
  - destruct X as (a & id & t & ok & b & t' & ok' & d & E). assert (N := f_equal (@length _) E). rewrite app_length in N. cbn [length] in N. lia.
  - exact (no_collision X).
Qed.
Print Assumptions C119_loop_refuted.

Lemma split_after {A} (x y : A) es1 es2 l1 l2 : es1 ++ x :: es2 = l1 ++ y :: l2 -> x <> y -> ~ In x l2 -> exists a, es2 = a ++ y :: l2 /\ l1 = es1 ++ x :: a.
Proof.
  revert l1. induction es1 as [|z es1 IH]; intros [|w l1]; cbn [app]; intros E N I.
  - congruence. - injection E as <- ->. exists l1. auto. - injection E as <- <-. exfalso. apply I, in_app_iff. right. left. reflexivity.
  - injection E as <- E. destruct (IH l1 E N I) as (a & -> & ->). exists a. auto.
Qed.
(** Where a run began. *)
Lemma run_began h md5 depth ttl default es : forall id f c, In (id, (f, c)) (m_running (after h md5 depth ttl default es)) ->
  generate_cache_key h md5 depth f c <> None /\ exists a t ok b, es = a ++ Begins id f c t ok :: b /\ (forall t' ok' v, ~ In (Ends id t' ok' v) b).
Proof.
  induction es as [|x es IH] using rev_ind; intros id f c; [intros []|]. rewrite after_snoc.
  assert (ADD : In (id, (f, c)) (m_running (after h md5 depth ttl default es)) -> (forall t' ok' v, x <> Ends id t' ok' v) ->
    generate_cache_key h md5 depth f c <> None /\ exists a t ok b, es ++ [x] = a ++ Begins id f c t ok :: b /\ (forall t' ok' v, ~ In (Ends id t' ok' v) b)).
  { intros I N. destruct (IH id f c I) as (K & a & t & ok & b & -> & NB). split; [exact K|]. exists a, t, ok, (b ++ [x]). rewrite <- app_assoc. split; [reflexivity|].
    intros t' ok' v J. apply in_app_iff in J. destruct J as [J|[J|[]]]; [exact (NB _ _ _ J) | exact (N _ _ _ J)]. }
  destruct x as [i g d now ok|i now ok v|g d ok]; cbn [memo_step].
  - destruct (generate_cache_key h md5 depth g d) as [k|] eqn:K; [|intros I; apply ADD; [exact I | discriminate]].
    destruct (lookup _ _ _ _) as [s [w|]]; cbn [fst m_running]; [intros I; apply ADD; [exact I | discriminate]|].
    intros [E|I]; [|apply ADD; [exact I | discriminate]]. injection E as <- <- <-. split; [congruence|]. exists es, now, ok, []. split; [reflexivity|]. intros t' ok' v [].
  - destruct (running i (m_running _)) as [[g d]|] eqn:R.
    + assert (R' : In (i, (g, d)) (m_running (after h md5 depth ttl default es))).
      { revert R. unfold running. destruct (List.find _ _) as [[j e]|] eqn:FD; [|discriminate]. cbn [option_map snd]. intros [= ->]. apply List.find_some in FD. destruct FD as [I E]. apply Nat.eqb_eq in E. cbn [fst] in E. subst j. exact I. }
      destruct (IH i g d R') as [K _]. destruct (generate_cache_key h md5 depth g d) as [k|]; [|congruence]. cbn [fst m_running]. intros I.
      apply filter_In in I. destruct I as [I E]. cbn [fst] in E. apply ADD; [exact I|]. intros t' ok' w Q. assert (i = id) by congruence. subst i. rewrite Nat.eqb_refl in E. discriminate.
    + cbn [fst]. intros I. apply ADD; [exact I|]. intros t' ok' w Q. assert (i = id) by congruence. subst i. revert R. unfold running.
      destruct (List.find _ _) eqn:FD; [discriminate|]. intros _. assert (X := List.find_none _ _ FD _ I). cbn [fst] in X. rewrite Nat.eqb_refl in X. discriminate.
  - destruct (generate_cache_key h md5 depth g d); intros I; (apply ADD; [exact I | discriminate]).
Qed.
Lemma ended_began h md5 depth ttl default es id t ok v f c : shows h md5 depth ttl default es (Ends id t ok v) = Returns f c v ->
  exists a t ok b, es = a ++ Begins id f c t ok :: b /\ (forall t' ok' v, ~ In (Ends id t' ok' v) b).
Proof.
  unfold shows. cbn [memo_step]. destruct (running id _) as [[g d]|] eqn:R; [|discriminate]. destruct (generate_cache_key h md5 depth g d); [|discriminate].
  cbn [snd]. intros [= -> ->]. apply run_began with (h := h) (md5 := md5) (depth := depth) (ttl := ttl) (default := default).
  revert R. unfold running. destruct (List.find _ _) as [[j e]|] eqn:FD; [|discriminate]. cbn [option_map snd]. intros [= ->]. apply List.find_some in FD. destruct FD as [I E]. apply Nat.eqb_eq in E. cbn [fst] in E. subst j. exact I.
Qed.
(** What is returned after an invalidation comes from a run that ended after it. *)
Theorem C119_ended_partial : forall has_attr md5 depth ttl default program es1 es2 id f c now ok v,
  let es := es1 ++ Invalidates f c true :: es2 in
  apart program -> Forall (clean_event has_attr program) es ->
  shows has_attr md5 depth ttl default es (Begins id f c now ok) = Returns f c v ->
  (exists a id' t ok' b, es2 = a ++ Ends id' t ok' v :: b /\
     shows has_attr md5 depth ttl default (es1 ++ Invalidates f c true :: a) (Ends id' t ok' v) = Returns f c v) \/ collision md5.
Proof.
  intros h md5 depth ttl default program es1 es2 id f c now ok v es A F S.
  assert (C : clean h program f c) by (apply Forall_app in F; destruct F as [_ F]; inversion_clear F; assumption).
  destruct (hit _ _ _ _ _ _ _ _ _ _ _ _ _ A F C S) as [(l1 & id' & t & l2 & E & R & _ & _ & NI)|X]; [left | right; exact X].
  unfold es in E. apply split_after in E; [|discriminate|exact NI]. destruct E as (a & -> & ->). exists a, id', t, true, l2. split; [reflexivity | exact R].
Qed.
Print Assumptions C119_ended_partial.
(** And began after it, when no run for these arguments was going on. *)
Theorem C119_idle_partial : forall has_attr md5 depth ttl default program es1 es2 id f c now ok v,
  let es := es1 ++ Invalidates f c true :: es2 in
  apart program -> Forall (clean_event has_attr program) es ->
  (forall a i t k b, es1 = a ++ Begins i f c t k :: b -> exists t' k' w, In (Ends i t' k' w) b) ->
  shows has_attr md5 depth ttl default es (Begins id f c now ok) = Returns f c v ->
  (exists a id' t ok' b t' ok'' d, es2 = a ++ Begins id' f c t ok' :: b ++ Ends id' t' ok'' v :: d) \/ collision md5.
Proof.
  intros h md5 depth ttl default program es1 es2 id f c now ok v es A F Q S.
  destruct (C119_ended_partial _ _ _ _ _ _ _ _ _ _ _ _ _ _ A F S) as [(a & id' & t & ok' & b & E & R)|X]; [left | right; exact X].
  apply ended_began in R. destruct R as (p & t0 & k0 & q & E2 & NB).
  assert (D : (exists p', p = es1 ++ Invalidates f c true :: p') \/ (exists q', es1 = p ++ Begins id' f c t0 k0 :: q' /\ q = q' ++ Invalidates f c true :: a)).
  { clear - E2. revert p E2. induction es1 as [|z es1 IH]; intros [|w p]; cbn [app]; intros E.
    - discriminate E. - injection E as <- ->. left. exists p. reflexivity.
    - injection E as <- E. right. exists es1. split; [reflexivity | congruence].
    - injection E as <- E. destruct (IH p E) as [(p' & ->)|(q' & -> & ->)]; [left; exists p' | right; exists q']; auto. }
  destruct D as [(p' & ->)|(q' & E3 & E4)].
  - rewrite <- app_assoc in E2. apply app_inv_head in E2. cbn [app] in E2. injection E2 as ->.
    exists p', id', t0, k0, q, t, ok', b. rewrite E, <- app_assoc. reflexivity.
  - exfalso. destruct (Q _ _ _ _ _ E3) as (t' & k' & w & I). apply (NB t' k' w). rewrite E4. apply in_app_iff. left. exact I.
Qed.
Print Assumptions C119_idle_partial.
Definition renewed : list event := [Begins 5 square (of 3) 4 true; Ends 5 5 true (PInt 10)].
Example C119_case : shows (fun _ _ => false) (fun t => t) 5 (fun _ => Some 10%Z) None (busy ++ Invalidates square (of 3) true :: renewed) (Begins 6 square (of 3) 9 true) = Returns square (of 3) (PInt 10)
  /\ shows (fun _ _ => false) (fun t => t) 5 (fun _ => Some 10%Z) None (busy ++ [Invalidates square (of 3) true]) (Begins 6 square (of 3) 9 true) = Runs square (of 3)
  /\ Forall (clean_event (fun _ _ => false) users) (busy ++ Invalidates square (of 3) true :: renewed).
Proof.
  refine (conj _ (conj _ _)); [vm_compute; reflexivity | vm_compute; reflexivity|]. apply Forall_app. split; [exact busy_clean|].
  unfold renewed. repeat (apply Forall_cons; [first [exact I | apply of_clean; cbn; auto]|]). apply Forall_nil.
Qed.
Example C119_idle_case : forall a i t k b, busy = a ++ Begins i square (of 3) t k :: b -> exists t' k' w, In (Ends i t' k' w) b.
Proof.
  intros a i t k b E. unfold busy in E.
  do 7 (destruct a as [|? a]; [cbn [app] in E; try discriminate E; injection E as <- <- <- <-; cbn [In]; eauto 12|]; cbn [app] in E; injection E as _ E). destruct a; discriminate E.
Qed.

(** A method is called with its object before the arguments, and invalidated through the object. *)
Definition bound_to (f : func) : func := {| f_id := f_id f; f_module := f_module f; f_qual := f_qual f; f_name := f_name f; f_bound := true |}.
Definition C119_method_statement (has_attr : pv -> str -> bool) : Prop :=
  forall md5 depth ttl default es f self args kwargs id now ok v, has_attr self (f_name f) = true ->
  shows has_attr md5 depth ttl default (es ++ [Invalidates (bound_to f) (args, kwargs) true]) (Begins id f (self :: args, kwargs) now ok) <> Returns f (self :: args, kwargs) v.
(** The first argument is dropped from the key of a bound method. *)
Theorem C119_method_refuted : ~ C119_method_statement (fun v _ => match v with PData _ _ => true | _ => false end).
Proof.
  intros S. apply (S (fun t => t) 5%nat (fun _ => None) None [Begins 0 kind ([PData (u "Service") []; PInt 1], []) 0 true; Ends 0 0 true (PInt 7)]
    kind (PData (u "Service") []) [PInt 1] [] 1%nat 0%Z true (PInt 7)); vm_compute; reflexivity.
Qed.
Print Assumptions C119_method_refuted.
(** Without positional arguments it works. *)
Theorem C119_method_partial : forall has_attr md5 depth ttl default es f self kwargs id now ok v, has_attr self (f_name f) = true ->
  shows has_attr md5 depth ttl default (es ++ [Invalidates (bound_to f) ([], kwargs) true]) (Begins id f ([self], kwargs) now ok) <> Returns f ([self], kwargs) v.
Proof.
  intros h md5 depth ttl default es f self kwargs id now ok v HA.
  assert (K : generate_cache_key h md5 depth (bound_to f) ([], kwargs) = generate_cache_key h md5 depth f ([self], kwargs)).
  { unfold generate_cache_key, key_text, encoded_args, bound_method. cbn [fst snd bound_to f_bound f_name orb tl]. rewrite HA, orb_true_r. reflexivity. }
  unfold shows. rewrite after_snoc. cbn [memo_step]. rewrite K. destruct (generate_cache_key h md5 depth f ([self], kwargs)) as [k|]; [|discriminate].
  cbn [fst m_store]. unfold lookup, cache_get, cache_delete. destruct ok; [rewrite dget_ddel_same|]; discriminate.
Qed.
Print Assumptions C119_method_partial.

(** ** C117.  Cached functions that call cached functions return what they would return without the decorator. *)
Definition C117_statement (sync : bool) : Prop :=
  forall has_attr md5 depth ttl default code program (calls : func -> call -> Prop) now n b v,
  apart program -> (forall f c, calls f c -> clean has_attr program f c /\ generate_cache_key has_attr md5 depth f c <> None) ->
  (forall f c, calls f c -> calls_only calls (code f c)) -> calls_only calls b -> plainly code n b = Some v ->
  (exists s, cached has_attr md5 depth ttl default sync code now n false b [] = Some (Gives v s)) \/ collision md5.
(** Without the decorator, one more level of calls changes nothing. *)
Lemma plainly_unfold code n b : plainly code (S n) b =
  match b with Return v => Some v | Calls f c next => match plainly code n (code f c) with Some v => plainly code (S n) (next v) | None => None end end.
Proof. destruct b; reflexivity. Qed.
Lemma plainly_more code n : forall b v, plainly code n b = Some v -> plainly code (S n) b = Some v.
Proof.
  induction n as [|n IH]; [discriminate|]. intros b. induction b as [w|f c next IHb]; intros v; rewrite (plainly_unfold code n), (plainly_unfold code (S n)); [auto|].
  destruct (plainly code n (code f c)) as [w|] eqn:E; [|discriminate]. rewrite (IH _ _ E). apply IHb.
Qed.
Lemma plainly_le code n m b v : (n <= m)%nat -> plainly code n b = Some v -> plainly code m b = Some v.
Proof. induction 1; [auto|]. intros E. apply plainly_more. auto. Qed.
Lemma plainly_plain code (P : func -> call -> Prop) : (forall f c, P f c -> calls_only P (code f c)) ->
  forall n b v, calls_only P b -> plainly code n b = Some v -> plain v.
Proof.
  intros H. induction n as [|n IH]; [discriminate|]. intros b. induction b as [w|f c next IHb]; intros v C; rewrite plainly_unfold; cbn [calls_only] in C; [intros [= <-]; exact C|].
  destruct (plainly code n (code f c)) as [w|] eqn:E; [|discriminate]. apply IHb, C.
Qed.
Section Nested.
Context (has_attr : pv -> str -> bool) (md5 : str -> str) (depth : nat) (ttl : func -> option Z) (default : option Z).
Context (code : func -> call -> body) (program : func -> Prop) (calls : func -> call -> Prop) (now : Z) (sync : bool).
Notation key := (generate_cache_key has_attr md5 depth).
Notation clean := (clean has_attr program).
Notation cached := (cached has_attr md5 depth ttl default sync code now).
Lemma cached_unfold n held b s : cached (S n) held b s =
  match b with
  | Return v => Some (Gives v s)
  | Calls f c next =>
      match key f c with
      | None => Some Raised
      | Some k => if held then Some Deadlock else
          match lookup true now k s with
          | (s, Some v) => cached (S n) held (next v) s
          | (s, None) => match cached n sync (code f c) s with
                         | Some (Gives v s) => cached (S n) held (next v) (keep depth true now k v (ttl_of (ttl f) default) s)
                         | o => o
                         end
          end
      end
  end.
Proof. destruct b; reflexivity. Qed.
Definition faithful (s : store) : Prop := forall k data e, dget k s = Some (data, e) ->
  exists f c w m, clean f c /\ key f c = Some k /\ plainly code m (code f c) = Some w /\ plain w /\ stored depth w = Some data.
Lemma faithful_lookup ok k s s' o : lookup ok now k s = (s', o) -> faithful s -> faithful s'.
Proof. intros L F k' data e G. eapply F. eapply lookup_keeps; eassumption. Qed.
Hypothesis A : apart program.
Hypothesis CK : forall f c, calls f c -> clean f c /\ key f c <> None.
Hypothesis H : forall f c, calls f c -> calls_only calls (code f c).
Hypothesis LEAF : sync = true -> forall f c, calls f c -> exists v, code f c = Return v.
Lemma cached_faithful n : forall b v s, faithful s -> calls_only calls b -> plainly code n b = Some v ->
  (exists s', cached n false b s = Some (Gives v s') /\ faithful s') \/ collision md5.
Proof.
  induction n as [|n IH]; [discriminate|]. intros b. induction b as [w|f c next IHb]; intros v s F C; rewrite plainly_unfold, cached_unfold; cbn [calls_only] in C.
  - intros [= <-]. left. exists s. auto.
  - destruct (plainly code n (code f c)) as [w|] eqn:E; [|discriminate]. intros V. destruct C as [Cf Cn].
    destruct (key f c) as [k|] eqn:K; [|destruct (CK f c Cf); congruence].
    assert (Pw : plain w) by (eapply plainly_plain; [exact H | apply H, Cf | exact E]).
    destruct (lookup true now k s) as [s' [x|]] eqn:L.
    + assert (X : x = w \/ collision md5).
      { revert L. unfold lookup, cache_get. destruct (dget k s) as [[data e]|] eqn:G; [|discriminate].
        destruct (match e with Some e => (e <? now)%Z | None => false end); [discriminate|]. intros L.
        assert (R : restored data = Some x) by (destruct (restored data) as [[]|]; congruence).
        destruct (F _ _ _ G) as (g & d & y & m & Cg & Kg & Eg & Py & Sy). rewrite (stored_back depth y data Py Sy) in R.
        destruct (key_inj has_attr md5 depth program f g c d k A (proj1 (CK f c Cf)) Cg K Kg) as [[<- <-]|CO]; [|right; exact CO].
        left. apply (plainly_le code _ (Nat.max n m)) in Eg; [|lia]. apply (plainly_le code _ (Nat.max n m)) in E; [|lia]. congruence. }
      destruct X as [->|X]; [|right; exact X]. eapply IHb; [eapply faithful_lookup; eassumption | apply Cn | exact V].
    + assert (F' : faithful s') by (eapply faithful_lookup; eassumption).
      assert (R : (exists s2, cached n sync (code f c) s' = Some (Gives w s2) /\ faithful s2) \/ collision md5).
      { destruct sync eqn:SY; [|apply IH; [exact F' | apply H, Cf | exact E]].
        destruct (LEAF eq_refl f c Cf) as [y Y]. rewrite Y in *. destruct n as [|n]; [discriminate E|]. cbn in E. injection E as ->. left. exists s'. split; [reflexivity | exact F']. }
      destruct R as [(s2 & -> & F2)|X]; [|right; exact X].
      apply IHb; [|apply Cn|exact V]. unfold keep, cache_set. destruct (stored depth w) as [data|] eqn:ST; [|exact F2].
      intros k' data' e' G. destruct (seqb k' k) eqn:Q.
      * apply seqb_eq in Q. subst k'. rewrite dget_dset_same in G. injection G as <- _. exists f, c, w, n. destruct (CK f c Cf). auto 8.
      * rewrite dget_dset_other in G by (apply other_key, Q). eapply F2, G.
Qed.
End Nested.
Theorem C117_async : C117_statement false.
Proof.
  intros h md5 depth ttl default code program calls now n b v A CK H C E.
  destruct (cached_faithful h md5 depth ttl default code program calls now false A CK H ltac:(discriminate) n b v []) as [(s & X & _)|X]; auto; [discriminate|].
  left. exists s. exact X.
Qed.
Print Assumptions C117_async.
(** Synchronous functions share one lock: the inner call waits for the outer one. *)
Definition total (f : func) (c : call) : body :=
  if Nat.eqb (f_id f) 1 then Calls kind still (fun v => match v with PInt z => Return (PInt (z + 1)) | _ => Return PNone end) else Return (PInt 1).
Definition quiet (f : func) (c : call) : Prop := users f /\ c = still.
Lemma quiet_total f c : quiet f c -> calls_only quiet (total f c).
Proof. intros [[<-|[<-|[]]] _]; [exact I|]. split; [split; [left|]; reflexivity|]. intros []; exact I. Qed.
Lemma quiet_clean f c : quiet f c -> clean (fun _ _ => false) users f c /\ generate_cache_key (fun _ _ => false) (fun t => t) 5 f c <> None.
Proof. intros [U ->]. split; [apply still_clean, U|]. destruct U as [<-|[<-|[]]]; vm_compute; discriminate. Qed.
Definition asks : body := Calls square still (fun v => match v with PInt z => Calls kind still (fun _ => Return (PInt z)) | _ => Return PNone end).
Lemma quiet_asks : calls_only quiet asks.
Proof. split; [split; [right; left|]; reflexivity|]. intros []; try exact I. split; [split; [left|]; reflexivity|]. intros _. exact I. Qed.
Theorem C117_sync_refuted : ~ C117_statement true.
Proof.
  intros S. destruct (S (fun _ _ => false) (fun t => t) 5%nat (fun _ => None) None total users quiet 0%Z 3%nat asks (PInt 2) users_apart quiet_clean quiet_total quiet_asks) as [(s & X)|X].
  - vm_compute. reflexivity.
  - vm_compute in X. discriminate X.
  - exact (no_collision X).
Qed.
Print Assumptions C117_sync_refuted.
Theorem C117_sync_partial : forall has_attr md5 depth ttl default code program (calls : func -> call -> Prop) now n b v,
  apart program -> (forall f c, calls f c -> clean has_attr program f c /\ generate_cache_key has_attr md5 depth f c <> None) ->
  (forall f c, calls f c -> exists w, code f c = Return w /\ plain w) -> calls_only calls b -> plainly code n b = Some v ->
  (exists s, cached has_attr md5 depth ttl default true code now n false b [] = Some (Gives v s)) \/ collision md5.
Proof.
  intros h md5 depth ttl default code program calls now n b v A CK H C E.
  destruct (cached_faithful h md5 depth ttl default code program calls now true A CK) with (n := n) (b := b) (v := v) (s := @nil (str * (str * option Z))) as [(s & X & _)|X]; auto.
  - intros f c Q. destruct (H f c Q) as (w & -> & P). exact P.
  - intros _ f c Q. destruct (H f c Q) as (w & -> & P). exists w. reflexivity.
  - discriminate.
  - left. exists s. exact X.
Qed.
Print Assumptions C117_sync_partial.
Example C117_case : exists s, cached (fun _ _ => false) (fun t => t) 5 (fun _ => None) None false total 0 3 false asks [] = Some (Gives (PInt 2) s).
Proof.
  destruct (C117_async (fun _ _ => false) (fun t => t) 5%nat (fun _ => None) None total users quiet 0%Z 3%nat asks (PInt 2) users_apart quiet_clean quiet_total quiet_asks) as [X|X].
  - vm_compute. reflexivity. - exact X. - destruct (no_collision X).
Qed.
Example C117_sync_case : exists s, cached (fun _ _ => false) (fun t => t) 5 (fun _ => None) None true (fun _ _ => Return (PInt 1)) 0 3 false asks [] = Some (Gives (PInt 1) s).
Proof.
  destruct (C117_sync_partial (fun _ _ => false) (fun t => t) 5%nat (fun _ => None) None (fun _ _ => Return (PInt 1)) users quiet 0%Z 3%nat asks (PInt 1) users_apart quiet_clean) as [X|X].
  - intros f c _. exists (PInt 1). split; [reflexivity | exact I]. - exact quiet_asks. - vm_compute. reflexivity. - exact X. - destruct (no_collision X).
Qed.
