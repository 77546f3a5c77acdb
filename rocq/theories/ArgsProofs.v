(** Lemmas for C50, C90 and C91. *)
From Verif Require Import PyStr PyStrFacts EnvSpec EnvProofs ArgsModel ArgsSpec.

(** The levels. *)
Lemma fold_levels {P} (ls : list (dict P)) n p : Forall (fun l => NoDup (dkeys l)) ls -> innermost ls n p -> forall d, dget n (fold_left dupdate ls d) = Some p.
Proof.
  induction ls as [|l ls IH] using rev_ind; intros F (i & l0 & A & B & D) d; [destruct i; discriminate|]. rewrite fold_left_app. cbn [fold_left]. apply Forall_app in F. destruct F as [F1 F2]. apply Forall_inv in F2.
  rewrite dget_dupdate_last, last_nodup by exact F2. destruct (lt_dec i (length ls)) as [L|L].
  - rewrite (D (length ls) l L); [|rewrite nth_error_app2, Nat.sub_diag by lia; reflexivity]. apply IH; [exact F1|]. rewrite nth_error_app1 in A by exact L. exists i, l0. refine (conj A (conj B _)).
    intros j l' J E. apply (D j l' J). rewrite nth_error_app1; [exact E|]. apply nth_error_Some. rewrite E. discriminate.
  - rewrite nth_error_app2 in A by lia. destruct (i - length ls) as [|k] eqn:K; [|destruct k; discriminate]. injection A as ->. rewrite B. reflexivity.
Qed.
Lemma fold_levels_none {P} (ls : list (dict P)) n : Forall (fun l => dget n l = None) ls -> forall d, dget n d = None -> dget n (fold_left dupdate ls d) = None.
Proof.
  induction 1 as [|l ls H _ IH]; intros d D; [exact D|]. cbn [fold_left]. apply IH. rewrite dget_dupdate_last. destruct (last_value n l) as [v|] eqn:E; [|exact D].
  exfalso. rewrite last_rev in E. apply dget_None_keys in H. apply H. clear - E. assert (G : In n (dkeys (rev l))).
  { destruct (in_dec (list_eq_dec N.eq_dec) n (dkeys (rev l))) as [G|G]; [exact G|]. apply dget_None_keys in G. congruence. }
  unfold dkeys in *. rewrite map_rev in G. apply in_rev. exact G.
Qed.
Section Lemmas.
Context {V C P : Type} (none : V) (of_text : str -> V) (of_texts : list str -> V) (do_cast : C -> V -> casted V).
Implicit Types (r : request V) (f : field V C) (e : surroundings V P) (s : signature V C P).
Notation bind := (bind (P:=P) none of_text of_texts do_cast).
Notation bound_value := (bound_value none of_text of_texts do_cast).

(** [bind] over a background [p]. *)
Lemma bind_over r s (p : dict (arg V)) : forall a b, (forall n, dget n a = match dget n b with Some v => Some v | None => dget n p end) ->
  match bind r s a, bind r s b with
  | Args a', Args b' => forall n, dget n a' = match dget n b' with Some v => Some v | None => dget n p end
  | Fails x, Fails y => x = y
  | _, _ => False
  end.
Proof.
  induction s as [|(n, d) s IH]; intros a b H; [exact H|]. destruct d as [|v|f| |q]; cbn [ArgsModel.bind]; try (apply IH; exact H).
  destruct (bound_value r n f) as [v|x]; [|reflexivity]. apply IH. intros m. destruct (list_eq_dec N.eq_dec m n) as [-> | E].
  - rewrite !dget_dset_same. reflexivity.
  - rewrite !dget_dset_other by congruence. apply H.
Qed.
Lemma dset_nodup' {A} k (v : A) d : NoDup (dkeys d) -> NoDup (dkeys (dset k v d)).
Proof.
  unfold dkeys. induction d as [|(k', w) d IH]; cbn; intros H; [constructor; [exact (fun x => x)|constructor]|]. inversion H as [|? ? Q W]. destruct (seqb k k') eqn:E; cbn.
  - apply seqb_eq in E. subst. constructor; assumption.
  - constructor; [|apply IH; exact W]. intros I. apply Q. clear - I E. induction d as [|(a, b) d IHd]; cbn in *.
    + destruct I as [-> | []]. rewrite seqb_refl in E. discriminate.
    + destruct (seqb k a) eqn:F; cbn in I; destruct I as [I|I]; [left; apply seqb_eq in F; congruence|right; exact I|left; exact I|right; apply IHd; exact I].
Qed.
Lemma bind_nodup r s : forall a a', NoDup (dkeys a) -> bind r s a = Args a' -> NoDup (dkeys a').
Proof.
  induction s as [|(n, d) s IH]; intros a a' H E; [injection E as <-; exact H|]. destruct d as [|v|f| |q]; cbn [ArgsModel.bind] in E; try (eapply IH; eassumption).
  destruct (bound_value r n f); [|discriminate]. eapply IH; [|exact E]. apply dset_nodup'. exact H.
Qed.
Lemma bind_other r s n : (forall f, ~ In (n, Bound f) s) -> forall a a', bind r s a = Args a' -> dget n a' = dget n a.
Proof.
  induction s as [|(m, d) s IH]; intros Q a a' E; [injection E as <-; reflexivity|]. assert (W : forall f, ~ In (n, Bound f) s) by (intros f I; exact (Q f (or_intror I))).
  destruct d as [|v|f| |q]; cbn [ArgsModel.bind] in E; try (eapply IH; eassumption).
  destruct (bound_value r m f); [|discriminate]. rewrite (IH W _ _ E). apply dget_dset_other. intros ->. exact (Q f (or_introl eq_refl)).
Qed.
Lemma bind_own r s n f : NoDup (names s) -> In (n, Bound f) s -> forall a a', bind r s a = Args a' -> exists v, bound_value r n f = inl v /\ dget n a' = Some v.
Proof.
  unfold names. induction s as [|(m, d) s IH]; intros D I a a' E; [destruct I|]. cbn [map fst] in D. apply NoDup_cons_iff in D. destruct D as [D1 D2]. destruct I as [[= -> ->]|I].
  - cbn [ArgsModel.bind] in E. destruct (bound_value r n f) as [v|]; [|discriminate]. exists v. split; [reflexivity|]. rewrite (bind_other r s n) with (a := dset n v a); [apply dget_dset_same| |exact E].
    intros g J. apply D1. exact (in_map fst _ _ J).
  - destruct d as [|w|g| |q]; cbn [ArgsModel.bind] in E; try (eapply IH; eassumption). destruct (bound_value r m g); [|discriminate]. eapply IH; eassumption.
Qed.
Lemma bind_fails r s n f : In (n, Bound f) s -> (exists x, bound_value r n f = inr x) -> forall a, exists x, bind r s a = Fails x.
Proof.
  intros I (x & X). induction s as [|(m, d) s IH]; [destruct I|]. intros a. destruct I as [[= -> ->]|I].
  - cbn [ArgsModel.bind]. rewrite X. eexists; reflexivity.
  - destruct d as [|w|g| |q]; cbn [ArgsModel.bind]; try (apply IH; exact I). destruct (bound_value r m g); [|eexists; reflexivity]. apply IH. exact I.
Qed.
Lemma bind_first r n f x s2 : bound_value r n f = inr x -> forall s1, (forall m g, In (m, Bound g) s1 -> exists v, bound_value r m g = inl v) ->
  forall a, bind r (s1 ++ (n, Bound f) :: s2) a = Fails x.
Proof.
  intros X. induction s1 as [|(m, d) s1 IH]; intros H a; cbn [app ArgsModel.bind]; [rewrite X; reflexivity|].
  assert (W : forall m g, In (m, Bound g) s1 -> exists v, bound_value r m g = inl v) by (intros m' g I; exact (H _ _ (or_intror I))).
  destruct d as [|w|g| |q]; try (apply IH; exact W). destruct (H m g (or_introl eq_refl)) as (v & ->). apply IH. exact W.
Qed.
(** [bound_value] against the specification. *)
Lemma key_asked n f : key_of n f = asked n f.
Proof. unfold key_of, asked. destruct (fkind f), (alias f) as [[|]|]; reflexivity. Qed.
Lemma value_eq r n f : bound_value r n f =
  let ts := sent r n f in
  let raw := match ts with [] => None | [t] => Some (of_text t) | _ => Some (of_texts ts) end in
  if required f && match ts with [] => true | _ => false end then inr (Unprocessable (asked n f))
  else match resolve_bound none do_cast f raw with Cast v => inl (Val v) | BadValue => inr (Unprocessable (asked n f)) | Raised w => inr (Other w) end.
Proof.
  unfold ArgsModel.bound_value, sent, raw_value. rewrite key_asked. destruct (fkind f); cbv zeta.
  - destruct (query_values r _) as [|t [|t' ts]]; reflexivity.
  - destruct (header_values r _) as [|t [|t' ts]]; reflexivity.
  - destruct (cookie_value r _) as [t|]; reflexivity.
Qed.
Lemma value_reads r n f v : bound_value r n f = inl v -> exists w, v = Val w /\ reads none of_text of_texts do_cast f (sent r n f) w.
Proof.
  rewrite value_eq. cbv zeta. unfold resolve_bound. destruct (sent r n f) as [|t [|t' ts]]; rewrite ?andb_true_r, ?andb_false_r.
  - destruct (required f) eqn:Q; [discriminate|]. destruct (fdefault f) as [d|] eqn:D.
    + destruct (cast f) as [c|] eqn:K; [destruct (do_cast c d) as [w| |] eqn:W|]; try discriminate; intros [= <-]; eexists; (split; [reflexivity|]); (eapply reads_default; [exact Q|exact D|]); unfold converted; rewrite K; [exact W|reflexivity].
    + intros [= <-]. eexists; split; [reflexivity|]. apply reads_none; assumption.
  - destruct (cast f) as [c|] eqn:K; [destruct (do_cast c (of_text t)) as [w| |] eqn:W|]; try discriminate; intros [= <-]; eexists; (split; [reflexivity|]); apply reads_one; unfold converted; rewrite K; [exact W|reflexivity].
  - destruct (cast f) as [c|] eqn:K; [destruct (do_cast c (of_texts (t :: t' :: ts))) as [w| |] eqn:W|]; try discriminate; intros [= <-]; eexists; (split; [reflexivity|]); apply reads_many; unfold converted; rewrite K; [exact W|reflexivity].
Qed.
Lemma reads_value r n f w : reads none of_text of_texts do_cast f (sent r n f) w -> bound_value r n f = inl (Val w).
Proof.
  rewrite value_eq. cbv zeta. intros R. unfold resolve_bound. inversion R as [Q D|d v Q D K|t v K|t t' ts v K]; rewrite ?andb_false_r; [rewrite Q, D; reflexivity|rewrite Q, D| |]; cbn [andb]; unfold converted in K; destruct (cast f); rewrite K; reflexivity.
Qed.
Lemma value_bad r n f : unprocessable of_text of_texts do_cast f (sent r n f) -> bound_value r n f = inr (Unprocessable (asked n f)).
Proof.
  rewrite value_eq. cbv zeta. unfold unprocessable, resolve_bound. destruct (sent r n f) as [|t [|t' ts]]; rewrite ?andb_true_r, ?andb_false_r.
  - intros [-> | (d & c & -> & -> & ->)]; [reflexivity|]. destruct (required f); reflexivity.
  - intros (c & -> & ->). reflexivity.
  - intros (c & -> & ->). reflexivity.
Qed.

Lemma merged_fold e : merged e = fold_left dupdate (levels e) [].
Proof. unfold merged, levels. cbn [fold_left]. rewrite fold_left_app. reflexivity. Qed.
Lemma ws_merged_fold own e : ws_merged own e = fold_left dupdate (ws_levels own e) [].
Proof. unfold ws_merged, ws_levels. cbn [fold_left]. rewrite !fold_left_app. reflexivity. Qed.
End Lemmas.
