(** C269 - C272: the scaffolding commands. *)
From Verif Require Import PyStr PyStrFacts ScafModel ScafSpec.

(** *** The file system *)
Lemma peqb_eq p q : peqb p q = true <-> p = q.
Proof.
  revert q. induction p as [|a p IH]; intros [|b q]; cbn; split; intros H; try discriminate; try reflexivity.
  - apply andb_prop in H as [H1 H2]. apply seqb_eq in H1. apply IH in H2. congruence.
  - injection H as -> ->. rewrite seqb_refl. now apply IH.
Qed.
Lemma peqb_refl p : peqb p p = true.
Proof. now apply peqb_eq. Qed.
Lemma fget_fput_same p c s : fget p (fput p c s) = Some c.
Proof. unfold fget, fput. cbn [files List.find fst]. now rewrite peqb_refl. Qed.
Lemma find_filter p q (l : list (path * str)) : p <> q ->
  List.find (fun e => peqb (fst e) p) (filter (fun e => negb (peqb (fst e) q)) l) = List.find (fun e => peqb (fst e) p) l.
Proof.
  intros H. induction l as [|e l IH]; [reflexivity|]. cbn [filter List.find].
  destruct (peqb (fst e) q) eqn:E; cbn [negb]; [|cbn [List.find]; now rewrite IH].
  apply peqb_eq in E. destruct (peqb (fst e) p) eqn:F; [|exact IH]. apply peqb_eq in F. congruence.
Qed.
Lemma fget_fdel_other p q s : p <> q -> fget p (fdel q s) = fget p s.
Proof. intros H. unfold fget, fdel. cbn [files]. now rewrite (find_filter p q _ H). Qed.
Lemma fget_fput_other p q c s : p <> q -> fget p (fput q c s) = fget p s.
Proof.
  intros H. unfold fget, fput. cbn [files List.find fst fdel].
  destruct (peqb q p) eqn:E; [apply peqb_eq in E; congruence|]. now rewrite (find_filter p q _ H).
Qed.
Lemma there_none p s : there p s = false -> fget p s = None.
Proof. destruct p; cbn [there]; [discriminate|]. intros H. apply orb_false_iff in H as [_ H]. now destruct (fget _ s). Qed.

(** *** What each piece of the command may do to the file system *)
(** The three relations below hold between the state before and every later state. *)
Section Relation.
  Variable R : fs -> fs -> Prop.
  Hypothesis Rrefl : forall s, R s s.
  Hypothesis Rtrans : forall a b c, R a b -> R b c -> R a c.
  Definition all_later (s : fs) (r : result) : Prop := (forall x, In x (fst (fst r)) -> R s x) /\ R s (snd (fst r)).
  Lemma later_nothing s o : all_later s ([], s, o).
  Proof. split; [intros x []|apply Rrefl]. Qed.
  Lemma later_andthen s r k : all_later s r -> (forall s', snd (fst r) = s' -> all_later s' (k s')) -> all_later s (andthen r k).
  Proof.
    intros A B. destruct r as [[tr s'] o]. unfold andthen. specialize (B s' eq_refl). destruct A as [A1 A2]. cbn [fst snd] in *.
    destruct o; try (split; assumption). destruct (k s') as [[tr' s''] o']. destruct B as [B1 B2]. cbn [fst snd] in *.
    split; cbn [fst snd]; [|now apply (Rtrans _ s')]. intros x I. apply in_app_or in I as [I|I]; [now apply A1|].
    apply (Rtrans _ s'); [assumption|now apply B1].
  Qed.
  Lemma later_cons s s1 r : R s s1 -> all_later s1 r -> all_later s (let '(tr, s', o) := r in (s1 :: tr, s', o)).
  Proof.
    intros H [A B]. destruct r as [[tr s'] o]. cbn [fst snd] in *. split; cbn [fst snd]; [|now apply (Rtrans _ s1)].
    intros x [<- |I]; [assumption|]. apply (Rtrans _ s1); [assumption|now apply A].
  Qed.
  Variable c : cfg.
  Variable okdir : path -> Prop.
  Hypothesis Rfile : forall dir f s, okdir dir -> all_later s (put_file c dir f s).
  Hypothesis Rmake : forall p s s', okdir p -> makedirs p s = Some s' -> R s s'.
  Lemma later_files dir fl s : okdir dir -> all_later s (put_files c dir fl s).
  Proof.
    intros D. revert s. induction fl as [|f fl IH]; intros s; cbn [put_files]; [apply later_nothing|].
    apply later_andthen; [now apply Rfile|]. intros; apply IH.
  Qed.
  Lemma later_dirs b top ds : (forall rest fl, In (rest, fl) ds -> okdir (resolve top (relative c b rest))) ->
    forall s, all_later s (put_dirs c b top ds s).
  Proof.
    induction ds as [|[rest fl] ds IH]; intros D s; cbn [put_dirs]; [apply later_nothing|].
    pose proof (D rest fl (or_introl eq_refl)) as Dr.
    assert (G : forall s1, R s s1 -> all_later s (andthen
        (let '(tr, s', o) := put_files c (resolve top (relative c b rest)) fl s1 in (s1 :: tr, s', o)) (put_dirs c b top ds))).
    { intros s1 H. apply later_andthen; [|intros; apply IH; intros; apply (D rest0 fl0); now right].
      now apply later_cons, later_files. }
    destruct (relative c b rest) as [|x rel] eqn:E; [now apply G|].
    destruct (makedirs _ s) eqn:M; [|apply later_nothing]. apply G. apply (Rmake _ _ _ Dr M).
  Qed.
  Hypothesis Rtop : forall s s', there (top_dir c) s = false -> makedirs (top_dir c) s = Some s' -> R s s'.
  Lemma later_handle main extra s :
    (forall rest fl, In (rest, fl) (walk [] main) -> okdir (resolve (top_dir c) (relative c false rest))) ->
    (c_with_deployment c = true -> forall rest fl, In (rest, fl) (walk [] extra) -> okdir (resolve (top_dir c) (relative c true rest))) ->
    all_later s (handle c main extra s).
  Proof.
    intros D1 D2. unfold handle. destruct (negb _); [apply later_nothing|].
    destruct (there (top_dir c) s) eqn:T; [apply later_nothing|].
    destruct (makedirs (top_dir c) s) as [s1|] eqn:M; [|apply later_nothing].
    apply later_andthen.
    - apply later_cons; [now apply Rtop|]. now apply later_dirs.
    - intros s2 _. destruct (c_with_deployment c) eqn:W; [|apply later_nothing]. apply later_dirs. now apply D2.
  Qed.
End Relation.

(** *** C269: no existing file is touched, whenever the command stops *)
Definition kept (a b : fs) : Prop := forall p t, fget p a = Some t -> fget p b = Some t.
Lemma put_file_states c dir f s : forall x, In x (fst (fst (put_file c dir f s))) \/ x = snd (fst (put_file c dir f s)) ->
  x = s \/ exists q, fget (dir ++ [q]) s = None /\ dirs x = dirs s /\ forall p, p <> dir ++ [q] -> fget p x = fget p s.
Proof.
  intros x. destruct f as [fname content]. unfold put_file. destruct (compiled fname); [intros [[]|E]; now left|].
  destruct (suffix_of _) as [o n]. cbv zeta. set (q := cut (length o) (replace (base_name c) (c_name c) fname) ++ n).
  destruct (there (dir ++ [q]) s) eqn:T; [intros [[]|E]; now left|].
  apply there_none in T. intros I. right. exists q. split; [exact T|].
  assert (G : In x [fput (dir ++ [q]) content s; fdel (dir ++ [q]) (fput (dir ++ [q]) content s);
     fput (dir ++ [q]) [] (fdel (dir ++ [q]) (fput (dir ++ [q]) content s));
     fput (dir ++ [q]) (match fget (dir ++ [cut (length o) fname ++ n]) (fput (dir ++ [q]) content s) with
       Some raw => match c_render c raw with Some t => t | None => [] end | None => [] end)
       (fput (dir ++ [q]) [] (fdel (dir ++ [q]) (fput (dir ++ [q]) content s)))]).
  { revert I. destruct (fget (dir ++ [cut (length o) fname ++ n]) (fput (dir ++ [q]) content s)) as [raw|];
      [destruct (c_render c raw) as [t|]|]; cbn [fst snd In]; intuition auto. }
  cbn [In] in G. destruct G as [<- |[<- |[<- |[<- |[]]]]]; (split; [reflexivity|intros p H]);
    rewrite ?fget_fput_other, ?fget_fdel_other, ?fget_fput_other by exact H; reflexivity.
Qed.
Lemma makedirs_files p s s' : makedirs p s = Some s' -> forall q, fget q s' = fget q s.
Proof. unfold makedirs. destruct (existsb _ _); [discriminate|]. intros [= <-] q. reflexivity. Qed.
Lemma handle_kept c main extra s : all_later kept s (handle c main extra s).
Proof.
  assert (M : forall p s s', makedirs p s = Some s' -> kept s s') by (intros p a b H q t E; now rewrite (makedirs_files _ _ _ H q)).
  apply (later_handle kept) with (okdir := fun _ => True); try (intros; exact I).
  - intros a p t E; exact E.
  - intros a b d H1 H2 p t E. now apply H2, H1.
  - intros dir f a _.
    assert (G : forall x, In x (fst (fst (put_file c dir f a))) \/ x = snd (fst (put_file c dir f a)) -> kept a x).
    { intros x I p t E. destruct (put_file_states c dir f a x I) as [-> |(q & N & _ & O)]; [assumption|].
      rewrite O; [assumption|]. intros ->. congruence. }
    split; [intros x I; apply G; now left|]. apply G. now right.
  - intros p a b _. apply M.
  - intros a b _. apply M.
Qed.
Theorem C269_untouched mk main extra names s0 tr s1 o : create mk main extra names s0 = (tr, s1, o) ->
  forall s, In s tr \/ s = s1 -> forall p text, fget p s0 = Some text -> fget p s = Some text.
Proof.
  revert s0 tr s1 o. induction names as [|n names IH]; intros s0 tr s1 o E s I p t F; cbn [create] in E.
  - injection E as <- <- <-. destruct I as [[]| -> ]. exact F.
  - pose proof (handle_kept (mk n) main extra s0) as [K1 K2]. destruct (handle (mk n) main extra s0) as [[tr1 s'] o1].
    cbn [fst snd] in K1, K2.
    assert (G : (tr, s1, o) = (tr1, s', Raised) \/ exists tr' s'' o', create mk main extra names s' = (tr', s'', o') /\ (tr, s1) = (tr1 ++ tr', s'')).
    { destruct o1; [right|right|left; congruence]; destruct (create mk main extra names s') as [[tr' s''] o']; exists tr', s'', o';
        (split; [reflexivity|congruence]). }
    destruct G as [G|(tr' & s'' & o' & C & G)].
    + injection G as -> -> ->. destruct I as [I| -> ]; [now apply (K1 s I)|now apply K2].
    + injection G as -> ->. destruct I as [I|I]; [apply in_app_or in I as [I|I]|].
      * now apply (K1 s I).
      * apply (IH _ _ _ _ C s (or_introl I)). now apply K2.
      * apply (IH _ _ _ _ C s (or_intror I)). now apply K2.
Qed.
Print Assumptions C269_untouched.

(** A small version of the bundled template of applications. *)
Definition app_tree : tree :=
  Node [(u "__init__.py-tpl", []); (u "tests.py-tpl", u "t")]
    [(u "{{ api_version }}", Node [(u "__init__.py-tpl", []); (u "urls.py-tpl", u "urls")] []);
     (u "directives", Node [(u "__init__.py-tpl", [])] [(u "operations", Node [(u "__init__.py-tpl", [])] [])]);
     (u "__pycache__", Node [(u "x.pyc", u "x")] [])].
Definition empty_tree : tree := Node [] [].
Definition app_cfg (version name : str) : cfg := mkCfg App [u "home"; u "me"] name version [] false false (fun x => Some (u "# " ++ x)).
Definition home : fs := mkFs [([u "home"; u "me"; u "notes"], u "mine")] [[u "home"]; [u "home"; u "me"]].
Example C269_case : exists tr s1, create (app_cfg (u "v1")) app_tree empty_tree [u "blog"; u "1bad"; u "shop"] home = (tr, s1, Done) /\
  length tr = 58 /\ fget [u "home"; u "me"; u "shop"; u "v1"; u "urls.py"] s1 = Some (u "# urls") /\
  fget [u "home"; u "me"; u "notes"] s1 = Some (u "mine").
Proof. eexists. eexists. split; [vm_compute; reflexivity|]. now vm_compute. Qed.

(** *** C270: the project consists of the rendered templates, and nothing else *)
Lemma suffixb_iff p s : suffixb p s = true <-> exists x, s = x ++ p.
Proof.
  unfold suffixb. rewrite prefixb_iff. split.
  - intros [t E]. exists (rev t). rewrite <- (rev_involutive s), E, rev_app_distr, rev_involutive. reflexivity.
  - intros [x ->]. exists (rev x). apply rev_app_distr.
Qed.
Lemma cut_app x y : cut (length y) (x ++ y) = x.
Proof. unfold cut. rewrite app_length, Nat.add_sub, firstn_app, Nat.sub_diag, firstn_all, app_nil_r. reflexivity. Qed.
Lemma written_suffix f o n : suffix_of f = (o, n) -> written_as f (cut (length o) f ++ n).
Proof.
  unfold suffix_of. destruct (suffixb (u ".py-tpl") f) eqn:A.
  - intros [= <- <-]. apply suffixb_iff in A as [x ->]. rewrite cut_app. constructor.
  - destruct (suffixb (u ".e-tpl") f) eqn:B.
    + intros [= <- <-]. apply suffixb_iff in B as [x ->]. rewrite cut_app, app_nil_r. constructor.
    + intros [= <- <-]. unfold cut. cbn [length]. rewrite Nat.sub_0_r, firstn_all, app_nil_r.
      constructor; intros x E; [assert (suffixb (u ".py-tpl") f = true)|assert (suffixb (u ".e-tpl") f = true)];
        try congruence; apply suffixb_iff; now exists x.
Qed.
Lemma rev_clash (x y : str) p q : x ++ p = y ++ q -> exists z, rev p ++ rev x = rev q ++ z.
Proof. intros E. exists (rev y). rewrite <- !rev_app_distr. now rewrite E. Qed.
Lemma written_det f g h : written_as f g -> written_as f h -> g = h.
Proof.
  intros A B. destruct A as [x|x|f N1 N2]; inversion B as [y E|y E|f' M1 M2 E]; subst.
  - apply app_inv_tail in E. congruence.
  - destruct (rev_clash _ _ _ _ E) as [z Z]. vm_compute in Z. discriminate Z.
  - destruct (M1 x eq_refl).
  - destruct (rev_clash _ _ _ _ E) as [z Z]. vm_compute in Z. discriminate Z.
  - now apply app_inv_tail in E.
  - destruct (M2 x eq_refl).
  - destruct (N1 y eq_refl).
  - destruct (N2 h eq_refl).
  - reflexivity.
Qed.
Lemma compiled_iff f : compiled f = true <-> left_out f.
Proof.
  unfold compiled, left_out. rewrite !orb_true_iff, !suffixb_iff. split.
  - intros [[[x E]|[x E]]|[x E]]; exists x; auto.
  - intros [x [E|[E|E]]]; [left; left|left; right|right]; now exists x.
Qed.
(** One file. *)
Lemma put_file_done c dir fname x s tr s' : replace (base_name c) (c_name c) fname = fname -> put_file c dir (fname, x) s = (tr, s', Done) ->
  forall p t, fget p s' = Some t <-> fget p s = Some t \/ (~ left_out fname /\ c_render c x = Some t /\ exists g, written_as fname g /\ p = dir ++ [g]).
Proof.
  intros P E p t. unfold put_file in E. destruct (compiled fname) eqn:C.
  - injection E as <- <-. apply compiled_iff in C. intuition.
  - assert (NL : ~ left_out fname) by (intros L; apply compiled_iff in L; congruence).
    rewrite P in E. destruct (suffix_of fname) as [o n] eqn:S. pose proof (written_suffix _ _ _ S) as W.
    cbv zeta in E. set (q := dir ++ [cut (length o) fname ++ n]) in *.
    destruct (there q s) eqn:T; [discriminate|]. apply there_none in T. rewrite fget_fput_same in E.
    destruct (c_render c x) as [text|] eqn:R; [|discriminate]. injection E as <- <-.
    destruct (peqb p q) eqn:Q.
    + apply peqb_eq in Q. subst p. rewrite fget_fput_same. split.
      * intros [= ->]. right. split; [assumption|]. split; [reflexivity|]. eexists. split; [exact W|reflexivity].
      * intros [H|(_ & [= ->] & _)]; [congruence|reflexivity].
    + assert (N : p <> q) by (intros ->; now rewrite peqb_refl in Q).
      rewrite !fget_fput_other, fget_fdel_other, fget_fput_other by exact N. split; [now left|].
      intros [H|(_ & _ & g & Wg & E)]; [exact H|]. rewrite (written_det _ _ _ Wg W) in E. destruct (N E).
Qed.
Definition file_of (c : cfg) (dir : path) (fname x : str) (p : path) (t : str) : Prop :=
  ~ left_out fname /\ c_render c x = Some t /\ exists g, written_as fname g /\ p = dir ++ [g].
Lemma andthen_done r k tr s : andthen r k = (tr, s, Done) -> exists tr1 s1 tr2, r = (tr1, s1, Done) /\ k s1 = (tr2, s, Done).
Proof.
  destruct r as [[tr1 s1] o]. unfold andthen. destruct o; try discriminate. destruct (k s1) as [[tr2 s2] o2] eqn:K.
  intros [= <- <- ->]. exists tr1, s1, tr2. now rewrite K.
Qed.
Lemma put_files_done c dir fl : (forall f x, In (f, x) fl -> replace (base_name c) (c_name c) f = f) ->
  forall s tr s', put_files c dir fl s = (tr, s', Done) ->
  forall p t, fget p s' = Some t <-> fget p s = Some t \/ exists f x, In (f, x) fl /\ file_of c dir f x p t.
Proof.
  induction fl as [|[f x] fl IH]; intros P s tr s' E p t; cbn [put_files] in E.
  - injection E as <- <-. split; [now left|]. intros [H|(f & x & [] & _)]. exact H.
  - apply andthen_done in E as (tr1 & s1 & tr2 & E1 & E2).
    rewrite (IH (fun f x I => P f x (or_intror I)) _ _ _ E2 p t).
    rewrite (put_file_done _ _ _ _ _ _ _ (P f x (or_introl eq_refl)) E1 p t). split.
    + intros [[H|H]|(f' & x' & I & H)]; [now left|right; exists f, x; split; [now left|exact H]|right; exists f', x'; split; [now right|exact H]].
    + intros [H|(f' & x' & [E|I] & K)]; [now left; left| |right; now exists f', x'].
      left; right. injection E as -> -> . exact K.
Qed.
Lemma put_dirs_done c b top ds : (forall rest fl f x, In (rest, fl) ds -> In (f, x) fl -> replace (base_name c) (c_name c) f = f) ->
  forall s tr s', put_dirs c b top ds s = (tr, s', Done) ->
  forall p t, fget p s' = Some t <-> fget p s = Some t \/
    exists rest fl f x, In (rest, fl) ds /\ In (f, x) fl /\ file_of c (resolve top (relative c b rest)) f x p t.
Proof.
  induction ds as [|[rest fl] ds IH]; intros P s tr s' E p t; cbn [put_dirs] in E.
  - injection E as <- <-. split; [now left|]. intros [H|(r & l & f & x & [] & _)]. exact H.
  - assert (M : exists s1, (forall q, fget q s1 = fget q s) /\
      andthen (let '(tr, s', o) := put_files c (resolve top (relative c b rest)) fl s1 in (s1 :: tr, s', o)) (put_dirs c b top ds) = (tr, s', Done)).
    { destruct (relative c b rest) as [|y rel] eqn:R; [exists s; split; [reflexivity|exact E]|].
      destruct (makedirs _ s) as [s1|] eqn:M; [|discriminate]. exists s1. split; [exact (makedirs_files _ _ _ M)|exact E]. }
    destruct M as (s1 & Q & E'). apply andthen_done in E' as (tr1 & s2 & tr2 & E1 & E2).
    destruct (put_files c (resolve top (relative c b rest)) fl s1) as [[tr3 s3] o3] eqn:F. injection E1 as _ -> ->.
    rewrite (IH (fun r l f x I => P r l f x (or_intror I)) _ _ _ E2 p t).
    rewrite (put_files_done _ _ _ (fun f x I => P rest fl f x (or_introl eq_refl) I) _ _ _ F p t), Q. split.
    + intros [[H|(f & x & I & H)]|(r & l & f & x & I1 & I2 & H)]; [now left| |].
      * right. exists rest, fl, f, x. split; [now left|]. now split.
      * right. exists r, l, f, x. split; [now right|]. now split.
    + intros [H|(r & l & f & x & [Y|I1] & I2 & K)]; [now left; left| |right; now exists r, l, f, x].
      left; right. injection Y as -> -> . now exists f, x.
Qed.
(** The files met by [walk]. *)
Section TreeInd.
  Variable P : tree -> Prop.
  Hypothesis step : forall fls subs, (forall d t, In (d, t) subs -> P t) -> P (Node fls subs).
  Fixpoint tree_ind' (t : tree) : P t :=
    match t with
    | Node fls subs => step fls subs
        ((fix go (l : list (str * tree)) : forall d t, In (d, t) l -> P t :=
          match l with
          | [] => fun d t I => match I with end
          | (d0, t0) :: r => fun d t I => match I with
              | or_introl E => eq_ind t0 P (tree_ind' t0) t (f_equal snd E)
              | or_intror I' => go r d t I'
              end
          end) subs)
    end.
End TreeInd.
Lemma hidden_iff d : hidden d = false <-> (forall r, d <> u "." ++ r) /\ d <> u "__pycache__".
Proof.
  unfold hidden. rewrite orb_false_iff. split.
  - intros [A B]. split; [intros r -> ; now rewrite (proj2 (prefixb_iff _ _) (ex_intro _ r eq_refl)) in A|]. intros -> . now rewrite seqb_refl in B.
  - intros [A B]. split.
    + destruct (prefixb (u ".") d) eqn:E; [|reflexivity]. apply prefixb_iff in E as [r E]. destruct (A r E).
    + destruct (seqb d (u "__pycache__")) eqn:E; [|reflexivity]. apply seqb_eq in E. contradiction.
Qed.
Definition dir_from (a : str) (ds : list str) : str := fold_left (fun a d => match a with [] => d | _ => a ++ u "/" ++ d end) ds a.
Lemma walk_located t : forall a rest f x, (exists fl, In (rest, fl) (walk a t) /\ In (f, x) fl) <-> exists ds, located t ds f x /\ rest = dir_from a ds.
Proof.
  induction t as [fls subs IH] using tree_ind'. intros a rest f x. cbn [walk].
  set (go := fix go (l : list (str * tree)) : list (str * list (str * str)) := match l with [] => [] | (d, t') :: r => if hidden d then go r else walk (sub_text a d) t' ++ go r end).
  assert (G : forall l, (forall d t, In (d, t) l -> In (d, t) subs) ->
     ((exists fl, In (rest, fl) (go l) /\ In (f, x) fl) <-> exists d t ds, In (d, t) l /\ hidden d = false /\ located t ds f x /\ rest = dir_from (sub_text a d) ds)).
  { induction l as [|[d t] l IHl]; intros S; cbn [go].
    - split; [intros (fl & [] & _)|intros (d & t & ds & [] & _)].
    - assert (S' : forall d t, In (d, t) l -> In (d, t) subs) by (intros; apply S; now right).
      specialize (IHl S'). fold go. destruct (hidden d) eqn:H.
      + rewrite IHl. split.
        * intros (d' & t' & ds & I & R). exists d', t', ds. split; [now right|exact R].
        * intros (d' & t' & ds & [E|I] & H' & R); [congruence|]. exists d', t', ds. now split.
      + pose proof (IH d t (S d t (or_introl eq_refl)) (sub_text a d) rest f x) as IHt. split.
        * intros (fl & I & If). apply in_app_or in I as [I|I].
          -- destruct (proj1 IHt (ex_intro _ fl (conj I If))) as (ds & L & E). exists d, t, ds. split; [now left|]. now split.
          -- destruct (proj1 IHl (ex_intro _ fl (conj I If))) as (d' & t' & ds & I' & R). exists d', t', ds. split; [now right|exact R].
        * intros (d' & t' & ds & [Q|I] & H' & L & E).
          -- injection Q as -> -> . destruct (proj2 IHt (ex_intro _ ds (conj L E))) as (fl & I & If). exists fl. split; [|exact If]. apply in_or_app. now left.
          -- destruct (proj2 IHl) as (fl & I' & If); [exists d', t', ds; now split|]. exists fl. split; [|exact If]. apply in_or_app. now right. }
  specialize (G subs (fun _ _ I => I)). split.
  - intros (fl & [Q|I] & If).
    + injection Q as -> -> . exists []. split; [now constructor|reflexivity].
    + destruct (proj1 G (ex_intro _ fl (conj I If))) as (d & t & ds & I' & H & L & E). exists (d :: ds). split; [|exact E].
      apply hidden_iff in H as [H1 H2]. now apply (LBelow fls subs d t).
  - intros (ds & L & E). inversion L as [fls' subs' f' x' I|fls' subs' d t ds' f' x' I H1 H2 L']; subst.
    + exists fls. split; [now left|assumption].
    + destruct (proj2 G) as (fl & I' & If); [exists d, t, ds'; split; [assumption|]; split; [now apply hidden_iff|]; now split|].
      exists fl. split; [now right|assumption].
Qed.
Lemma walk_comes c b tr p t :
  (exists rest fl f x, In (rest, fl) (walk [] tr) /\ In (f, x) fl /\ file_of c (resolve (top_dir c) (relative c b rest)) f x p t) <-> comes_from c b tr p t.
Proof.
  split.
  - intros (rest & fl & f & x & I1 & I2 & NL & R & g & W & E).
    destruct (proj1 (walk_located tr [] rest f x) (ex_intro _ fl (conj I1 I2))) as (ds & L & D).
    exists ds, f, g, x. subst rest. now repeat split.
  - intros (ds & f & g & x & L & NL & W & R & E).
    destruct (proj2 (walk_located tr [] (dir_text ds) f x) (ex_intro _ ds (conj L eq_refl))) as (fl & I1 & I2).
    exists (dir_text ds), fl, f, x. split; [exact I1|]. split; [exact I2|]. split; [exact NL|]. split; [exact R|]. now exists g.
Qed.
Lemma walk_plain c tr : plain_files c tr -> forall rest fl f x, In (rest, fl) (walk [] tr) -> In (f, x) fl -> replace (base_name c) (c_name c) f = f.
Proof.
  intros P rest fl f x I1 I2. destruct (proj1 (walk_located tr [] rest f x) (ex_intro _ fl (conj I1 I2))) as (ds & L & _). exact (P ds f x L).
Qed.
Theorem C270_content c main extra s tr s' : plain_files c main -> plain_files c extra -> handle c main extra s = (tr, s', Done) ->
  forall p t, fget p s' = Some t <->
    fget p s = Some t \/ comes_from c false main p t \/ (c_with_deployment c = true /\ comes_from c true extra p t).
Proof.
  intros P1 P2 E p t. unfold handle in E. destruct (negb _); [discriminate|]. destruct (there _ s); [discriminate|].
  destruct (makedirs (top_dir c) s) as [s1|] eqn:M; [|discriminate].
  apply andthen_done in E as (tr1 & s2 & tr2 & E1 & E2).
  destruct (put_dirs c false (top_dir c) (walk [] main) s1) as [[tr3 s3] o3] eqn:D1. injection E1 as _ -> ->.
  pose proof (put_dirs_done _ _ _ _ (walk_plain _ _ P1) _ _ _ D1 p t) as H1. rewrite walk_comes, (makedirs_files _ _ _ M) in H1.
  destruct (c_with_deployment c).
  - pose proof (put_dirs_done _ _ _ _ (walk_plain _ _ P2) _ _ _ E2 p t) as H2. rewrite walk_comes in H2. rewrite H2, H1. intuition.
  - injection E2 as <- <-. rewrite H1. intuition. discriminate.
Qed.
Print Assumptions C270_content.
Example C270_case : plain_files (app_cfg (u "v1") (u "blog")) app_tree /\ plain_files (app_cfg (u "v1") (u "blog")) empty_tree /\
  (exists tr s', handle (app_cfg (u "v1") (u "blog")) app_tree empty_tree home = (tr, s', Done)) /\
  comes_from (app_cfg (u "v1") (u "blog")) false app_tree [u "home"; u "me"; u "blog"; u "v1"; u "urls.py"] (u "# urls").
Proof.
  assert (A : forall t, forallb (fun d => forallb (fun f => seqb (replace (u "app_name") (u "blog") (fst f)) (fst f)) (snd d)) (walk [] t) = true ->
     plain_files (app_cfg (u "v1") (u "blog")) t).
  { intros t F ds f x L. destruct (proj2 (walk_located t [] (dir_text ds) f x) (ex_intro _ ds (conj L eq_refl))) as (fl & I1 & I2).
    rewrite forallb_forall in F. specialize (F _ I1). cbn [snd] in F. rewrite forallb_forall in F. now apply seqb_eq, (F _ I2). }
  split; [apply A; now vm_compute|]. split; [apply A; now vm_compute|]. split; [eexists; eexists; vm_compute; reflexivity|].
  apply walk_comes. exists (u "{{ api_version }}"), [(u "__init__.py-tpl", []); (u "urls.py-tpl", u "urls")], (u "urls.py-tpl"), (u "urls").
  split; [vm_compute; tauto|]. split; [vm_compute; tauto|]. split; [|split; [reflexivity|]].
  - intros L. apply compiled_iff in L. now vm_compute in L.
  - exists (u "urls.py"). split; [exact (WPy (u "urls"))|reflexivity].
Qed.

(** *** C271: everything new is inside the new directory *)
Definition C271_statement : Prop := forall c main extra s tr s' o, handle c main extra s = (tr, s', o) ->
  forall p, fget p s = None -> fget p s' <> None -> under (top_dir c) p.
Theorem C271_refuted : ~ C271_statement.
Proof.
  intros H. specialize (H (app_cfg (u "../shared") (u "blog")) app_tree empty_tree home).
  destruct (handle (app_cfg (u "../shared") (u "blog")) app_tree empty_tree home) as [[tr s'] o] eqn:E.
  assert (F : fget [u "home"; u "me"; u "shared"; u "urls.py"] (snd (fst (handle (app_cfg (u "../shared") (u "blog")) app_tree empty_tree home))) = Some (u "# urls"))
    by (vm_compute; reflexivity).
  rewrite E in F. cbn [fst snd] in F.
  assert (U : under (top_dir (app_cfg (u "../shared") (u "blog"))) [u "home"; u "me"; u "shared"; u "urls.py"]).
  { apply (H _ _ _ eq_refl); [now vm_compute|congruence]. }
  destruct U as [q U]. vm_compute in U. discriminate U.
Qed.
Print Assumptions C271_refuted.

Lemma resolve_down base text : downwards text -> under base (resolve base text).
Proof.
  intros [A B]. unfold resolve. destruct (prefixb (u "/") text) eqn:P.
  { apply prefixb_iff in P as [r P]. destruct (A r P). }
  clear A P. revert base B. induction (split_char 47 text) as [|c l IH]; intros base B; cbn [fold_left].
  - exists []. now rewrite app_nil_r.
  - assert (B' : ~ In (u "..") l) by (intros I; apply B; now right).
    destruct (seqb c []); [now apply IH|]. destruct (seqb c (u ".")); [now apply IH|].
    destruct (seqb c (u "..")) eqn:E; [apply seqb_eq in E; destruct B; now left|].
    destruct (IH (base ++ [c]) B') as [q Q]. exists ([c] ++ q). now rewrite app_assoc.
Qed.
Lemma under_snoc top p x : under top p -> under top (p ++ x).
Proof. intros [q ->]. exists (q ++ x). now rewrite app_assoc. Qed.
Lemma prefixes_above p q : In q (prefixes p) -> above p q.
Proof.
  revert q. induction p as [|a p IH]; intros q I; cbn [prefixes] in I; [destruct I|].
  destruct I as [<- |I]; [now exists p|]. apply in_map_iff in I as (r & <- & I). destruct (IH r I) as [x E]. exists x. cbn. now rewrite E.
Qed.
Lemma above_under top p q : under top p -> above p q -> under top q \/ above top q.
Proof.
  intros [x ->] [y E]. revert q E. induction top as [|a top IH]; intros q E; [left; now exists q|].
  destruct q as [|b q]; [right; now exists (a :: top)|]. cbn in E. injection E as <- E.
  destruct (IH q E) as [[z ->]|[z ->]]; [left; now exists z|right; now exists z].
Qed.
(** New files are under the directory; new directories are under it or lead to it. *)
Definition grows (top : path) (a b : fs) : Prop :=
  (forall p, fget p a = None -> fget p b <> None -> under top p) /\
  (forall p, is_dir p a = false -> is_dir p b = true -> under top p \/ above top p).
Lemma grows_trans top a b c : grows top a b -> grows top b c -> grows top a c.
Proof.
  intros [A1 A2] [B1 B2]. split; intros p N Y.
  - destruct (fget p b) eqn:E; [apply (A1 p N); congruence|now apply B1].
  - destruct (is_dir p b) eqn:E; [now apply A2|now apply B2].
Qed.
Lemma makedirs_grows top p a b : under top p -> makedirs p a = Some b -> grows top a b.
Proof.
  intros U. unfold makedirs. destruct (existsb _ _); [discriminate|]. intros [= <-]. split; intros q N Y.
  - destruct Y. exact N.
  - unfold is_dir in *. cbn [dirs] in Y. rewrite existsb_app, N, orb_false_r in Y. apply existsb_exists in Y as (r & I & E).
    apply peqb_eq in E. subst r. apply (above_under top p q U). now apply prefixes_above.
Qed.
Theorem C271_inside_partial c main extra s tr s' o : handle c main extra s = (tr, s', o) ->
  (forall rest fl, In (rest, fl) (walk [] main) -> downwards (relative c false rest)) ->
  (c_with_deployment c = true -> forall rest fl, In (rest, fl) (walk [] extra) -> downwards (relative c true rest)) ->
  forall x, In x tr \/ x = s' ->
    (forall p, fget p s = None -> fget p x <> None -> under (top_dir c) p) /\
    (forall p, is_dir p s = false -> is_dir p x = true -> under (top_dir c) p \/ above (top_dir c) p).
Proof.
  intros E D1 D2.
  assert (L : all_later (grows (top_dir c)) s (handle c main extra s)).
  { apply (later_handle (grows (top_dir c))) with (okdir := under (top_dir c)).
    - intros a. split; intros p N Y; congruence.
    - intros a b d. apply grows_trans.
    - intros dir f a U.
      assert (G : forall x, In x (fst (fst (put_file c dir f a))) \/ x = snd (fst (put_file c dir f a)) -> grows (top_dir c) a x).
      { intros x I. destruct (put_file_states c dir f a x I) as [-> |(q & N & Dd & O)].
        - split; intros p N Y; congruence.
        - split; intros p Np Y.
          + destruct (peqb p (dir ++ [q])) eqn:Q; [apply peqb_eq in Q; subst p; now apply under_snoc|].
            assert (p <> dir ++ [q]) by (intros ->; now rewrite peqb_refl in Q). rewrite O in Y by assumption. congruence.
          + unfold is_dir in *. congruence. }
      split; [intros x I; apply G; now left|]. apply G. now right.
    - intros p a b. apply makedirs_grows.
    - intros a b _. apply makedirs_grows. exists []. now rewrite app_nil_r.
    - intros rest fl I. apply resolve_down. exact (D1 rest fl I).
    - intros W rest fl I. apply resolve_down. exact (D2 W rest fl I). }
  rewrite E in L. destruct L as [L1 L2]. cbn [fst snd] in *. intros x [I| -> ]; [exact (L1 x I)|exact L2].
Qed.
Print Assumptions C271_inside_partial.
(** For [lilya createapp] with the bundled template, whatever its files, a version without a slash that is not ".." is enough. *)
Definition app_dirs : list str := [[]; u "{{ api_version }}"; u "directives"; u "directives/operations"].
Theorem C271_app_partial c main extra s tr s' o : handle c main extra s = (tr, s', o) ->
  c_kind c = App -> c_with_deployment c = false -> (forall rest fl, In (rest, fl) (walk [] main) -> In rest app_dirs) ->
  ~ In 47%N (c_version c) -> c_version c <> u ".." ->
  top_dir c = resolve (c_location c) (c_name c) /\
  forall p, fget p s = None -> fget p s' <> None -> under (top_dir c) p.
Proof.
  intros E K W D V1 V2. split; [unfold top_dir; now rewrite K|].
  apply (C271_inside_partial c main extra s tr s' o E); [|intros; congruence|now right].
  intros rest fl I. apply D in I. unfold relative, base_name. rewrite K.
  assert (A : forall name, replace (u "app_name") name rest = rest) by (intros name; destruct I as [<- |[<- |[<- |[<- |[]]]]]; reflexivity).
  rewrite A. cbv zeta.
  assert (B : replace (u "{{ api_version }}") (c_version c) rest = rest /\ downwards rest \/ replace (u "{{ api_version }}") (c_version c) rest = c_version c).
  { destruct I as [<- |[<- |[<- |[<- |[]]]]]; [left|right|left|left]; try (split; [reflexivity|split; [intros r F; vm_compute in F; discriminate F|vm_compute; intuition discriminate]]).
    cbn. apply app_nil_r. }
  destruct B as [[-> B]| -> ]; [exact B|]. split.
  - intros r F. rewrite F in V1. apply V1. now left.
  - rewrite split_char_free by exact V1. intros [F|[]]. congruence.
Qed.
Print Assumptions C271_app_partial.
(** A deployment goes to the folder that is named, or to "deployment". *)
Theorem C271_deployment_partial c main extra s tr s' o : handle c main extra s = (tr, s', o) -> c_kind c = Deployment ->
  (forall rest fl, In (rest, fl) (walk [] main) -> downwards (relative c false rest)) ->
  (c_with_deployment c = true -> forall rest fl, In (rest, fl) (walk [] extra) -> downwards (relative c true rest)) ->
  forall p, fget p s = None -> fget p s' <> None ->
    (c_folder c = [] -> under (resolve (c_location c) (u "deployment")) p) /\ (c_folder c <> [] -> under (resolve (c_location c) (c_folder c)) p).
Proof.
  intros E K D1 D2 p N Y. assert (U := proj1 (C271_inside_partial c main extra s tr s' o E D1 D2 s' (or_intror eq_refl)) p N Y). unfold top_dir in U. rewrite K in U.
  destruct (c_folder c); split; intros F; try exact U; congruence.
Qed.
Print Assumptions C271_deployment_partial.
Example C271_case : (forall rest fl, In (rest, fl) (walk [] app_tree) -> In rest app_dirs) /\ ~ In 47%N (u "v1") /\ u "v1" <> u "..".
Proof.
  split; [|split; [vm_compute; intuition discriminate|discriminate]].
  intros rest fl I. cbn [walk app_tree] in I. vm_compute in I. destruct I as [[= <- _]|[[= <- _]|[[= <- _]|[[= <- _]|[]]]]]; vm_compute; tauto.
Qed.

(** *** C272: a command that fails leaves nothing behind *)
Definition C272_statement : Prop := forall c main extra s tr s' o, handle c main extra s = (tr, s', o) -> o <> Done ->
  forall p, fget p s' = fget p s /\ is_dir p s' = is_dir p s.
(** The version is the name of another directory of the template: half of the application is there, and a
    second attempt is refused. *)
Theorem C272_refuted : exists tr s', handle (app_cfg (u "directives") (u "blog")) app_tree empty_tree home = (tr, s', Reported) /\
  fget [u "home"; u "me"; u "blog"; u "tests.py"] s' = Some (u "# t") /\
  handle (app_cfg (u "v1") (u "blog")) app_tree empty_tree s' = ([], s', Reported).
Proof. eexists. eexists. split; [vm_compute; reflexivity|]. now vm_compute. Qed.
Print Assumptions C272_refuted.
Theorem C272_statement_refuted : ~ C272_statement.
Proof.
  intros H. destruct C272_refuted as (tr & s' & E & F & _). destruct (H _ _ _ _ _ _ _ E ltac:(discriminate) [u "home"; u "me"; u "blog"; u "tests.py"]) as [G _].
  rewrite F in G. now vm_compute in G.
Qed.
Print Assumptions C272_statement_refuted.
(** A bad or taken name, and a directory or file of that name, are refused before anything is done; and then
    the other names are still taken up. *)
Theorem C272_refused_partial c main extra s : 
  (c_kind c <> Deployment /\ (identifier (c_name c) = false \/ c_importable c = true)) \/ there (top_dir c) s = true ->
  handle c main extra s = ([], s, Reported) /\
  forall mk n rest, mk n = c -> create mk main extra (n :: rest) s = create mk main extra rest s.
Proof.
  intros H. assert (E : handle c main extra s = ([], s, Reported)).
  { unfold handle. destruct H as [[K [B|B]]|B].
    - destruct (c_kind c); try congruence; rewrite B; reflexivity.
    - destruct (c_kind c); try congruence; rewrite B, andb_false_r; reflexivity.
    - destruct (negb _); [reflexivity|]. now rewrite B. }
  split; [exact E|]. intros mk n rest M. cbn [create]. rewrite M, E. destruct (create mk main extra rest s) as [[tr s'] o]. reflexivity.
Qed.
Print Assumptions C272_refused_partial.
Example C272_case : identifier (u "1bad") = false /\ there (top_dir (app_cfg (u "v1") (u "notes"))) home = true.
Proof. now vm_compute. Qed.
