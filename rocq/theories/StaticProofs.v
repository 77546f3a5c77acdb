(** Lemmas for C44 and C78-C80. *)
From Verif Require Import PyStr PyStrFacts StaticModel StaticSpec.

(** ** Components *)
Definition skipped (c : str) : bool := seqb c [] || seqb c dot.
Lemma norm_app rooted l m : forall st, norm_go rooted st (l ++ m) = norm_go rooted (norm_go rooted st l) m.
Proof.
  induction l as [|c l IH]; intros st; [reflexivity|]. cbn [app norm_go]. destruct (seqb c [] || seqb c dot); [apply IH|].
  destruct (negb (seqb c dotdot) || _ || _); apply IH.
Qed.
Lemma norm_skip rooted l : forall st, Forall (fun c => skipped c = true) l -> norm_go rooted st l = st.
Proof.
  induction l as [|c l IH]; intros st F; [reflexivity|]. inversion F as [|? ? F1 F2]; subst. cbn [norm_go]. unfold skipped in F1. rewrite F1. apply IH, F2.
Qed.
Lemma plain_not n : plain n -> seqb n [] = false /\ seqb n dot = false /\ seqb n dotdot = false.
Proof. intros (A & B & C & _). repeat split; apply seqb_neq; assumption. Qed.
Lemma norm_plain rooted l : forall st, Forall plain l -> norm_go rooted st l = rev l ++ st.
Proof.
  induction l as [|c l IH]; intros st F; [reflexivity|]. inversion F as [|? ? F1 F2]; subst. destruct (plain_not c F1) as (A & B & C). cbn [norm_go rev]. rewrite A, B, C. cbn [orb negb].
  rewrite IH by exact F2. rewrite <- app_assoc. reflexivity.
Qed.
(** The stack: names after some "..", or names alone below a root. *)
Definition stacked (rooted : bool) (st : list str) : Prop :=
  exists names k, rev st = repeat dotdot k ++ names /\ Forall plain names /\ (rooted = true -> k = 0%nat).
Lemma repeat_snoc {A} (x : A) k : repeat x k ++ [x] = repeat x (S k).
Proof. induction k as [|k IH]; [reflexivity|]. cbn [repeat app] in *. rewrite IH. reflexivity. Qed.
Lemma norm_stacked rooted comps : forall st, Forall (fun c => ~ In 47%N c) comps -> stacked rooted st -> stacked rooted (norm_go rooted st comps).
Proof.
  induction comps as [|c r IH]; intros st F S; [exact S|]. inversion F as [|? ? F1 F2]; subst. cbn [norm_go].
  destruct (seqb_spec c []) as [->|N1]; [apply IH; assumption|]. destruct (seqb_spec c dot) as [->|N2]; [apply IH; assumption|]. cbn [orb].
  destruct S as (names & k & E & PN & K).
  destruct (seqb_spec c dotdot) as [->|N3]; cbn [negb orb].
  - destruct st as [|t st]; cbn [andb orb].
    + destruct rooted; cbn [negb andb orb].
      * apply IH; [exact F2|]. exists [], 0%nat. cbn. auto.
      * apply IH; [exact F2|]. exists [], 1%nat. cbn. split; [reflexivity|]. split; [constructor|discriminate].
    + rewrite andb_false_r. cbn [orb]. cbn [rev] in E. destruct (@exists_last _ (repeat dotdot k ++ names)) as (l & x & L); [rewrite <- E; destruct (rev st); discriminate|].
      rewrite L in E. apply app_inj_tail in E. destruct E as [E ->]. destruct (seqb_spec x dotdot) as [->|NX].
      * apply IH; [exact F2|]. destruct names as [|n names] using rev_ind.
        -- exists [], (S k). cbn [rev]. rewrite E, app_nil_r. rewrite app_nil_r in L. rewrite <- L, repeat_snoc. split; [reflexivity|]. split; [constructor|]. intros R. specialize (K R). subst k. destruct l; discriminate L.
        -- exfalso. rewrite app_assoc in L. apply app_inj_tail in L. destruct L as [_ ->]. apply Forall_app in PN. destruct PN as [_ PN]. inversion PN as [|? ? P1 _]; subst. destruct P1 as (_ & _ & P1 & _). apply P1. reflexivity.
      * apply IH; [exact F2|]. destruct names as [|n names] using rev_ind.
        -- exfalso. apply NX. rewrite app_nil_r in L. destruct k as [|k]; [destruct l; discriminate L|]. rewrite <- repeat_snoc in L. apply app_inj_tail in L. symmetry. exact (proj2 L).
        -- rewrite app_assoc in L. apply app_inj_tail in L. destruct L as [L _]. exists names, k. split; [rewrite E; symmetry; exact L|]. split; [|exact K]. apply Forall_app in PN. exact (proj1 PN).
  - apply IH; [exact F2|]. exists (names ++ [c]), k. cbn [rev]. rewrite E, <- app_assoc. split; [reflexivity|]. split; [|exact K]. apply Forall_app. split; [exact PN|]. constructor; [|constructor].
    repeat split; assumption.
Qed.
Lemma split_no_sep c s : Forall (fun p => ~ In c p) (split_char c s).
Proof. apply Forall_forall. intros p I. exact (split_char_parts_free c s p I). Qed.
Lemma stacked_nil rooted : stacked rooted [].
Proof. exists [], 0%nat. cbn. auto. Qed.

(** ** Splitting joined paths *)
Lemma split_sep c a b : split_char c (a ++ c :: b) = split_char c a ++ split_char c b.
Proof.
  induction a as [|x a IH]; cbn [app split_char].
  - rewrite N.eqb_refl. reflexivity.
  - destruct (N.eqb x c); [rewrite IH; reflexivity|]. rewrite IH. assert (NN := split_char_nonnil c a). destruct (split_char c a); [contradiction|reflexivity].
Qed.
Definition is_skipped := Forall (fun c => skipped c = true).
Lemma seps_skipped k : is_skipped (split_char 47 (repeat 47%N k)).
Proof.
  induction k as [|k IH]; [repeat constructor|]. cbn [repeat split_char]. rewrite N.eqb_refl. constructor; [reflexivity|exact IH].
Qed.
Lemma join_split l : l <> [] -> Forall plain l -> split_char 47 (join (u "/") l) = l.
Proof. intros N F. apply (split_char_join 47 l); [exact N|]. intros x I. apply (proj1 (Forall_forall _ _) F x I). Qed.

(** ** The normal form of a path *)
Lemma norm_form p : p <> [] -> exists names k, Forall plain names /\ (slashes p <> 0%nat -> k = 0%nat)
  /\ rev (norm_go (negb (Nat.eqb (slashes p) 0)) [] (split_char 47 p)) = repeat dotdot k ++ names.
Proof.
  intros _. destruct (norm_stacked (negb (Nat.eqb (slashes p) 0)) (split_char 47 p) [] (split_no_sep 47 p) (stacked_nil _)) as (names & k & E & PN & K).
  exists names, k. split; [exact PN|]. split; [|exact E]. intros S. apply K. destruct (slashes p); [contradiction|reflexivity].
Qed.

(** ** Stripping dots and slashes *)
Definition ds (c : N) : bool := N.eqb c 46 || N.eqb c 47.
Definition dots (c : N) : bool := N.eqb c 46.
Fixpoint strip_list (l : list str) : list str :=
  match l with [] => [] | c :: r => match lstrip_by dots c with [] => strip_list r | c' => c' :: r end end.
Lemma lstrip_dots c w : ~ In 47%N c -> lstrip_by ds (c ++ w) = match lstrip_by dots c with [] => lstrip_by ds w | c' => c' ++ w end.
Proof.
  induction c as [|x c IH]; intros N; [reflexivity|]. cbn [app lstrip_by]. unfold ds at 1, dots at 1. destruct (N.eqb_spec x 47) as [->|N47]; [contradiction N; left; reflexivity|]. rewrite orb_false_r.
  destruct (N.eqb x 46); [|reflexivity]. apply IH. intros I. apply N. right. exact I.
Qed.
Lemma lstrip_list l : Forall (fun c => ~ In 47%N c) l -> lstrip_by ds (join (u "/") l) = join (u "/") (strip_list l).
Proof.
  induction l as [|c l IH]; intros F; [reflexivity|]. inversion F as [|? ? F1 F2]; subst. destruct l as [|c2 l].
  - cbn [join strip_list]. rewrite <- (app_nil_r c) at 1. rewrite lstrip_dots by exact F1. destruct (lstrip_by dots c); [reflexivity|]. cbn [join]. apply app_nil_r.
  - change (join (u "/") (c :: c2 :: l)) with (c ++ u "/" ++ join (u "/") (c2 :: l)). rewrite lstrip_dots by exact F1. cbn [strip_list]. destruct (lstrip_by dots c) as [|x c'] eqn:E.
    + cbn [app lstrip_by u]. change (ds 47) with true. cbn iota. exact (IH F2).
    + reflexivity.
Qed.
Lemma lstrip_head c x r : lstrip_by dots c = x :: r -> x <> 46%N.
Proof.
  induction c as [|y c IH]; [discriminate|]. cbn [lstrip_by]. unfold dots at 1. destruct (N.eqb_spec y 46) as [->|N]; [exact IH|]. intros E. congruence.
Qed.
Lemma lstrip_in c x : In x (lstrip_by dots c) -> In x c.
Proof. induction c as [|y c IH]; [intros []|]. cbn [lstrip_by]. destruct (dots y); [intros I; right; exact (IH I)|exact (fun I => I)]. Qed.
Lemma strip_dotdots k names : strip_list (repeat dotdot k ++ names) = strip_list names.
Proof. induction k as [|k IH]; [reflexivity|]. cbn [repeat app strip_list]. exact IH. Qed.
Lemma strip_plain names : Forall plain names -> Forall plain (strip_list names) /\ (forall n r, strip_list names = n :: r -> hd 0%N n <> 46%N).
Proof.
  induction names as [|c names IH]; intros F; [split; [constructor|discriminate]|]. inversion F as [|? ? F1 F2]; subst. cbn [strip_list]. destruct (lstrip_by dots c) as [|x c'] eqn:E; [exact (IH F2)|].
  assert (X := lstrip_head _ _ _ E). split; [|intros n r H; assert (n = x :: c') by congruence; subst n; exact X].
  constructor; [|exact F2]. destruct F1 as (_ & _ & _ & N47). split; [discriminate|]. split; [intros H; apply X; injection H as -> _; reflexivity|]. split; [intros H; apply X; injection H as -> _; reflexivity|].
  intros I. apply N47. apply lstrip_in. rewrite E. exact I.
Qed.

(** ** Joining *)
Lemma plain_rel n : plain n -> prefixb (u "/") n = false.
Proof.
  intros (A & _ & _ & N). destruct n as [|c n]; [contradiction A; reflexivity|]. destruct (prefixb (u "/") (c :: n)) eqn:E; [|reflexivity]. apply prefixb_iff in E. destruct E as (r & E). exfalso. apply N. rewrite E. left. reflexivity.
Qed.
Lemma suffix_last (a : str) x : suffixb (u "/") (a ++ [x]) = N.eqb x 47.
Proof.
  destruct (suffixb (u "/") (a ++ [x])) eqn:E.
  - apply suffixb_iff in E. destruct E as (r & E). change (u "/") with [47%N] in E. apply app_inj_tail in E. destruct E as [_ ->]. reflexivity.
  - destruct (N.eqb_spec x 47) as [->|]; [|reflexivity]. assert (X : suffixb (u "/") (a ++ [47%N]) = true) by (apply suffixb_iff; exists a; reflexivity). congruence.
Qed.
Lemma plain_no_suffix a n : plain n -> suffixb (u "/") (a ++ n) = false.
Proof.
  intros (A & _ & _ & N). destruct (@exists_last _ n A) as (l & x & ->). rewrite app_assoc, suffix_last. destruct (N.eqb_spec x 47) as [->|]; [|reflexivity]. exfalso. apply N. apply in_or_app. right. left. reflexivity.
Qed.
Lemma join_cons_plain a l : Forall plain (a :: l) -> path_joins (a :: l) = join (u "/") (a :: l).
Proof.
  cbn [path_joins]. assert (G : forall l pre a, Forall plain (a :: l) -> fold_left path_join l (pre ++ a) = pre ++ join (u "/") (a :: l)).
  { clear. induction l as [|b l IH]; intros pre a F; [reflexivity|]. inversion F as [|? ? F1 F2]; subst. inversion F2 as [|? ? F3 F4]; subst.
    assert (E : path_join (pre ++ a) b = (pre ++ a ++ u "/") ++ b).
    { unfold path_join. rewrite (plain_rel b F3). rewrite (plain_no_suffix pre a F1). destruct (pre ++ a) as [|x w] eqn:X; [|rewrite <- X, <- !app_assoc; reflexivity].
      apply app_eq_nil in X. destruct X as [_ ->]. destruct F1 as (F1 & _). contradiction F1. reflexivity. }
    cbn [fold_left]. rewrite E, IH by exact F2. rewrite <- !app_assoc. reflexivity. }
  exact (G l [] a).
Qed.
Lemma slashes_plain n w : plain n -> slashes (n ++ w) = 0%nat.
Proof.
  intros (A & _ & _ & N). unfold slashes. destruct n as [|c n]; [contradiction A; reflexivity|]. destruct (prefixb (u "/") ((c :: n) ++ w)) eqn:E; [|reflexivity]. apply prefixb_iff in E. destruct E as (r & E).
  exfalso. apply N. cbn [app] in E. injection E as -> _. left. reflexivity.
Qed.
Lemma join_head n l : join (u "/") (n :: l) = n ++ match l with [] => [] | _ => u "/" ++ join (u "/") l end.
Proof. destruct l; [cbn; rewrite app_nil_r; reflexivity|reflexivity]. Qed.
Lemma normpath_plain n l : Forall plain (n :: l) -> normpath (join (u "/") (n :: l)) = join (u "/") (n :: l).
Proof.
  intros F. assert (P := F). inversion P as [|? ? F1 F2]; subst. unfold normpath. destruct (join (u "/") (n :: l)) as [|x w] eqn:E.
  - rewrite join_head in E. apply app_eq_nil in E. destruct E as [-> _]. destruct F1 as (F1 & _). contradiction F1. reflexivity.
  - rewrite <- E. assert (S : slashes (join (u "/") (n :: l)) = 0%nat) by (rewrite join_head; apply slashes_plain; exact F1). rewrite S. cbn [Nat.eqb negb repeat app].
    rewrite join_split, norm_plain, app_nil_r, rev_involutive; [|exact F|discriminate|exact F]. rewrite E. reflexivity.
Qed.

(** ** The path that is looked up *)
Lemma looked_path root path : get_path root path = dot \/ exists n l, Forall plain (n :: l) /\ hd 0%N n <> 46%N /\ get_path root path = join (u "/") (n :: l).
Proof.
  unfold get_path. set (r := static_route_path root path). clearbody r.
  assert (G : exists names, Forall plain names /\ (forall n q, names = n :: q -> hd 0%N n <> 46%N) /\ lstrip_by ds (normpath r) = join (u "/") names).
  { destruct r as [|c r'] eqn:ER; [exists []; split; [constructor|split; [discriminate|reflexivity]]|]. rewrite <- ER. assert (RN : r <> []) by (rewrite ER; discriminate). clear ER. destruct (norm_form r RN) as (names & k & PN & K & E).
    assert (SL : forall j w, lstrip_by ds (repeat 47%N j ++ w) = lstrip_by ds w) by (induction j as [|j IH]; intros w; [reflexivity|exact (IH w)]).
    assert (NP : lstrip_by ds (normpath r) = lstrip_by ds (repeat 47%N (slashes r) ++ join (u "/") (repeat dotdot k ++ names))).
    { unfold normpath. destruct r as [|x r]; [contradiction RN; reflexivity|]. rewrite E. destruct (repeat 47%N (slashes (x :: r)) ++ join (u "/") (repeat dotdot k ++ names)); reflexivity. }
    rewrite NP, SL, lstrip_list.
    - rewrite strip_dotdots. destruct (strip_plain names PN) as [A B]. exists (strip_list names). auto.
    - apply Forall_app. split; [|apply (Forall_impl _ (fun a H => proj2 (proj2 (proj2 H))) PN)]. apply Forall_forall. intros x I. apply repeat_spec in I. subst x. apply cmem_not_In. reflexivity. }
  destruct G as (names & F & HD & E). change (fun c : N => N.eqb c 46 || N.eqb c 47) with ds. rewrite E. destruct names as [|n l].
  - left. reflexivity.
  - right. exists n, l. split; [exact F|]. split; [exact (HD n l eq_refl)|]. rewrite join_split by (exact F || discriminate). rewrite join_cons_plain by exact F. apply normpath_plain. exact F.
Qed.

(** ** Absolute paths *)
(** A relative path whose components are names or ".". *)
Definition calm (p : str) (names : list str) : Prop :=
  p <> [] /\ prefixb (u "/") p = false /\ Forall plain names /\ exists comps, split_char 47 p = comps /\ forall rooted st, norm_go rooted st comps = rev names ++ st.
Lemma calm_dot : calm dot [].
Proof. split; [discriminate|]. split; [reflexivity|]. split; [constructor|]. exists [dot]. split; reflexivity. Qed.
Lemma calm_names n l : Forall plain (n :: l) -> calm (join (u "/") (n :: l)) (n :: l).
Proof.
  intros F. assert (P := F). inversion P as [|? ? F1 F2]; subst. split; [rewrite join_head; intros E; apply app_eq_nil in E; destruct E as [-> _]; destruct F1 as (F1 & _); contradiction F1; reflexivity|].
  split; [|split; [exact F|]].
  - rewrite join_head. assert (X := plain_rel n F1). destruct n as [|c n]; [destruct F1 as (F1 & _); contradiction F1; reflexivity|]. exact X.
  - exists (n :: l). split; [apply join_split; [discriminate|exact F]|]. intros rooted st. apply norm_plain. exact F.
Qed.
Lemma calm_join p names n : calm p names -> plain n -> calm (path_join p n) (names ++ [n]).
Proof.
  intros (PN & PR & F & comps & E & NG) Pn. unfold path_join. rewrite (plain_rel n Pn). destruct p as [|c p]; [contradiction PN; reflexivity|].
  assert (ONE : split_char 47 n = [n]) by (apply split_char_free; destruct Pn as (_ & _ & _ & N); exact N).
  assert (FN : Forall plain (names ++ [n])) by (apply Forall_app; split; [exact F|constructor; [exact Pn|constructor]]).
  assert (NG2 : forall rooted st, norm_go rooted st (comps ++ [n]) = rev (names ++ [n]) ++ st).
  { intros rooted st. rewrite norm_app, NG, (norm_plain rooted [n]) by (constructor; [exact Pn|constructor]). rewrite rev_app_distr. reflexivity. }
  destruct (suffixb (u "/") (c :: p)) eqn:S.
  - split; [discriminate|]. split; [exact PR|]. split; [exact FN|]. eexists. split; [reflexivity|]. apply suffixb_iff in S. destruct S as (w & S). rewrite S in E |- *. change (u "/") with [47%N] in E |- *.
    intros rooted st. rewrite <- app_assoc. cbn [app]. rewrite split_sep. change (w ++ [47%N]) with (w ++ 47%N :: []) in E. rewrite split_sep in E.
    specialize (NG rooted st). rewrite <- E, norm_app in NG. cbn in NG. rewrite norm_app, NG. rewrite ONE, (norm_plain rooted [n]) by (constructor; [exact Pn|constructor]). rewrite rev_app_distr. reflexivity.
  - split; [discriminate|]. split; [exact PR|]. split; [exact FN|]. exists (comps ++ [n]). split; [|exact NG2]. change (u "/" ++ n) with (47%N :: n). rewrite split_sep, E, ONE. reflexivity.
Qed.
Lemma pre1 (w : str) : prefixb (u "/") w = match w with a :: _ => N.eqb 47 a | _ => false end.
Proof. destruct w as [|a w]; [reflexivity|]. change (N.eqb 47 a && true = N.eqb 47 a). apply andb_true_r. Qed.
Lemma pre2 (w : str) : prefixb (u "//") w = match w with a :: b :: _ => N.eqb 47 a && N.eqb 47 b | _ => false end.
Proof. destruct w as [|a [|b w]]; [reflexivity| |]; [change (N.eqb 47 a && false = false); apply andb_false_r|]. change (N.eqb 47 a && (N.eqb 47 b && true) = N.eqb 47 a && N.eqb 47 b). rewrite andb_true_r. reflexivity. Qed.
Lemma pre3 (w : str) : prefixb (u "///") w = match w with a :: b :: c :: _ => N.eqb 47 a && N.eqb 47 b && N.eqb 47 c | _ => false end.
Proof.
  destruct w as [|a [|b [|c w]]]; [reflexivity| | |].
  - change (N.eqb 47 a && false = false). apply andb_false_r.
  - change (N.eqb 47 a && (N.eqb 47 b && false) = false). rewrite !andb_false_r. reflexivity.
  - change (N.eqb 47 a && (N.eqb 47 b && (N.eqb 47 c && true)) = N.eqb 47 a && N.eqb 47 b && N.eqb 47 c). rewrite andb_true_r, andb_assoc. reflexivity.
Qed.
Lemma slashes_more x y : x <> [] -> prefixb (u "/") y = false -> slashes (x ++ y) = slashes x.
Proof.
  intros N P. unfold slashes. rewrite !pre1, !pre2, !pre3. rewrite pre1 in P. destruct x as [|a [|b [|c x]]]; [contradiction N; reflexivity| | |reflexivity]; cbn [app].
  - destruct y as [|c [|d y]]; [reflexivity|rewrite P, andb_false_r; reflexivity|]. rewrite P, andb_false_r. reflexivity.
  - destruct y as [|c y]; [reflexivity|]. rewrite P, andb_false_r. reflexivity.
Qed.
Lemma slashes_sep x y : x <> [] -> suffixb (u "/") x = false -> slashes (x ++ u "/" ++ y) = slashes x.
Proof.
  intros N S. unfold slashes. rewrite !pre1, !pre2, !pre3. change (u "/" ++ y) with (47%N :: y). destruct x as [|a [|b [|c x]]]; [contradiction N; reflexivity| | |reflexivity]; cbn [app].
  - change [a] with ([] ++ [a]) in S. rewrite suffix_last, N.eqb_sym in S. rewrite S. reflexivity.
  - change [a; b] with ([a] ++ [b]) in S. rewrite suffix_last, N.eqb_sym in S. rewrite S, !andb_false_r. reflexivity.
Qed.
(** A path and what it becomes when names are added. *)
Lemma norm_join base p names : base <> [] -> prefixb (u "/") base = true -> calm p names ->
  normpath (path_join base p) = below (normpath base) names.
Proof.
  intros BN BA (PN & PR & F & comps & E & NG).
  assert (SB : slashes (path_join base p) = slashes base).
  { unfold path_join. rewrite PR. destruct base as [|b base]; [contradiction BN; reflexivity|]. destruct (suffixb (u "/") (b :: base)) eqn:S; [apply slashes_more; [discriminate|exact PR]|apply slashes_sep; [discriminate|exact S]]. }
  assert (S0 : slashes base <> 0%nat) by (unfold slashes; rewrite BA; destruct (prefixb (u "//") base && _); discriminate).
  assert (CO : forall rooted, norm_go rooted [] (split_char 47 (path_join base p)) = rev names ++ norm_go rooted [] (split_char 47 base)).
  { intros rooted. unfold path_join. rewrite PR. destruct base as [|b base]; [contradiction BN; reflexivity|]. destruct (suffixb (u "/") (b :: base)) eqn:S.
    - apply suffixb_iff in S. destruct S as (w & S). change (u "/") with [47%N] in S. rewrite S, <- app_assoc. cbn [app]. change (w ++ [47%N]) with (w ++ 47%N :: []). rewrite !split_sep, !norm_app, E, NG. reflexivity.
    - change (u "/" ++ p) with (47%N :: p). rewrite split_sep, norm_app, E, NG. reflexivity. }
  assert (JN : path_join base p <> []).
  { unfold path_join. rewrite PR. destruct base as [|b base]; [contradiction BN; reflexivity|]. destruct (suffixb _ _); discriminate. }
  assert (NP : forall q, q <> [] -> slashes q <> 0%nat -> normpath q = repeat 47%N (slashes q) ++ join (u "/") (rev (norm_go true [] (split_char 47 q)))).
  { intros q QN QS. unfold normpath. destruct q as [|x q]; [contradiction QN; reflexivity|]. destruct (slashes (x :: q)) as [|k]; [contradiction QS; reflexivity|]. reflexivity. }
  rewrite (NP _ JN) by (rewrite SB; exact S0). rewrite (NP _ BN S0), SB, CO, rev_app_distr, rev_involutive.
  destruct (norm_stacked true (split_char 47 base) [] (split_no_sep 47 base) (stacked_nil _)) as (bn & k & EB & PB & K). rewrite (K eq_refl) in EB. cbn [repeat app] in EB. rewrite EB.
  destruct names as [|n names]; [rewrite app_nil_r; reflexivity|]. unfold below.
  destruct bn as [|b0 bn] using rev_ind.
  - cbn [app join]. rewrite app_nil_r. destruct (slashes base) as [|j] eqn:SJ; [contradiction S0; reflexivity|]. rewrite <- repeat_snoc, suffix_last. reflexivity.
  - clear IHbn. apply Forall_app in PB. destruct PB as [PB1 PB2]. inversion PB2 as [|? ? P0 _]; subst.
    assert (JS : exists pre, join (u "/") (bn ++ [b0]) = pre ++ b0).
    { clear. induction bn as [|x bn IH]; [exists []; reflexivity|]. destruct IH as (pre & IH). exists (x ++ u "/" ++ pre). cbn [app]. rewrite join_head, IH, <- !app_assoc. destruct (bn ++ [b0]) eqn:X; [destruct bn; discriminate X|]. reflexivity. }
    destruct JS as (pre & JS). rewrite JS, app_assoc, (plain_no_suffix _ b0 P0), <- !app_assoc. f_equal.
    transitivity (join (u "/") (bn ++ [b0]) ++ u "/" ++ join (u "/") (n :: names)); [|rewrite JS, <- app_assoc; reflexivity].
    clear. change ([b0] ++ n :: names) with (b0 :: n :: names). assert (JC : forall (x : str) l, l <> [] -> join (u "/") (x :: l) = x ++ u "/" ++ join (u "/") l) by (intros x [|y l] H; [contradiction H; reflexivity|reflexivity]).
    induction bn as [|x bn IH]; [reflexivity|]. cbn [app]. rewrite !JC by (destruct bn; discriminate). rewrite IH, <- !app_assoc. reflexivity.
Qed.
Lemma join_assoc a b p names : calm p names -> path_join a (path_join b p) = path_join (path_join a b) p \/ (b = [] /\ path_join a (path_join b p) = path_join a p).
Proof.
  intros (PN & PR & _). destruct b as [|x b]; [right; split; [reflexivity|]; replace (path_join [] p) with p by (unfold path_join; rewrite PR; reflexivity); reflexivity|left].
  assert (IN : path_join (x :: b) p = if suffixb (u "/") (x :: b) then (x :: b) ++ p else (x :: b) ++ u "/" ++ p) by (unfold path_join; rewrite PR; reflexivity). rewrite IN. clear IN.
  unfold path_join. rewrite PR. destruct (prefixb (u "/") (x :: b)) eqn:B.
  - assert (B2 : forall w, prefixb (u "/") ((x :: b) ++ w) = true) by (intros w; apply prefixb_iff in B; destruct B as (r & ->); apply prefixb_iff; exists (r ++ w); rewrite <- app_assoc; reflexivity).
    destruct (suffixb (u "/") (x :: b)); rewrite B2; reflexivity.
  - assert (B2 : forall w, prefixb (u "/") ((x :: b) ++ w) = false) by (intros w; destruct (prefixb (u "/") ((x :: b) ++ w)) eqn:X; [|reflexivity]; cbn in X, B; congruence).
    assert (SX : forall w, suffixb (u "/") (w ++ x :: b) = suffixb (u "/") (x :: b)).
    { intros w. destruct (@exists_last _ (x :: b)) as (l & y & L); [discriminate|]. rewrite L, app_assoc, !suffix_last. reflexivity. }
    destruct (suffixb (u "/") (x :: b)) eqn:S; rewrite B2; destruct a as [|y a].
    + cbn [app]. rewrite S. reflexivity.
    + destruct (suffixb (u "/") (y :: a)).
      * rewrite SX. rewrite <- !app_assoc. reflexivity.
      * replace (suffixb (u "/") ((y :: a) ++ u "/" ++ x :: b)) with true by (rewrite app_assoc; symmetry; apply SX). rewrite <- !app_assoc. reflexivity.
    + cbn [app]. rewrite S. reflexivity.
    + destruct (suffixb (u "/") (y :: a)).
      * rewrite SX. rewrite <- !app_assoc. reflexivity.
      * replace (suffixb (u "/") ((y :: a) ++ u "/" ++ x :: b)) with false by (rewrite app_assoc; symmetry; apply SX). rewrite <- !app_assoc. reflexivity.
Qed.
Lemma join_abs a b : prefixb (u "/") a = true -> prefixb (u "/") (path_join a b) = true.
Proof.
  intros A. unfold path_join. destruct (prefixb (u "/") b) eqn:B; [exact B|]. destruct a as [|x a]; [discriminate A|]. apply prefixb_iff in A. destruct A as (r & A). rewrite A. destruct (suffixb _ _); apply prefixb_iff; [exists (r ++ b)|exists (r ++ u "/" ++ b)]; rewrite <- app_assoc; reflexivity.
Qed.
Lemma abspath_join cwd p : prefixb (u "/") cwd = true -> abspath cwd p = normpath (path_join cwd p).
Proof. intros C. unfold abspath, path_join. destruct (prefixb (u "/") p) eqn:P; rewrite ?P; reflexivity. Qed.
Lemma norm_idem base : base <> [] -> prefixb (u "/") base = true -> normpath (path_join base []) = normpath base.
Proof.
  intros N A. unfold path_join. change (prefixb (u "/") []) with false. destruct base as [|b base]; [contradiction N; reflexivity|]. destruct (suffixb (u "/") (b :: base)) eqn:S; [rewrite app_nil_r; reflexivity|].
  rewrite app_nil_r. set (q := b :: base) in *. assert (SQ : slashes (q ++ u "/") = slashes q) by (rewrite <- (app_nil_r (u "/")); apply slashes_sep; [discriminate|exact S]).
  unfold normpath. assert (NN : exists x w, q ++ u "/" = x :: w) by (exists b, (base ++ u "/"); reflexivity). destruct NN as (x & w & NN). rewrite NN, <- NN, SQ. unfold q at 3. fold q.
  change (u "/") with (47%N :: []). rewrite split_sep, norm_app. reflexivity.
Qed.
Lemma full_inside cwd d p names : prefixb (u "/") cwd = true -> calm p names -> abspath cwd (path_join d p) = below (abspath cwd d) names.
Proof.
  intros C K. rewrite !abspath_join by exact C. assert (CN : cwd <> []) by (intros ->; discriminate C).
  assert (JA := join_abs cwd d C). assert (JN : path_join cwd d <> []) by (intros E; rewrite E in JA; discriminate JA).
  destruct (join_assoc cwd d p names K) as [E|[-> E]]; rewrite E; [apply norm_join; assumption|]. rewrite (norm_join cwd p names CN C K), (norm_idem cwd CN C). reflexivity.
Qed.
