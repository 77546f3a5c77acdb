(** C380-C381: finding a custom directive. *)
From Coq Require Import Permutation Sorted.
From Verif Require Import PyStr PyStrFacts CollModel CollProofs FdirModel.

(** ** Specification *)
(** The directive [name] is in the folder [loc]: a module there, no package, whose name does not begin with
    an underscore. *)
Definition offered (walk : list visit) (name loc : str) : Prop :=
  exists v, In v walk /\ In (u "operations") (folders v) /\ In (name, false) (modules v)
    /\ (forall r, name <> 95%N :: r) /\ loc = root v ++ u "/operations".
(** The order of texts. *)
Definition not_after (a b : str) : Prop :=
  exists p s t, a = p ++ s /\ b = p ++ t /\ (s = [] \/ exists x y s' t', s = x :: s' /\ t = y :: t' /\ (x < y)%N).

Lemma leb_spec a : forall b, str_leb a b = true -> not_after a b.
Proof.
  induction a as [|x a IH]; intros b; cbn [str_leb].
  - intros _. exists [], [], b. auto.
  - destruct b as [|y b]; [discriminate|]. destruct (N.eqb_spec x y) as [->|N].
    + intros H. destruct (IH b H) as (p & s & t & -> & -> & D). exists (y :: p), s, t. auto.
    + intros H. apply N.ltb_lt in H. exists [], (x :: a), (y :: b). split; [reflexivity|]. split; [reflexivity|]. right. exists x, y, a, b. auto.
Qed.
Lemma found_iff walk name loc : In (name, loc) (find_application_directives walk) <-> offered walk name loc.
Proof.
  unfold find_application_directives, offered. rewrite in_flat_map.
  assert (U : forall n, prefixb (u "_") n = false <-> forall r, n <> 95%N :: r).
  { intros [|c n]; [split; [intros _ r E; discriminate E|reflexivity]|]. change (u "_") with [95%N]. cbn [prefixb]. destruct (N.eqb_spec 95 c) as [<-|N].
    - split; [intros E; destruct n; discriminate E|]. intros H. destruct (H n eq_refl).
    - split; [|reflexivity]. intros _ r E. injection E as E _. congruence. }
  split.
  - intros (v & V & I). destruct (smem (u "operations") (folders v)) eqn:F; [|destruct I]. cbn [negb] in I. apply in_flat_map in I as ((n, p) & M & I). cbn [fst snd] in I.
    destruct p; [destruct I|]. cbn [negb andb] in I. destruct (prefixb (u "_") n) eqn:P; [destruct I|]. destruct I as [I|[]]. injection I as <- <-.
    exists v. split; [exact V|]. split; [apply smem_In; exact F|]. split; [exact M|]. split; [apply U; exact P|reflexivity].
  - intros (v & V & F & M & P & ->). exists v. split; [exact V|]. apply smem_In in F. rewrite F. cbn [negb]. apply in_flat_map. exists (name, false). split; [exact M|].
    cbn [fst snd]. apply U in P. rewrite P. left. reflexivity.
Qed.
Lemma insert_perm e l : Permutation (insert_directive e l) (e :: l).
Proof. induction l as [|x r IH]; cbn [insert_directive]; [apply Permutation_refl|]. destruct (str_leb (snd e) (snd x)); [apply Permutation_refl|]. rewrite IH. apply perm_swap. Qed.
Lemma sort_perm l : Permutation (by_location l) l.
Proof. induction l as [|x r IH]; cbn [by_location fold_right]; [apply Permutation_refl|]. fold (by_location r). rewrite insert_perm, IH. apply Permutation_refl. Qed.
Definition le_loc (a b : list str * str) : Prop := str_leb (snd a) (snd b) = true.
Lemma insert_sorted e l : StronglySorted le_loc l -> StronglySorted le_loc (insert_directive e l).
Proof.
  induction l as [|x r IH]; intros S; cbn [insert_directive]; [repeat constructor|]. inversion S as [|? ? SR FR]; subst. destruct (str_leb (snd e) (snd x)) eqn:E.
  - constructor; [exact S|]. constructor; [exact E|]. apply Forall_forall. intros y I. rewrite Forall_forall in FR. apply (str_leb_trans _ (snd x)); [exact E|exact (FR y I)].
  - constructor; [apply IH; exact SR|]. apply Forall_forall. intros y I. apply (Permutation_in _ (insert_perm e r)) in I. destruct I as [<-|I].
    + unfold le_loc. destruct (str_leb_total (snd x) (snd e)); [assumption|congruence].
    + rewrite Forall_forall in FR. exact (FR y I).
Qed.
Lemma sort_sorted l : StronglySorted le_loc (by_location l).
Proof. induction l as [|x r IH]; cbn [by_location fold_right]; [constructor|]. apply insert_sorted. exact IH. Qed.
Lemma search_app name l x : search name (l ++ [x]) = if smem name (fst x) then Some (snd x) else search name l.
Proof. unfold search. rewrite fold_left_app. reflexivity. Qed.
Lemma search_some name l loc : StronglySorted le_loc l -> search name l = Some loc ->
  (exists d, In d l /\ In name (fst d) /\ snd d = loc) /\ forall d, In d l -> In name (fst d) -> str_leb (snd d) loc = true.
Proof.
  revert loc. induction l as [|x l IH] using rev_ind; intros loc S; [discriminate|]. rewrite search_app.
  assert (SL : StronglySorted le_loc l /\ forall d, In d l -> le_loc d x).
  { clear IH. induction l as [|y l IHl]; cbn [app] in S; [split; [constructor|intros d []]|]. inversion S as [|? ? SR FR]; subst. destruct (IHl SR) as (A & B).
    rewrite Forall_forall in FR. split.
    - constructor; [exact A|]. apply Forall_forall. intros z I. apply FR. apply in_or_app. left. exact I.
    - intros d [<-|I]; [apply FR; apply in_or_app; right; left; reflexivity|apply B; exact I]. }
  destruct SL as (SL & LX). destruct (smem name (fst x)) eqn:E.
  - intros X. injection X as <-. apply smem_In in E. split; [exists x; split; [apply in_or_app; right; left; reflexivity|auto]|].
    intros d I _. apply in_app_or in I as [I|[<-|[]]]; [apply LX; exact I|apply str_leb_refl].
  - intros X. destruct (IH loc SL X) as ((d & I & N & L) & M). split; [exists d; split; [apply in_or_app; left; exact I|auto]|].
    intros d' I' N'. apply in_app_or in I' as [I'|[<-|[]]]; [apply M; assumption|]. apply smem_In in N'. congruence.
Qed.
Lemma search_none name l : search name l = None <-> forall d, In d l -> ~ In name (fst d).
Proof.
  induction l as [|x l IH] using rev_ind; [split; [intros _ d []|reflexivity]|]. rewrite search_app. destruct (smem name (fst x)) eqn:E.
  - split; [discriminate|]. intros H. apply smem_In in E. destruct (H x); [apply in_or_app; right; left; reflexivity|exact E].
  - rewrite IH. split.
    + intros H d I. apply in_app_or in I as [I|[<-|[]]]; [apply H; exact I|]. intros X. apply smem_In in X. congruence.
    + intros H d I. apply H. apply in_or_app. left. exact I.
Qed.
Lemma keys_offered walk name : name <> u "location" -> name <> u "name" ->
  forall d, In d (get_application_directives walk) -> (In name (fst d) <-> offered walk name (snd d) /\ In name (fst d)).
Proof.
  intros A B d I. split; [|intros (_ & X); exact X]. intros N. split; [|exact N]. apply in_map_iff in I as ((n, loc) & <- & I). cbn [fst snd] in *.
  destruct N as [<-|[X|[X|[]]]]; [apply found_iff; exact I|congruence|congruence].
Qed.

(** ** C380 *)
(** A custom directive that the application offers is found; offered in several folders, it is taken from
    the last of them in the order of texts. *)
Theorem C380_found : forall walk name, name <> u "location" -> name <> u "name" -> (exists loc, offered walk name loc) ->
  exists loc, offered walk name loc /\ (forall loc', offered walk name loc' -> not_after loc' loc)
    /\ fetch_custom_directive walk name = File (loc ++ u "/" ++ name ++ u ".py").
Proof.
  intros walk name A B (loc0 & O). unfold fetch_custom_directive. set (ds := get_application_directives walk).
  assert (K : forall loc, offered walk name loc -> In ([name; u "location"; u "name"], loc) (by_location ds)).
  { intros loc X. apply (Permutation_in _ (Permutation_sym (sort_perm ds))). apply in_map_iff. exists (name, loc). split; [reflexivity|]. apply found_iff. exact X. }
  destruct (search name (by_location ds)) as [loc|] eqn:S.
  - destruct (search_some name _ loc (sort_sorted ds) S) as ((d & I & N & <-) & M). exists (snd d). split.
    + apply (Permutation_in _ (sort_perm ds)) in I. apply (keys_offered walk name A B d I) in N as (X & _). exact X.
    + split; [|reflexivity]. intros loc' X. apply leb_spec. apply (M ([name; u "location"; u "name"], loc') (K loc' X)). left. reflexivity.
  - exfalso. apply (proj1 (search_none name (by_location ds)) S _ (K loc0 O)). left. reflexivity.
Qed.
Print Assumptions C380_found.
Definition C380_walk : list visit :=
  [{| root := u "/p"; folders := [u "b"; u "a"]; modules := [] |};
   {| root := u "/p/b"; folders := [u "operations"]; modules := [(u "seed", false); (u "_x", false); (u "pk", true)] |};
   {| root := u "/p/a"; folders := [u "operations"; u "t"]; modules := [(u "seed", false); (u "only", false)] |}].
Example C380_case :
  fetch_custom_directive C380_walk (u "seed") = File (u "/p/b/operations/seed.py") /\ fetch_custom_directive C380_walk (u "only") = File (u "/p/a/operations/only.py")
  /\ fetch_custom_directive C380_walk (u "_x") = Missing /\ fetch_custom_directive C380_walk (u "pk") = Missing
  /\ offered C380_walk (u "seed") (u "/p/a/operations").
Proof.
  repeat (split; [vm_compute; reflexivity|]). eexists. split; [right; right; left; reflexivity|]. split; [left; reflexivity|]. split; [left; reflexivity|].
  split; [intros r E; discriminate E|reflexivity].
Qed.

(** ** C381 *)
(** A directive that no folder offers is reported as missing. *)
Definition C381_statement : Prop := forall walk name, (forall loc, ~ offered walk name loc) -> fetch_custom_directive walk name = Missing.
Theorem C381_missing_partial : forall walk name, name <> u "location" -> name <> u "name" ->
  (exists other loc, offered walk other loc) -> (forall loc, ~ offered walk name loc) -> fetch_custom_directive walk name = Missing.
Proof.
  intros walk name A B (other & loc & O) N. unfold fetch_custom_directive.
  assert (S : search name (by_location (get_application_directives walk)) = None).
  { apply search_none. intros d I X. apply (Permutation_in _ (sort_perm _)) in I. apply (keys_offered walk name A B d I) in X as (X & _). exact (N _ X). }
  rewrite S. apply found_iff in O. unfold get_application_directives. destruct (find_application_directives walk); [destruct O|reflexivity].
Qed.
Print Assumptions C381_missing_partial.
(** Without any directive the search raises; and the names [location] and [name] are found in any case. *)
Theorem C381_refuted : ~ C381_statement
  /\ (forall walk name, (forall other loc, ~ offered walk other loc) -> fetch_custom_directive walk name = Unbound)
  /\ exists walk loc, (forall l, ~ offered walk (u "location") l) /\ fetch_custom_directive walk (u "location") = File loc.
Proof.
  assert (E : forall walk name, (forall other loc, ~ offered walk other loc) -> fetch_custom_directive walk name = Unbound).
  { intros walk name H. unfold fetch_custom_directive, get_application_directives. destruct (find_application_directives walk) as [|(n, l) r] eqn:F; [reflexivity|].
    destruct (H n l). apply found_iff. rewrite F. left. reflexivity. }
  split; [|split; [exact E|]].
  - intros S. assert (N : forall other loc, ~ offered [] other loc) by (intros other loc (v & [] & _)).
    pose proof (S [] (u "x") (N (u "x"))) as X. rewrite (E [] (u "x") N) in X. discriminate X.
  - exists C380_walk. eexists. split; [|vm_compute; reflexivity].
    intros l O. apply found_iff in O. vm_compute in O. repeat (destruct O as [O|O]; [discriminate O|]). exact O.
Qed.
Print Assumptions C381_refuted.
Example C381_case : fetch_custom_directive C380_walk (u "location") = File (u "/p/b/operations/location.py") /\ fetch_custom_directive [] (u "seed") = Unbound.
Proof. vm_compute. auto. Qed.
