(** Properties of the command line. *)
From Verif Require Import PyStr PyStrFacts PathModel PathSpec PathProofs CliModel.

(** *** C244: [lilya show-urls] lists every http route, in order, with its full address. *)
(** The http routes with their addresses: the paths of the includes around them and their own, put together. *)
Fixpoint addresses_of (prefix : str) (r : route) : list (str * nat) :=
  match r with
  | RPath p row => [(prefix ++ p, row)]
  | RInclude p rs => flat_map (addresses_of (prefix ++ p)) rs
  | RWebSocket _ => []
  | RHost rs => flat_map (addresses_of prefix) rs
  end.
Definition addresses (rs : list route) : list (str * nat) := flat_map (addresses_of []) rs.
Definition shown (a : str * nat) : str * nat := (clean_path (fst a), snd a).
(** Paths as the constructors of routes leave them. *)
Inductive declared : route -> Prop :=
| d_path p row : (exists q, p = slash :: q) -> declared (RPath p row)
| d_include p rs : (exists q, p = slash :: q) -> Forall declared rs -> declared (RInclude p rs)
| d_websocket p : declared (RWebSocket p)
| d_host rs : Forall declared rs -> declared (RHost rs).
Inductive hostless : route -> Prop :=
| h_path p row : hostless (RPath p row)
| h_include p rs : Forall hostless rs -> hostless (RInclude p rs)
| h_websocket p : hostless (RWebSocket p).
Definition C244_statement : Prop := forall rs, Forall declared rs -> show_urls rs = Some (map shown (addresses rs)).
Theorem C244_refuted : ~ C244_statement /\
  show_urls [RPath (u "/chemistry/elements") 1] = Some [] /\ show_urls [RHost [RPath (u "/a") 1]] = None.
Proof.
  split; [|split; reflexivity]. intros S. specialize (S [RPath (u "/chemistry/elements") 1]).
  assert (show_urls [RPath (u "/chemistry/elements") 1] = Some (map shown (addresses [RPath (u "/chemistry/elements") 1]))) as E.
  { apply S. constructor; [|constructor]. constructor. eexists. reflexivity. }
  vm_compute in E. discriminate.
Qed.
Print Assumptions C244_refuted.

Lemma route_ind' (P : route -> Prop) : (forall p row, P (RPath p row)) -> (forall p rs, Forall P rs -> P (RInclude p rs)) ->
  (forall p, P (RWebSocket p)) -> (forall rs, Forall P rs -> P (RHost rs)) -> forall r, P r.
Proof.
  intros A B C D. fix go 1. intros [p row|p rs|p|rs].
  - apply A.
  - apply B. induction rs; constructor; [apply go|assumption].
  - apply C.
  - apply D. induction rs; constructor; [apply go|assumption].
Qed.

(** The addresses that look like documentation. *)
Definition documentation (a : str) : bool :=
  existsb (fun e => containsb e a) [u "/swagger"; u "/redoc"; u "/openapi.json"; u "/openapi.yaml"; u "/openapi.yml"; u "/elements"].

Lemma clean_clean a b : clean_path (clean_path a ++ slash :: b) = clean_path (a ++ slash :: b).
Proof. rewrite !clean_path_segments, !segments_cat, <- clean_path_segments, clean_path_keeps_segments. reflexivity. Qed.
Lemma join_cat a b : a <> [] -> exists t, join [slash] (a ++ b) = join [slash] a ++ t.
Proof.
  intros H. induction a as [|x a IH]; [congruence|]. destruct a as [|y a].
  - destruct b as [|z b]; cbn [List.app join]; [exists []; symmetry; apply app_nil_r|]. eexists. reflexivity.
  - destruct IH as [t E]; [discriminate|]. exists t.
    change (join [slash] ((x :: y :: a) ++ b)) with (x ++ [slash] ++ join [slash] ((y :: a) ++ b)). rewrite E.
    change (join [slash] (x :: y :: a)) with (x ++ [slash] ++ join [slash] (y :: a)). rewrite <- !app_assoc. reflexivity.
Qed.
Lemma documentation_below a b : documentation (clean_path a) = true -> documentation (clean_path (a ++ slash :: b)) = true.
Proof.
  unfold documentation. rewrite !existsb_exists. intros (e & He & C). exists e. split; [exact He|].
  rewrite clean_path_segments in *. rewrite segments_cat. destruct (segments a) as [|s ss] eqn:E.
  - cbn [join] in C. exfalso. cbn [In] in He. destruct He as [<-|[<-|[<-|[<-|[<-|[<-|[]]]]]]]; vm_compute in C; discriminate.
  - destruct (join_cat (s :: ss) (segments b)) as [t ->]; [discriminate|].
    apply containsb_iff in C as (x & y & C). apply containsb_iff. exists x, (y ++ t).
    change (slash :: join [slash] (s :: ss) ++ t) with ((slash :: join [slash] (s :: ss)) ++ t). rewrite C, <- !app_assoc. reflexivity.
Qed.

Definition visible (a : str * nat) : bool := negb (documentation (fst a)).
Lemma none_below r : forall prefix p, declared r -> p = clean_path prefix -> documentation p = true ->
  filter visible (map shown (addresses_of prefix r)) = [].
Proof.
  induction r as [q row|q rs IH|q|rs IH] using route_ind'; intros prefix p D -> H; cbn [addresses_of].
  - inversion D as [q0 r0 [q' ->]| | |]; subst. cbn [map filter]. unfold visible, shown. cbn [fst snd].
    rewrite (documentation_below _ _ H). reflexivity.
  - inversion D as [|q0 rs0 [q' ->] DD| |]; subst.
    assert (H2 := documentation_below prefix q' H).
    induction IH as [|r rs Hr IH2 IH3]; [reflexivity|]. inversion DD; subst. cbn [flat_map]. rewrite map_app, filter_app.
    rewrite (Hr _ _ H3 eq_refl H2). apply IH3; [|assumption]. constructor; [eexists; reflexivity|assumption].
  - reflexivity.
  - inversion D as [| | |rs0 DD]; subst.
    induction IH as [|r rs Hr IH2 IH3]; [reflexivity|]. inversion DD; subst. cbn [flat_map]. rewrite map_app, filter_app.
    rewrite (Hr _ _ H2 eq_refl H). apply IH3; [|assumption]. constructor. assumption.
Qed.

Lemma parse_rows r : forall prefix raw, declared r -> hostless r ->
  (prefix = [] /\ raw = []) \/ prefix = clean_path raw ->
  parse_route prefix r = Some (filter visible (map shown (addresses_of raw r))).
Proof.
  induction r as [q row|q rs IH|q|rs IH] using route_ind'; intros prefix raw D H P.
  - inversion D as [q0 r0 [q' ->]| | |]; subst. cbn [parse_route addresses_of].
    assert (E : clean_path (prefix ++ slash :: q') = clean_path (raw ++ slash :: q')).
    { destruct P as [[-> ->] | ->]; [reflexivity|apply clean_clean]. }
    rewrite E. cbn [map filter]. unfold visible, shown. cbn [fst snd]. unfold hidden, docs_elements.
    fold (documentation (clean_path (raw ++ slash :: q'))). destruct (documentation _); reflexivity.
  - inversion D as [|q0 rs0 [q' ->] DD| |]; subst. inversion H as [|p0 rs0 HH|]; subst. cbn [parse_route addresses_of].
    assert (E : clean_path (prefix ++ slash :: q') = clean_path (raw ++ slash :: q')).
    { destruct P as [[-> ->] | ->]; [reflexivity|apply clean_clean]. }
    rewrite E. unfold hidden, docs_elements. fold (documentation (clean_path (raw ++ slash :: q'))).
    destruct (documentation (clean_path (raw ++ slash :: q'))) eqn:Doc.
    + f_equal. symmetry. clear E P IH H D HH. induction DD as [|r rs Dr DD IH]; [reflexivity|]. cbn [flat_map].
      rewrite map_app, filter_app, (none_below r _ _ Dr eq_refl Doc). exact IH.
    + clear E P H D Doc. induction IH as [|r rs Hr _ IH]; [reflexivity|]. inversion DD; subst. inversion HH; subst.
      cbn [flat_map]. rewrite (Hr (clean_path (raw ++ slash :: q')) (raw ++ slash :: q')); [|assumption|assumption|right; reflexivity].
      rewrite (IH H2 H4). rewrite map_app, filter_app. reflexivity.
  - reflexivity.
  - inversion H.
Qed.
(** Without hosts: every http route is listed once, in order, under its full address, except those whose address holds one of
    the six names of documentation. *)
Theorem C244_partial rs : Forall declared rs -> Forall hostless rs ->
  show_urls rs = Some (filter visible (map shown (addresses rs))).
Proof.
  unfold show_urls, addresses. induction rs as [|r rs IH]; intros D H; [reflexivity|]. inversion D; subst. inversion H; subst.
  cbn [parse_routes flat_map]. rewrite (parse_rows r [] []); [|assumption|assumption|left; split; reflexivity].
  rewrite IH by assumption. rewrite map_app, filter_app. reflexivity.
Qed.
Print Assumptions C244_partial.
Example C244_case : show_urls [RPath (u "/") 0; RInclude (u "/api") [RInclude (u "/v1") [RPath (u "/") 1; RPath (u "/users") 2]; RWebSocket (u "/ws")]; RPath (u "/docs/swagger") 3]
  = Some [(u "/", 0); (u "/api/v1", 1); (u "/api/v1/users", 2)].
Proof. vm_compute. reflexivity. Qed.

(** *** C245: the path that discovery reports leads to the application it found. *)
Definition C245_statement : Prop := forall ms s, find_app ms = Some s -> import_app ms s = Some (app_of s).
Definition factory : module := {| imports := None; attrs := [(u "get_app", VFunction 3 (VApp true 7) (Some 7))] |}.
Theorem C245_refuted : ~ C245_statement.
Proof.
  intros S. specialize (S [factory] {| app_of := VApp true 7; lilya_of := Some 7; at_module := 0; at_attr := u "get_app" |} eq_refl).
  vm_compute in S. discriminate.
Qed.
Print Assumptions C245_refuted.
Lemma first_lilya_ok m l s : NoDup (map fst l) -> first_lilya m l = Some s ->
  at_module s = m /\ dget (at_attr s) l = Some (app_of s) /\ (exists f i, app_of s = VApp f i /\ lilya_of s = Some i).
Proof.
  induction l as [|[a v] l IH]; intros ND E; [discriminate|]. cbn [map fst] in ND. apply NoDup_cons_iff in ND as [N ND].
  assert (T : first_lilya m l = Some s -> at_module s = m /\ dget (at_attr s) ((a, v) :: l) = Some (app_of s) /\ (exists f i, app_of s = VApp f i /\ lilya_of s = Some i)).
  { intros F. destruct (IH ND F) as (A & B & C). refine (conj A (conj _ C)). cbn [dget]. destruct (seqb (at_attr s) a) eqn:Q; [|exact B].
    apply seqb_eq in Q. destruct N. rewrite <- Q. clear - B. induction l as [|[k x] l IH]; cbn [dget] in B; [discriminate|].
    destruct (seqb (at_attr s) k) eqn:Q; [left; symmetry; apply seqb_eq, Q|right; apply IH, B]. }
  cbn [first_lilya] in E. destruct v as [f i|i|i r g]; [|exact (T E)|exact (T E)].
  injection E as <-. cbn [at_module at_attr app_of lilya_of dget]. rewrite seqb_refl. split; [reflexivity|]. split; [reflexivity|]. eauto.
Qed.
Lemma first_attr_ok m i ns l s : first_attr m i ns l = Some s -> at_module s = m /\ dget (at_attr s) l = Some (app_of s) /\ lilya_of s = Some i.
Proof.
  induction ns as [|n ns IH]; cbn [first_attr]; intros E; [discriminate|]. destruct (dget n l) as [v|] eqn:D; [|auto].
  injection E as <-. cbn. auto.
Qed.
Lemma first_function_ok m ns l : forall inst s inst', first_function m inst ns l = (Some s, inst') ->
  at_module s = m /\ In (at_attr s) ns /\ exists id reg, dget (at_attr s) l = Some (VFunction id (app_of s) reg).
Proof.
  induction ns as [|n ns IH]; cbn [first_function]; intros inst s inst' E; [discriminate|].
  assert (T : forall k, first_function m k ns l = (Some s, inst') -> at_module s = m /\ In (at_attr s) (n :: ns) /\
    exists id reg, dget (at_attr s) l = Some (VFunction id (app_of s) reg)).
  { intros k F. destruct (IH k s inst' F) as (A & B & C). refine (conj A (conj _ C)). right. exact B. }
  destruct (dget n l) as [[f i|i|i r g]|] eqn:D; try exact (T _ E).
  assert (Q : forall j, (Some {| app_of := r; lilya_of := Some j; at_module := m; at_attr := n |}, kept g inst) = (Some s, inst') ->
    at_module s = m /\ In (at_attr s) (n :: ns) /\ exists id reg, dget (at_attr s) l = Some (VFunction id (app_of s) reg)).
  { intros j [= <- _]. cbn [at_module at_attr app_of]. refine (conj eq_refl (conj (or_introl eq_refl) _)). eauto. }
  destruct r as [[|] j|j|j r' g']; try exact (Q _ E); destruct (kept g inst); try exact (Q _ E); exact (T _ E).
Qed.
Lemma nth_shift {A} (pre : list A) m ms : nth_error (pre ++ m :: ms) (length pre) = Some m.
Proof. rewrite nth_error_app2, Nat.sub_diag by lia. reflexivity. Qed.
Definition proper (m : module) : Prop := NoDup (map fst (attrs m)).
Lemma find_from_ok ms : forall pre inst s, Forall proper ms -> find_from inst (length pre) ms = Some s ->
  (import_app (pre ++ ms) s = Some (app_of s)) \/
  (In (at_attr s) [u "get_application"; u "get_app"] /\ exists id reg, import_app (pre ++ ms) s = Some (VFunction id (app_of s) reg)).
Proof.
  induction ms as [|m ms IH]; intros pre inst s F E; [discriminate|]. inversion F as [|m0 ms0 Pm Pms]; subst. cbn [find_from] in E.
  destruct (find_in_module inst (length pre) m) as [[s'|] inst'] eqn:M.
  - injection E as ->. unfold find_in_module in M. unfold import_app.
    destruct (first_lilya (length pre) (attrs m)) as [s1|] eqn:L.
    { injection M as -> _. destruct (first_lilya_ok _ _ _ Pm L) as (A & B & _). left. rewrite A, nth_shift. exact B. }
    destruct (kept (imports m) inst) as [i|].
    + destruct (first_attr (length pre) i discovery_attrs (attrs m)) as [s1|] eqn:A.
      * injection M as -> _. destruct (first_attr_ok _ _ _ _ _ A) as (B & C & _). left. rewrite B, nth_shift. exact C.
      * destruct (first_function_ok _ _ _ _ _ _ M) as (B & C & D). right. rewrite B, nth_shift. split; [exact C|exact D].
    + destruct (first_function_ok _ _ _ _ _ _ M) as (B & C & D). right. rewrite B, nth_shift. split; [exact C|exact D].
  - specialize (IH (pre ++ [m]) inst' s Pms). rewrite app_length, Nat.add_1_r, <- app_assoc in IH. exact (IH E).
Qed.
(** The path leads to the application, or, for one made by a function, to the function that made it. *)
Theorem C245_partial ms s : Forall proper ms -> find_app ms = Some s ->
  import_app ms s = Some (app_of s) \/
  (In (at_attr s) [u "get_application"; u "get_app"] /\ exists id reg, import_app ms s = Some (VFunction id (app_of s) reg)).
Proof. intros F E. exact (find_from_ok ms [] None s F E). Qed.
Print Assumptions C245_partial.
Definition plain_module : module := {| imports := None; attrs := [(u "x", VOther 1)] |}.
Definition app_module : module := {| imports := Some 5; attrs := [(u "helper", VOther 2); (u "site", VApp true 5)] |}.
Example C245_case : Forall proper [plain_module; app_module] /\
  find_app [plain_module; app_module] = Some {| app_of := VApp true 5; lilya_of := Some 5; at_module := 1; at_attr := u "site" |}.
Proof. split; [|reflexivity]. repeat constructor; cbn; intuition discriminate. Qed.

(** *** C246: the Lilya application found belongs to the module it was found with. *)
Definition registers (m : module) (i : nat) : Prop :=
  (exists a f, In (a, VApp f i) (attrs m)) \/ imports m = Some i \/
  (exists a id r g, dget a (attrs m) = Some (VFunction id r g) /\ (g = Some i \/ exists f, r = VApp f i)).
Definition C246_statement : Prop := forall ms s i m, find_app ms = Some s -> lilya_of s = Some i -> nth_error ms (at_module s) = Some m -> registers m i.
Definition registering : module := {| imports := Some 9; attrs := [(u "helper", VOther 2)] |}.
Definition foreign : module := {| imports := None; attrs := [(u "app", VOther 4)] |}.
Theorem C246_refuted : ~ C246_statement.
Proof.
  intros S. specialize (S [registering; foreign] {| app_of := VOther 4; lilya_of := Some 9; at_module := 1; at_attr := u "app" |} 9 foreign eq_refl eq_refl eq_refl).
  destruct S as [(a & f & [H|[]])|[H|(a & id & r & g & H & _)]]; [discriminate|discriminate|].
  cbn [foreign attrs dget] in H. destruct (seqb a (u "app")); discriminate.
Qed.
Print Assumptions C246_refuted.
(** A file that registers nothing: importing it, or calling its functions, leaves the global instance as it is. *)
Definition silent (m : module) : Prop := imports m = None /\ forall a id r g, dget a (attrs m) = Some (VFunction id r g) -> g = None.
Lemma silent_inst m n : silent m -> forall s inst', find_in_module None n m = (s, inst') -> inst' = None.
Proof.
  intros [I F] s inst'. unfold find_in_module. rewrite I. cbn [kept]. destruct (first_lilya n (attrs m)); [congruence|].
  intros E. enough (G : forall ns, snd (first_function n None ns (attrs m)) = None) by (specialize (G discovery_functions); rewrite E in G; exact G).
  induction ns as [|a ns IH]; [reflexivity|]. cbn [first_function]. destruct (dget a (attrs m)) as [[f i|i|i r g]|] eqn:D; try exact IH.
  rewrite (F _ _ _ _ D). cbn [kept]. destruct r as [[|] j|j|j r' g']; try exact IH. reflexivity.
Qed.
Lemma found_registers n inst ns l s k : forall m, attrs m = l -> (forall i, inst = Some i -> registers m i) ->
  first_function n inst ns l = (Some s, k) -> forall i, lilya_of s = Some i -> registers m i.
Proof.
  intros m <-. revert inst. induction ns as [|a ns IH]; intros inst H E i L; [discriminate|]. cbn [first_function] in E.
  destruct (dget a (attrs m)) as [[f j|j|j r g]|] eqn:D; try exact (IH inst H E i L).
  assert (H' : forall i, kept g inst = Some i -> registers m i).
  { intros i'. destruct g as [g|]; cbn [kept]; [|apply H]. intros [= ->]. right; right. exists a, j, r, (Some i'). auto. }
  assert (Q : forall q, kept g inst = Some q -> (Some {| app_of := r; lilya_of := Some q; at_module := n; at_attr := a |}, kept g inst) = (Some s, k) -> registers m i).
  { intros q K [= <- _]. cbn [lilya_of] in L. injection L as ->. auto. }
  destruct r as [[|] j'|j'|j' r' g'].
  1: { injection E as <- _. cbn [lilya_of] in L. injection L as ->. right; right. exists a, j, (VApp true i), g. eauto. }
  all: destruct (kept g inst) as [q|] eqn:K; [exact (Q q eq_refl E)|exact (IH None (fun i N => ltac:(discriminate N)) E i L)].
Qed.
Lemma lilya_registers n l s i : first_lilya n l = Some s -> lilya_of s = Some i -> exists a f, In (a, VApp f i) l.
Proof.
  induction l as [|[a v] l IH]; intros E L; [discriminate|]. cbn [first_lilya] in E.
  assert (T : first_lilya n l = Some s -> exists a0 f, In (a0, VApp f i) ((a, v) :: l)).
  { intros F. destruct (IH F L) as (a' & f & H). exists a', f. right. exact H. }
  destruct v as [f j|j|j r g]; [|exact (T E)|exact (T E)]. injection E as <-. cbn [lilya_of] in L. injection L as ->. exists a, f. left. reflexivity.
Qed.
Lemma module_found inst n m s k : find_in_module inst n m = (Some s, k) -> at_module s = n.
Proof.
  unfold find_in_module. destruct (first_lilya n (attrs m)) as [s1|] eqn:L.
  { intros [= -> _]. clear k. revert L. generalize (attrs m). induction l as [|[a v] l IH]; intros E; [discriminate|]. cbn [first_lilya] in E.
    destruct v; [injection E as <-; reflexivity|auto|auto]. }
  destruct (kept (imports m) inst) as [i|].
  - destruct (first_attr n i discovery_attrs (attrs m)) as [s1|] eqn:A.
    + intros [= -> _]. apply (first_attr_ok _ _ _ _ _ A).
    + intros M. apply (first_function_ok _ _ _ _ _ _ M).
  - intros M. apply (first_function_ok _ _ _ _ _ _ M).
Qed.
Lemma found_after ms : forall inst n s, find_from inst n ms = Some s -> n <= at_module s.
Proof.
  induction ms as [|m ms IH]; intros inst n s E; [discriminate|]. cbn [find_from] in E.
  destruct (find_in_module inst n m) as [[s'|] k] eqn:M.
  - injection E as ->. rewrite (module_found _ _ _ _ _ M). lia.
  - specialize (IH _ _ _ E). lia.
Qed.
(** It does if the files looked at before register nothing. *)
Theorem C246_partial pre m rest s i : Forall silent pre -> find_app (pre ++ m :: rest) = Some s -> at_module s = length pre ->
  lilya_of s = Some i -> registers m i.
Proof.
  intros F E A L. unfold find_app in E. change (length pre) with (0 + length pre) in A. revert E A. generalize 0 as n.
  induction F as [|p pre Sp _ IH]; intros n E A.
  - cbn [List.app find_from length] in E, A. rewrite Nat.add_0_r in A.
    destruct (find_in_module None n m) as [[s'|] inst'] eqn:M.
    + injection E as ->. unfold find_in_module in M.
      destruct (first_lilya n (attrs m)) as [s1|] eqn:FL.
      { injection M as -> _. left. exact (lilya_registers _ _ _ _ FL L). }
      destruct (imports m) as [j|] eqn:I; cbn [kept] in M.
      * destruct (first_attr n j discovery_attrs (attrs m)) as [s1|] eqn:FA.
        -- injection M as -> _. destruct (first_attr_ok _ _ _ _ _ FA) as (_ & _ & Q). rewrite L in Q. right; left. rewrite I. symmetry. exact Q.
        -- eapply found_registers; [reflexivity| |exact M|exact L]. intros i' [= <-]. right; left. exact I.
      * eapply found_registers; [reflexivity| |exact M|exact L]. discriminate.
    + apply found_after in E. lia.
  - cbn [List.app find_from length] in E, A. destruct (find_in_module None n p) as [[s'|] inst'] eqn:M.
    + injection E as ->. rewrite (module_found _ _ _ _ _ M) in A. lia.
    + rewrite (silent_inst p n Sp _ _ M) in E. apply (IH (S n) E). lia.
Qed.
Print Assumptions C246_partial.
Example C246_case : Forall silent [plain_module] /\ find_app ([plain_module] ++ app_module :: [foreign]) =
  Some {| app_of := VApp true 5; lilya_of := Some 5; at_module := 1; at_attr := u "site" |}.
Proof.
  split; [|reflexivity]. constructor; [|constructor]. split; [reflexivity|]. intros a id r g H. cbn [plain_module attrs dget] in H.
  destruct (seqb a (u "x")); discriminate.
Qed.

(** *** C247: a directive gets the arguments that follow its name. *)
(** The ways to call: without [--app], with [--app X] or with [--app=X]; the name with [--directive] or not. *)
Inductive app_option := NoApp | Apart (x : str) | Joined (x : str).
Definition command_line (a : app_option) (by_option : bool) (name : str) (args : list str) : list str :=
  u "lilya" :: match a with NoApp => [] | Apart x => [u "--app"; x] | Joined x => [u "--app=" ++ x] end ++
  u "run" :: (if by_option then [u "--directive"; name] else [name]) ++ args.
Definition asks_help (a : str) : Prop := a = u "-h" \/ a = u "--h".
Definition C247_statement : Prop := forall d a by_option name args,
  (forall x, In x (name :: args) -> ~ asks_help x) -> ~ In (u "--app") (name :: args) ->
  received d (command_line a by_option name args) = Some args.
Theorem C247_refuted : ~ C247_statement /\
  received ByClass (command_line (Apart (u "m:app")) false (u "createuser") [u "ann"; u "bob"]) = Some [u "bob"] /\
  received ByClass (command_line NoApp false (u "createuser") []) = None /\
  received ByFunction (command_line (Apart (u "m:app")) true (u "createuser") [u "ann"]) = Some [u "createuser"; u "ann"] /\
  received ByClass (command_line (Joined (u "m:app")) true (u "createuser") [u "ann"]) = Some [u "createuser"; u "ann"].
Proof.
  split; [|repeat split; reflexivity]. intros S.
  assert (received ByClass (command_line NoApp false (u "createuser") []) = Some []) as E; [|discriminate].
  apply S; [|intros [H|[]]; discriminate H]. intros x [<-|[]] [H|H]; discriminate H.
Qed.
Print Assumptions C247_refuted.
Lemma plain_map args : (forall x, In x args -> ~ asks_help x) ->
  map (fun a => if smem a [u "-h"; u "--h"] then u "--help" else a) args = args.
Proof.
  intros H. induction args as [|a args IH]; [reflexivity|]. cbn [map]. rewrite IH by (intros x X; apply H; right; exact X).
  destruct (smem a [u "-h"; u "--h"]) eqn:M; [|reflexivity]. apply smem_In in M. exfalso. apply (H a (or_introl eq_refl)).
  destruct M as [<-|[<-|[]]]; [left|right]; reflexivity.
Qed.
(** The two ways that work: a class named with [--directive], a function named without, and [--app X] apart. *)
Theorem C247_partial d a name args : (forall x, a <> Joined x) ->
  (forall x, In x (name :: args) -> ~ asks_help x) -> ~ In (u "--app") (name :: args) ->
  received d (command_line a (match d with ByClass => true | ByFunction => false end) name args) = Some args.
Proof.
  intros J H N.
  assert (P : forall b, position (command_line a b name args) = match a with NoApp => 3 | _ => 5 end).
  { intros b. unfold position. destruct a as [|x|x]; [|reflexivity|destruct (J x eq_refl)].
    destruct (smem _ _) eqn:M; [|reflexivity]. apply smem_In in M. exfalso. unfold command_line in M.
    destruct b; cbn [List.app In] in M; repeat (destruct M as [M|M]; [try discriminate M; try (apply N; left; exact M)|]); apply N; right; exact M. }
  unfold received. destruct d; rewrite P; destruct a as [|x|x]; try (destruct (J x eq_refl)); cbn [command_line List.app nth_error skipn].
  - reflexivity.
  - reflexivity.
  - f_equal. apply plain_map. intros x X. apply H. right. exact X.
  - f_equal. apply plain_map. intros y X. apply H. right. exact X.
Qed.
Print Assumptions C247_partial.
Example C247_case : received ByClass (command_line (Apart (u "m:app")) true (u "createuser") [u "ann"; u "--admin"]) = Some [u "ann"; u "--admin"] /\
  received ByFunction (command_line NoApp false (u "createuser") [u "ann"]) = Some [u "ann"].
Proof. split; reflexivity. Qed.

(** *** C248: a custom directive finds its application. *)
Definition C248_statement : Prop := forall a by_option name args,
  ~ In (u "--help") (command_line a by_option name args) -> loads_app (command_line a by_option name args) = true.
Theorem C248_refuted : ~ C248_statement.
Proof.
  intros S. specialize (S (Apart (u "m:app")) true (u "subscribe") [u "mail"]). discriminate S.
  cbn [command_line List.app In]. intuition discriminate.
Qed.
Print Assumptions C248_refuted.
(** It does unless one of the words is the name of one of four other directives. *)
Theorem C248_partial a by_option name args :
  ~ In (u "--help") (command_line a by_option name args) ->
  (forall w, In w [u "createproject"; u "createapp"; u "createdeployment"; u "mail"] -> ~ In w (command_line a by_option name args)) ->
  loads_app (command_line a by_option name args) = true.
Proof.
  intros H W. unfold loads_app. generalize dependent (command_line a by_option name args). intros l H W.
  destruct (smem (u "--help") l) eqn:M; [destruct H; apply smem_In, M|].
  destruct (existsb _ _) eqn:X; [|reflexivity]. apply existsb_exists in X as (w & Hw & X). destruct (W w Hw). apply smem_In, X.
Qed.
Print Assumptions C248_partial.
Example C248_case : loads_app (command_line (Apart (u "m:app")) true (u "subscribe") [u "email"]) = true.
Proof. reflexivity. Qed.

(** *** C249: [runserver] serves the application it is told to serve. *)
Definition C249_statement : Prop := forall path env_app env_path reload workers, runserver (Some path) env_app env_path reload workers = Named path.
Theorem C249_refuted : ~ C249_statement.
Proof. intros S. specialize (S (u "other:app") (Some (VApp true 1)) (u "main:app") false false). discriminate. Qed.
Print Assumptions C249_refuted.
Theorem C249_partial path env_app env_path reload workers :
  (reload = true \/ workers = true \/ env_app = None ->
   runserver path env_app env_path reload workers = Named (match path with Some p => p | None => env_path end)) /\
  (forall v, path = None -> env_app = Some v -> runserver path env_app env_path reload workers = Object v \/
    ((reload = true \/ workers = true) /\ runserver path env_app env_path reload workers = Named env_path)).
Proof.
  unfold runserver. destruct reload, workers, env_app as [v|], path as [p|]; cbn [negb andb]; (split; [intuition congruence|]);
    intros v' H1 H2; try discriminate; injection H2 as <-; auto.
Qed.
Print Assumptions C249_partial.
Example C249_case : runserver (Some (u "other:app")) (Some (VApp true 1)) (u "main:app") true false = Named (u "other:app").
Proof. reflexivity. Qed.

(** *** C250: a custom directive is loaded from a file of its name that was found. *)
Definition C250_statement : Prop := forall sub ds,
  match fetch_custom sub ds with
  | Loads location name => name = sub /\ In (sub, location) ds
  | Unknown => forall location, ~ In (sub, location) ds
  | Crashes => False
  end.
Theorem C250_refuted : ~ C250_statement /\ fetch_custom (u "seed") [] = Crashes /\
  fetch_custom (u "location") [(u "seed", u "/srv/ops")] = Loads (u "/srv/ops") (u "location").
Proof. split; [|split; reflexivity]. intros S. exact (S (u "seed") []). Qed.
Print Assumptions C250_refuted.
(** With at least one directive, and a name other than [location] and [name]; of several the last location is taken. *)
Theorem C250_partial sub ds : ds <> [] -> sub <> u "location" -> sub <> u "name" ->
  match fetch_custom sub ds with
  | Loads location name => name = sub /\ exists before after, ds = before ++ (sub, location) :: after /\ forall l, ~ In (sub, l) after
  | Unknown => forall location, ~ In (sub, location) ds
  | Crashes => False
  end.
Proof.
  intros Hne Hl Hn. unfold fetch_custom. destruct ds as [|d0 ds0]; [congruence|]. generalize (d0 :: ds0). clear Hne d0 ds0. intros ds.
  set (f := fun (acc : option str) (d : str * str) => if smem sub [fst d; u "location"; u "name"] then Some (snd d) else acc).
  assert (G : match fold_left f ds None with
    | Some location => exists before after, ds = before ++ (sub, location) :: after /\ forall l, ~ In (sub, l) after
    | None => forall location, ~ In (sub, location) ds end).
  { induction ds as [|[n l] ds IH] using rev_ind; [intros l []|]. rewrite fold_left_app. cbn [fold_left]. unfold f at 1. cbn [fst snd].
    destruct (smem sub [n; u "location"; u "name"]) eqn:M.
    - apply smem_In in M. assert (n = sub) as -> by (destruct M as [M|[M|[M|[]]]]; congruence). exists ds, []. split; [reflexivity|intros ? []].
    - assert (n <> sub). { intros ->. enough (smem sub [sub; u "location"; u "name"] = true) by congruence. apply smem_In. left. reflexivity. }
      destruct (fold_left f ds None) as [loc|].
      + destruct IH as (b & a & -> & Ha). exists b, (a ++ [(n, l)]). rewrite <- app_assoc. split; [reflexivity|].
        intros l' X. apply in_app_or in X as [X|[X|[]]]; [exact (Ha l' X)|congruence].
      + intros loc X. apply in_app_or in X as [X|[X|[]]]; [exact (IH loc X)|congruence]. }
  destruct (fold_left f ds None) as [loc|]; [split; [reflexivity|exact G]|exact G].
Qed.
Print Assumptions C250_partial.
Example C250_case : fetch_custom (u "seed") [(u "seed", u "/a/ops"); (u "drop", u "/a/ops"); (u "seed", u "/b/ops")] = Loads (u "/b/ops") (u "seed").
Proof. reflexivity. Qed.
