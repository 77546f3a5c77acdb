(** C310-C312: applications with a root path. *)
From Verif Require Import PyStr PyStrFacts PathModel RouterModel RootModel RootSpec RootProofs.

(** ** C311: the prefix in the path *)
Section Below.
Context (root : str).
Let fr (r : str) : str := root ++ r.
Definition weak_below (sc : scope) : Prop := exists rest, sc_path sc = sc_root sc ++ rest.
Definition good_below (sc : scope) : Prop := weak_below sc /\ no_double (sc_path sc).
Lemma route_moved sc rest : sc_path sc = sc_root sc ++ rest -> get_route_path (fr (sc_root sc)) (fr (sc_path sc)) = rest.
Proof. intros ->. unfold fr. rewrite app_assoc. apply route_below. Qed.
Lemma route_here sc rest : sc_path sc = sc_root sc ++ rest -> get_route_path (sc_root sc) (sc_path sc) = rest.
Proof. intros ->. apply route_below. Qed.
Lemma below_search r sc : weak_below sc -> search r (mv fr fr sc) = mv_search fr fr (search r sc).
Proof.
  intros (rest & E). destruct r as [p|rx cv rd cs]; cbn [search].
  - unfold path_search. cbn [mv sc_root sc_path sc_method sc_params]. rewrite (route_moved sc rest E), (route_here sc rest E). destruct (pr_convs p) as [|x l].
    + destruct (seqb _ _); [|reflexivity]. destruct (method_refused _ _); reflexivity.
    + destruct (rmatch _ _); [|reflexivity]. destruct (transform_all _ _); [|reflexivity]. destruct (method_refused _ _); reflexivity.
  - unfold include_search. cbn [mv sc_root sc_path sc_method sc_params]. rewrite (route_moved sc rest E), (route_here sc rest E).
    destruct (rmatch rx rest) as [groups|]; [|reflexivity]. destruct (transform_all cv groups) as [matched|]; [|reflexivity].
    cbn [mv_search mv sc_root sc_path sc_method sc_params]. unfold fr. rewrite <- app_assoc. reflexivity.
Qed.
Lemma below_child r sc c : good_below sc -> search r sc = SFull c -> good_below c.
Proof.
  intros ((rest & E) & ND) S. destruct r as [p|rx cv rd cs]; cbn [search] in S.
  - unfold path_search in S. destruct (pr_convs p) as [|x l].
    + destruct (seqb _ _); [|discriminate S]. destruct (method_refused _ _); [discriminate S|]. injection S as <-. split; [exists rest; exact E|exact ND].
    + destruct (rmatch _ _); [|discriminate S]. destruct (transform_all _ _); [|discriminate S]. destruct (method_refused _ _); [discriminate S|]. injection S as <-. split; [exists rest; exact E|exact ND].
  - unfold include_search in S. rewrite E, route_below in S. destruct (rmatch rx rest) as [groups|]; [|discriminate S]. destruct (transform_all cv groups) as [matched|]; [|discriminate S].
    injection S as <-. split; [|cbn [sc_path]; rewrite <- E; exact ND]. unfold drop_last. eexists. cbn [sc_root sc_path]. rewrite <- app_assoc. f_equal. symmetry. apply firstn_skipn.
Qed.
Lemma trailing sc rest y : sc_path sc = sc_root sc ++ rest -> no_double (sc_path sc) -> rest = y ++ [slash] -> rest <> [slash] ->
  y <> [] /\ last (sc_root sc ++ y) 0%N <> slash /\ sc_path sc = (sc_root sc ++ y) ++ [slash].
Proof.
  intros E ND EY NE. assert (YN : y <> []) by (intros ->; exact (NE EY)). split; [exact YN|]. split; [|rewrite E, EY, app_assoc; reflexivity].
  intros L. destruct (exists_last YN) as (z & c & ->). rewrite app_assoc, last_last in L. subst c. apply (ND (sc_root sc ++ z) []). rewrite E, EY, <- !app_assoc. reflexivity.
Qed.
Lemma below_redirect sc : good_below sc -> redirect_path (mv fr fr sc) = option_map fr (redirect_path sc).
Proof.
  intros ((rest & E) & ND). unfold redirect_path. cbn [mv sc_root sc_path]. rewrite (route_moved sc rest E), (route_here sc rest E). destruct (seqb rest [slash]) eqn:S1; [reflexivity|]. cbn [option_map]. f_equal.
  destruct (suffixb [slash] rest) eqn:S2; [|unfold fr; rewrite <- !app_assoc; reflexivity]. apply suffix_slash in S2 as (y & EY).
  destruct (trailing sc rest y E ND EY) as (YN & L & EP); [intros ->; rewrite seqb_refl in S1; discriminate S1|]. rewrite EP. unfold fr. rewrite (strip_one (sc_root sc ++ y) L). rewrite app_assoc. apply strip_one.
  destruct (exists_last YN) as (z & c & ->). rewrite app_assoc, last_last in L. rewrite !app_assoc, last_last. exact L.
Qed.
Lemma below_target sc p : good_below sc -> redirect_path sc = Some p -> weak_below (set_path sc p).
Proof.
  intros ((rest & E) & ND). unfold redirect_path. rewrite E, route_below. destruct (seqb rest [slash]) eqn:S1; [discriminate|]. intros [= <-]. unfold weak_below. cbn [set_path sc_root sc_path].
  destruct (suffixb [slash] rest) eqn:S2; [|exists (rest ++ [slash]); rewrite <- app_assoc; reflexivity]. apply suffix_slash in S2 as (y & EY).
  destruct (trailing sc rest y E ND EY) as (YN & L & EP); [intros ->; rewrite seqb_refl in S1; discriminate S1|]. rewrite <- E, EP, strip_one by exact L. exists y. reflexivity.
Qed.
Lemma below_router handlers redirect rs sc inp : indifferent handlers -> good_below sc ->
  router_app handlers redirect rs (mv fr fr sc) inp = mv_outcome fr fr (router_app handlers redirect rs sc inp).
Proof.
  intros I G. apply (mv_router handlers I fr fr good_below weak_below (fun _ => True)).
  - intros s (W & _). exact W.
  - intros r s _ W. exact (below_search r s W).
  - intros r s c _ H S. exact (below_child r s c H S).
  - exact below_redirect.
  - exact below_target.
  - intros s ps H. exact H.
  - intros rx cv rd cs _. apply Forall_forall. intros; exact Logic.I.
  - apply Forall_forall. intros; exact Logic.I.
  - exact G.
Qed.
End Below.
Lemma told_moved fr l : map told (map (mv_call fr) l) = map told l.
Proof. rewrite map_map. reflexivity. Qed.

(** A request whose path has the root path in front is served like the rest of the path without a root path, through any nesting of
    mounts: the same answers, redirects with the root path in front, the same handlers with the same parameters.  The root path is the
    application's own, or else the one the server names; parameters found before stay. *)
Theorem C311 : forall handlers redirect rs own server ps path method inp, indifferent handlers -> (forall a b, path <> a ++ slash :: slash :: b) ->
  let root := in_force own server in
  same_service_below root (lilya own handlers redirect rs (carrying ps (request server (root ++ path) method)) inp)
    (lilya [] handlers redirect rs (carrying ps (request [] path method)) inp).
Proof.
  intros handlers redirect rs own server ps path method inp I ND. cbv zeta. unfold lilya.
  assert (E : enter own (carrying ps (request server (in_force own server ++ path) method)) = mv (app (in_force own server)) (app (in_force own server)) (carrying ps (request [] path method))).
  { unfold mv, carrying, request, enter. cbn [sc_root sc_path sc_method sc_params]. rewrite app_nil_r. destruct own; reflexivity. }
  rewrite E. cbn [enter]. rewrite (below_router (in_force own server)) by (first [exact I | split; [exists path; reflexivity|exact ND]]).
  split; [reflexivity|]. split; [reflexivity|]. apply told_moved.
Qed.
Print Assumptions C311.

(** ** C310: the prefix handled by a proxy *)
(** Full statement: with a root path a request that arrives without it is served as without a root path. *)
Definition C310_statement : Prop := forall handlers redirect rs root path method inp, indifferent handlers -> usual_root root -> usual_path path ->
  same_service (lilya root handlers redirect rs (request [] path method) inp) (lilya [] handlers redirect rs (request [] path method) inp).
Definition answers_all : nat -> scope -> prog := fun _ _ => PEnd true HReturn.
Lemma answers_all_ok : indifferent answers_all.
Proof. intros id a b _ _. reflexivity. Qed.
Definition plain_route (id : nat) (path : str) : route := RPath {| pr_id := id; pr_path := path; pr_rx := []; pr_convs := []; pr_methods := None |}.
Lemma usual_path_check path : prefixb [slash] path = true -> containsb [slash; slash] path = false -> usual_path path.
Proof.
  intros P C. split; [apply prefixb_iff in P as (t & ->); exists t; reflexivity|]. intros a b E. assert (X : containsb [slash; slash] path = true) by (apply containsb_iff; exists a, b; exact E). congruence.
Qed.
(** A route whose path begins with the letters of the root path is cut. *)
Theorem C310_letters_refuted : ~ C310_statement.
Proof.
  intros H. destruct (H answers_all false [plain_route 1 (u "/apix")] (u "/api") (u "/apix") (u "GET") [] answers_all_ok) as (A & _).
  - split; discriminate.
  - apply usual_path_check; reflexivity.
  - vm_compute in A. discriminate A.
Qed.
Print Assumptions C310_letters_refuted.
(** And a route below a mount is not found at all, wherever it is. *)
Definition users_mount (cs : list route) : option route := make_include (u "/users") false cs.
Theorem C310_mounts_refuted : ~ (forall handlers redirect rs root path method inp, indifferent handlers -> usual_root root -> usual_path path -> prefixb root path = false ->
  same_service (lilya root handlers redirect rs (request [] path method) inp) (lilya [] handlers redirect rs (request [] path method) inp)).
Proof.
  intros H. destruct (users_mount [plain_route 1 (u "/list")]) as [m|] eqn:E; [|vm_compute in E; discriminate E].
  destruct (H answers_all false [m] (u "/api") (u "/users/list") (u "GET") [] answers_all_ok) as (A & _).
  - split; discriminate.
  - apply usual_path_check; reflexivity.
  - reflexivity.
  - vm_compute in E. injection E as <-. vm_compute in A. discriminate A.
Qed.
Print Assumptions C310_mounts_refuted.
Section Stripped.
Context (root : str) (UR : usual_root root).
Definition good_stripped (sc : scope) : Prop := sc_root sc = [] /\ prefixb root (sc_path sc) = false.
Lemma stripped_route path : prefixb root path = false -> get_route_path root path = path.
Proof. intros P. unfold get_route_path. rewrite P. destruct root; reflexivity. Qed.
Lemma stripped_target sc p : good_stripped sc -> redirect_path sc = Some p -> good_stripped (set_path sc p).
Proof.
  intros (R & P) E. split; [exact R|]. cbn [set_path sc_path]. unfold redirect_path in E. rewrite R in E. cbn [get_route_path] in E. destruct (seqb _ _); [discriminate E|]. injection E as <-.
  match goal with |- ?x = false => destruct x eqn:X; [|reflexivity] end. apply prefixb_iff in X as (t & X). exfalso.
  assert (N : forall s, sc_path sc <> root ++ s) by (intros s Y; assert (Z : prefixb root (sc_path sc) = true) by (apply prefixb_iff; exists s; exact Y); congruence).
  destruct (suffixb _ _).
  - assert (W : exists z, sc_path sc = rstrip_by is_slash (sc_path sc) ++ z).
    { unfold rstrip_by. generalize (sc_path sc). intros s. assert (L : forall v, exists w, v = w ++ lstrip_by is_slash v) by (induction v as [|c v IH]; [exists []; reflexivity|]; cbn [lstrip_by]; destruct (is_slash c); [destruct IH as (w & IH); exists (c :: w); cbn; f_equal; exact IH|exists []; reflexivity]).
      destruct (L (rev s)) as (w & EW). exists (rev w). rewrite <- rev_app_distr, <- EW, rev_involutive. reflexivity. }
    destruct W as (z & W). rewrite X in W. apply (N (t ++ z)). rewrite W, app_assoc. reflexivity.
  - destruct (exists_last (l := t)) as (t' & c & ->).
    + intros ->. rewrite app_nil_r in X. destruct UR as [_ L]. rewrite <- X, last_last in L. apply L. reflexivity.
    + rewrite app_assoc in X. apply app_inj_tail in X as [X _]. exact (N t' X).
Qed.
End Stripped.
(** It holds for the routes that are not below a mount, if the path does not begin with the letters of the root path. *)
Theorem C310_partial : forall handlers redirect rs root path method inp, indifferent handlers -> usual_root root -> prefixb root path = false ->
  (forall r, In r rs -> exists p, r = RPath p) ->
  same_service (lilya root handlers redirect rs (request [] path method) inp) (lilya [] handlers redirect rs (request [] path method) inp).
Proof.
  intros handlers redirect rs root path method inp I UR P TOP. unfold lilya.
  assert (E : enter root (request [] path method) = mv (fun _ => root) (fun p => p) (request [] path method)).
  { destruct UR as [UR _]. unfold mv, request, enter. destruct root; [contradiction UR; reflexivity|reflexivity]. }
  rewrite E. cbn [enter].
  rewrite (mv_router handlers I (fun _ => root) (fun p => p) (good_stripped root) (good_stripped root) (fun r => exists p, r = RPath p)).
  - split; [|split; [reflexivity|apply told_moved]]. cbn [mv_outcome o_answers]. rewrite <- (map_id (o_answers _)) at 2. apply map_ext. intros [ | | | ]; reflexivity.
  - auto.
  - intros r sc (p & ->) (R & W). cbn [search]. unfold path_search. cbn [mv sc_root sc_path sc_method sc_params]. rewrite (stripped_route root UR _ W), R. cbn [get_route_path]. destruct (pr_convs p) as [|x l].
    + destruct (seqb _ _); [|reflexivity]. destruct (method_refused _ _); reflexivity.
    + destruct (rmatch _ _); [|reflexivity]. destruct (transform_all _ _); [|reflexivity]. destruct (method_refused _ _); reflexivity.
  - intros r sc c (p & ->) G S. cbn [search] in S. unfold path_search in S. destruct (pr_convs p) as [|x l].
    + destruct (seqb _ _); [|discriminate S]. destruct (method_refused _ _); [discriminate S|]. injection S as <-. exact G.
    + destruct (rmatch _ _); [|discriminate S]. destruct (transform_all _ _); [|discriminate S]. destruct (method_refused _ _); [discriminate S|]. injection S as <-. exact G.
  - intros sc (R & W). unfold redirect_path. cbn [mv sc_root sc_path]. rewrite (stripped_route root UR _ W), R. cbn [get_route_path]. destruct (seqb _ _); reflexivity.
  - exact (stripped_target root UR).
  - intros sc ps G. exact G.
  - intros rx cv rd cs (p & X). discriminate X.
  - apply Forall_forall. exact TOP.
  - split; [reflexivity|exact P].
Qed.
Print Assumptions C310_partial.

(** ** C312: an application below a mount *)
(** Full statement: mounted, an application serves what follows the prefix as it does alone. *)
Definition C312_application (fits : str -> Prop) : Prop := forall rx cv rd cs own handlers redirect rs path method inp child, indifferent handlers -> usual_path path -> fits own ->
  search (RInclude rx cv rd cs) (request [] path method) = SFull child ->
  exists rest, path = sc_root child ++ rest
    /\ mounted (RInclude rx cv rd cs) own handlers redirect rs (request [] path method) inp = Some (lilya own handlers redirect rs child inp)
    /\ same_service_below (sc_root child) (lilya own handlers redirect rs child inp)
         (lilya own handlers redirect rs {| sc_root := []; sc_path := rest; sc_method := method; sc_params := sc_params child |} inp).
Definition C312_statement : Prop := C312_application (fun _ => True).
(** With a root path of its own it forgets the prefix. *)
Theorem C312_refuted : ~ C312_statement.
Proof.
  intros H. destruct (users_mount []) as [[p|rx cv rd cs]|] eqn:E; [vm_compute in E; discriminate E| |vm_compute in E; discriminate E].
  assert (S : search (RInclude rx cv rd cs) (request [] (u "/users/list") (u "GET")) = SFull {| sc_root := u "/users"; sc_path := u "/users/list"; sc_method := u "GET"; sc_params := [] |})
    by (vm_compute in E; injection E as <- <- <- <-; vm_compute; reflexivity).
  destruct (H rx cv rd cs (u "/api") answers_all false [plain_route 1 (u "/list")] (u "/users/list") (u "GET") [] _
    answers_all_ok (usual_path_check (u "/users/list") eq_refl eq_refl) Logic.I S) as (rest & P & _ & A & _).
  cbn [sc_root] in P.
  assert (R : rest = u "/list") by (apply (app_inv_head (u "/users")); symmetry; exact P). subst rest. clear P.
  vm_compute in A. discriminate A.
Qed.
Print Assumptions C312_refuted.
Theorem C312_partial : C312_application (fun own => own = []).
Proof.
  intros rx cv rd cs own handlers redirect rs path method inp child I (_ & ND) -> S. unfold mounted. rewrite S.
  assert (G0 : good_below (request [] path method)) by (split; [exists path; reflexivity|exact ND]).
  destruct (below_child _ _ _ G0 S) as ((rest & E) & _).
  assert (F : sc_path child = path /\ sc_method child = method).
  { cbn [search] in S. destruct (include_search _ _ _ _ _); try discriminate S. injection S as <-. split; reflexivity. }
  destruct F as (F1 & F2). rewrite F1 in E. exists rest. split; [exact E|]. split; [reflexivity|]. unfold lilya. cbn [enter].
  set (alone := {| sc_root := []; sc_path := rest; sc_method := method; sc_params := sc_params child |}).
  assert (X : child = mv (app (sc_root child)) (app (sc_root child)) alone).
  { unfold mv, alone. cbn [sc_root sc_path sc_method sc_params]. rewrite app_nil_r, <- E. destruct child as [r p m ps]. cbn [sc_root sc_path sc_method sc_params] in *. subst. reflexivity. }
  rewrite X at 2. rewrite (below_router (sc_root child)).
  - split; [reflexivity|]. split; [reflexivity|]. apply told_moved.
  - exact I.
  - split; [exists rest; reflexivity|]. intros a b D. unfold alone in D. cbn [sc_path] in D. apply (ND (sc_root child ++ a) b). rewrite E, D, app_assoc. reflexivity.
Qed.
Print Assumptions C312_partial.

(** ** Cases *)
Definition two (m : route) : list route := [plain_route 1 (u "/about"); m].
Example C311_case : indifferent answers_all /\ (forall a b, u "/users/list" <> a ++ slash :: slash :: b)
  /\ match users_mount [plain_route 2 (u "/list")] with
     | Some m => map told (o_calls (lilya (u "/api") answers_all true (two m) (request [] (u "/api/users/list") (u "GET")) [])) = [(2, [], [])]
         /\ o_answers (lilya (u "/api") answers_all true (two m) (request [] (u "/api/about/") (u "GET")) []) = [ARedirect (u "/api/about")]
     | None => False
     end.
Proof. split; [exact answers_all_ok|]. split; [apply (usual_path_check (u "/users/list")); reflexivity|]. vm_compute. split; reflexivity. Qed.
Example C310_case : usual_root (u "/api") /\ prefixb (u "/api") (u "/list") = false
  /\ map told (o_calls (lilya (u "/api") answers_all true [plain_route 1 (u "/list")] (request [] (u "/list") (u "GET")) [])) = [(1, [], [])]
  /\ o_answers (lilya (u "/api") answers_all true [plain_route 1 (u "/list")] (request [] (u "/list/") (u "GET")) []) = [ARedirect (u "/list")].
Proof. split; [split; discriminate|]. vm_compute. repeat split; reflexivity. Qed.
Example C312_case : match users_mount [] with
  | Some m => option_map (fun o => map told (o_calls o)) (mounted m [] answers_all true [plain_route 1 (u "/list")] (request [] (u "/users/list") (u "GET")) []) = Some [(1, [], [])]
      /\ option_map (fun o => map told (o_calls o)) (mounted m (u "/api") answers_all true [plain_route 1 (u "/list")] (request [] (u "/users/list") (u "GET")) []) = Some []
  | None => False
  end.
Proof. vm_compute. split; reflexivity. Qed.
