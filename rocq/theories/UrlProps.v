(** C69, C70: URL objects. *)
From Coq Require Import Permutation.
From Verif Require Import PyStr PyStrFacts Utf8 UrlModel UrlSpec UrlProofs.

(** ** C69 *)
(** A URL object shows the parts of its text, and prints as its text. *)
Theorem C69_parts_partial : forall ip_ok scheme us pw h p path query fragment,
  scheme_name scheme -> good_authority ip_ok us pw h p -> good_path path -> good_query query -> smooth fragment ->
  exists x, url_of ip_ok (url_text scheme (authority us pw h p) path query fragment) = Some x
    /\ shows x scheme (authority us pw h p) path query fragment
    /\ text x = url_text scheme (authority us pw h p) path query fragment
    /\ port (p_netloc (split x)) = Some p
    /\ username (p_netloc (split x)) = us
    /\ password (p_netloc (split x)) = match us with Some _ => pw | None => None end.
Proof.
  intros ip_ok scheme us pw h p path query fragment S G P Q F. eexists. split; [apply url_of_text; assumption|].
  refine (conj eq_refl (conj eq_refl (conj _ (conj _ _)))); cbn [split p_netloc].
  - exact (authority_port _ _ _ _ _ G).
  - exact (authority_user _ _ _ _ _ G).
  - exact (authority_pass _ _ _ _ _ G).
Qed.
Print Assumptions C69_parts_partial.

(** [replace] with scheme, path, query or fragment: the named parts take the given values and the others stay. *)
Theorem C69_replace_partial : forall ip_ok x scheme us pw h p path query fragment so po qo fo,
  shows x scheme (authority us pw h p) path query fragment ->
  scheme_name scheme -> good_authority ip_ok us pw h p -> good_path path -> good_query query -> smooth fragment ->
  (forall s, so = Some s -> scheme_name s) -> (forall s, po = Some s -> good_path s) ->
  (forall s, qo = Some s -> good_query s) -> (forall s, fo = Some s -> smooth s) ->
  exists x', url_replace ip_ok {| c_scheme := so; c_netloc := None; c_path := po; c_query := qo; c_fragment := fo;
                                  c_host := None; c_port := None; c_user := None; c_pass := None |} x = Some x'
    /\ shows x' (dflt scheme so) (authority us pw h p) (dflt path po) (dflt query qo) (dflt fragment fo)
    /\ text x' = url_text (dflt scheme so) (authority us pw h p) (dflt path po) (dflt query qo) (dflt fragment fo).
Proof.
  intros ip_ok x scheme us pw h p path query fragment so po qo fo X S G P Q F S' P' Q' F'. unfold url_replace. rewrite X.
  unfold replace_parts. cbn [c_scheme c_netloc c_path c_query c_fragment c_host c_port c_user c_pass given orb p_scheme p_netloc p_path p_query p_fragment].
  change (dflt (authority us pw h p) None) with (authority us pw h p).
  rewrite rebuild.
  - eexists. split; [reflexivity|]. split; reflexivity.
  - destruct so; [apply S'; reflexivity | exact S].
  - exact G.
  - destruct po; [apply P'; reflexivity | exact P].
  - destruct qo; [apply Q'; reflexivity | exact Q].
  - destruct fo; [apply F'; reflexivity | exact F].
Qed.
Print Assumptions C69_replace_partial.

(** [replace] with hostname, port, username or password: the named pieces of the authority take the
    given values and everything else stays. *)
Theorem C69_authority_partial : forall ip_ok x scheme us pw h p path query fragment ho po uo wo,
  shows x scheme (authority us pw h p) path query fragment ->
  scheme_name scheme -> good_authority ip_ok us pw h p -> good_path path -> good_query query -> smooth fragment ->
  ho <> None \/ po <> None \/ uo <> None \/ wo <> None ->
  let us' := dflt us uo in
  let pw' := dflt (match us with Some _ => pw | None => None end) wo in
  let h' := dflt h ho in
  let p' := dflt p po in
  good_authority ip_ok us' pw' h' p' ->
  exists x', url_replace ip_ok {| c_scheme := None; c_netloc := None; c_path := None; c_query := None; c_fragment := None;
                                  c_host := option_map Some ho;
                                  c_port := option_map (fun o => match o with Some n => Some (dec n) | None => None end) po;
                                  c_user := uo; c_pass := wo |} x = Some x'
    /\ shows x' scheme (authority us' pw' h' p') path query fragment.
Proof.
  intros ip_ok x scheme us pw h p path query fragment ho po uo wo X S G P Q F ONE us' pw' h' p' G'. unfold url_replace. rewrite X.
  unfold replace_parts. cbn [c_scheme c_netloc c_path c_query c_fragment c_host c_port c_user c_pass p_scheme p_netloc p_path p_query p_fragment].
  assert (E : given uo || given wo || given (option_map Some ho)
              || given (option_map (fun o : option N => match o with Some n => Some (dec n) | None => None end) po) = true).
  { destruct uo, wo, ho, po; try reflexivity. exfalso. destruct ONE as [X1|[X1|[X1|X1]]]; apply X1; reflexivity. }
  rewrite E. rewrite (authority_port _ _ _ _ _ G), (authority_user _ _ _ _ _ G), (authority_pass _ _ _ _ _ G).
  replace (dflt None (option_map Some ho)) with ho by (destruct ho; reflexivity).
  assert (M : dflt (match Some p with Some (Some n) => Some (dec n) | _ => None end)
                (option_map (fun o : option N => match o with Some n => Some (dec n) | None => None end) po)
    = (match p' with Some n => Some (dec n) | None => None end)) by (unfold p'; destruct po; reflexivity).
  rewrite M.
  rewrite (built ip_ok us pw h p ho p' (dflt us uo) (dflt (match us with Some _ => pw | None => None end) wo) G).
  fold us' pw' h'. cbn [dflt]. rewrite rebuild by assumption. eexists. split; reflexivity.
Qed.
Print Assumptions C69_authority_partial.

(** The whole property: also for a host given the way the object shows it, and for objects made from
    split parts. *)
Definition C69_host_statement : Prop := forall ip_ok x scheme us pw h p path query fragment n,
  shows x scheme (authority us pw h p) path query fragment -> scheme_name scheme -> good_authority ip_ok us pw h p ->
  good_path path -> good_query query -> smooth fragment ->
  hostname (authority us pw h p) = Some n ->
  exists x', url_replace ip_ok {| c_scheme := None; c_netloc := None; c_path := None; c_query := None; c_fragment := None;
                                  c_host := Some (Some n); c_port := None; c_user := None; c_pass := None |} x = Some x'
    /\ hostname (p_netloc (split x')) = Some n.
(** Giving a URL its own hostname breaks it if that is an IPv6 address: the brackets are lost. *)
Theorem C69_host_refuted : ~ C69_host_statement.
Proof.
  intros H.
  set (p0 := {| p_scheme := u "http"; p_netloc := u "[::1]:80"; p_path := u "/"; p_query := []; p_fragment := [] |}).
  destruct (H (fun s => seqb s (u "::1")) {| text := u "http://[::1]:80/"; split := p0 |} (u "http") None None (u "[::1]") (Some 80%N)
              (u "/") [] [] (u "::1")) as (x' & E & _).
  - reflexivity.
  - exists 104%N, (u "ttp"). split; [reflexivity|]. split; [lia|]. intros x [<-|[<-|[<-|[]]]]; left; split; discriminate.
  - constructor; [discriminate|discriminate| |intros n' [= <-]; lia].
    apply (gh_ip _ (u "::1")); [reflexivity| |apply smooth_lit; reflexivity].
    intros c [<-|[<-|[<-|[]]]] J; cbn in J; repeat (destruct J as [J|J]; [discriminate|]); exact J.
  - refine (conj _ (conj _ _)); [right; exists []; reflexivity| |apply smooth_lit; reflexivity].
    intros c [<-|[]] J; cbn in J; repeat (destruct J as [J|J]; [discriminate|]); exact J.
  - split; [intros c [] | apply smooth_nil].
  - apply smooth_nil.
  - vm_compute. reflexivity.
  - vm_compute in E. discriminate E.
Qed.
Print Assumptions C69_host_refuted.

(** A URL made from split parts prints as those parts do. *)
Definition C69_split_statement : Prop := forall p, text (url_of_split p) = urlunsplit p.
Theorem C69_split_refuted : ~ C69_split_statement.
Proof.
  intros H. specialize (H {| p_scheme := u "http"; p_netloc := u "h"; p_path := u "/"; p_query := []; p_fragment := [] |}).
  vm_compute in H. discriminate H.
Qed.
Print Assumptions C69_split_refuted.

(** The relative form keeps path, query and fragment. *)
Theorem C69_relative_partial : forall ip_ok x scheme net path query fragment,
  shows x scheme net path query fragment -> good_path path -> good_query query -> smooth fragment ->
  path <> [] -> ~ (exists r, path = u "//" ++ r) ->
  exists x', relative_url ip_ok x = Some x' /\ shows x' [] [] path query fragment.
Proof.
  intros ip_ok x scheme net path query fragment X P Q F NE N2. assert (B : brackets_ok ip_ok [] = true) by reflexivity. unfold relative_url. rewrite X. cbn [p_path p_query p_fragment].
  assert (ND : prefixb (u "//") path = false).
  { destruct (prefixb (u "//") path) eqn:E; [|reflexivity]. exfalso. apply N2. apply prefixb_iff in E. exact E. }
  assert (T : urlunsplit {| p_scheme := []; p_netloc := []; p_path := path; p_query := query; p_fragment := fragment |} = tail path query fragment).
  { unfold urlunsplit. cbn [p_scheme p_netloc p_path p_query p_fragment empty negb orb andb]. rewrite ND. unfold tail.
    destruct query as [|q qr], fragment as [|f fr]; cbn [empty]; rewrite ?app_nil_r, <- ?app_assoc; reflexivity. }
  rewrite T. unfold url_of, urlsplit.
  destruct (proj1 P) as [E|(r & E)]; [contradiction|].
  rewrite clean_id.
  2:{ apply tail_smooth; assumption. }
  2:{ intros c t E'. unfold tail in E'. rewrite E in E'. cbn in E'. injection E' as <- _. lia. }
  assert (SP : match split1 58 (tail path query fragment) with
               | Some (a, b) => if scheme_ok a then (lower a, b) else ([], tail path query fragment)
               | None => ([], tail path query fragment)
               end = ([], tail path query fragment)).
  { destruct (split1 58 (tail path query fragment)) as [[a b]|] eqn:E1; [|reflexivity].
    apply split1_some in E1 as [E1 _]. unfold tail in E1. rewrite E in E1. destruct a as [|c a]; [cbn in E1; discriminate|].
    cbn in E1. injection E1 as <- _. reflexivity. }
  rewrite SP.
  assert (NP : prefixb (u "//") (tail path query fragment) = false).
  { destruct (prefixb (u "//") (tail path query fragment)) eqn:E1; [|reflexivity]. exfalso.
    apply prefixb_iff in E1 as (t & E1). unfold tail in E1. rewrite E in E1, ND. destruct r as [|c r].
    - destruct query as [|q qr]; [destruct fragment as [|f fr]|]; cbn in E1; discriminate E1.
    - cbn in E1. injection E1 as -> _. vm_compute in ND. discriminate ND. }
  rewrite NP. rewrite B. cbn [negb]. destruct (tail_split path query fragment P Q) as [A1 A2]. rewrite A1, A2.
  cbn [p_netloc]. change (port []) with (Some (@None N)). eexists. split; reflexivity.
Qed.
Print Assumptions C69_relative_partial.

(** ** C70 *)
(** [include_query_params] gives each named parameter its value, keeps the others, and touches nothing else. *)
Theorem C70_include : forall ip_ok sorted_items d x scheme us pw h p path query fragment,
  shows x scheme (authority us pw h p) path query fragment ->
  scheme_name scheme -> good_authority ip_ok us pw h p -> good_path path -> good_query query -> smooth fragment ->
  sorts sorted_items -> NoDup (map fst d) -> texts d -> (forall c, In c query -> scalar c) ->
  exists x' q', include_query_params ip_ok sorted_items d x = Some x'
    /\ shows x' scheme (authority us pw h p) path q' fragment
    /\ (forall k v, dget k d = Some v -> param k (parse_qsl q') = [v])
    /\ (forall k, dget k d = None -> Permutation (param k (parse_qsl q')) (param k (parse_qsl query))).
Proof.
  intros ip_ok sorted_items d x scheme us pw h p path query fragment X S G P Q F SO ND TD SC.
  set (l := mupdate d (parse_qsl query)).
  assert (TL : texts l) by (apply mupdate_texts; [exact TD | apply parsed_texts; exact SC]).
  assert (TS : texts (sorted_items l)) by (apply (texts_perm l); [apply Permutation_sym, SO | exact TL]).
  destruct (C69_replace_partial ip_ok x scheme us pw h p path query fragment None None (Some (urlencode (sorted_items l))) None)
    as (x' & E & Sh & _); try assumption; try discriminate.
  { intros s [= <-]. apply encode_good. exact TS. }
  exists x', (urlencode (sorted_items l)). split.
  { unfold include_query_params, with_query. rewrite X. exact E. }
  split; [exact Sh|]. rewrite parse_encode by exact TS. split.
  - intros k v D. assert (PM := param_perm k _ _ (SO l)). unfold l in PM at 2. rewrite mupdate_param in PM by exact ND. rewrite D in PM.
    apply Permutation_sym, Permutation_length_1_inv in PM. exact PM.
  - intros k D. assert (PM := param_perm k _ _ (SO l)). unfold l in PM at 2. rewrite mupdate_param in PM by exact ND. rewrite D in PM. exact PM.
Qed.
Print Assumptions C70_include.

(** [remove_query_params] drops the named parameters and keeps the others, as long as none of them is repeated. *)
Theorem C70_remove_partial : forall ip_ok sorted_items keys x scheme us pw h p path query fragment,
  shows x scheme (authority us pw h p) path query fragment ->
  scheme_name scheme -> good_authority ip_ok us pw h p -> good_path path -> good_query query -> smooth fragment ->
  sorts sorted_items -> (forall c, In c query -> scalar c) ->
  (forall k, In k keys -> (length (param k (parse_qsl query)) <= 1)%nat) ->
  exists x' q', remove_query_params ip_ok sorted_items keys x = Some x'
    /\ shows x' scheme (authority us pw h p) path q' fragment
    /\ (forall k, In k keys -> param k (parse_qsl q') = [])
    /\ (forall k, ~ In k keys -> Permutation (param k (parse_qsl q')) (param k (parse_qsl query))).
Proof.
  intros ip_ok sorted_items keys x scheme us pw h p path query fragment X S G P Q F SO SC ON.
  set (l := fold_left (fun l k => mpop k l) keys (parse_qsl query)).
  assert (TL : texts l) by (apply mpops_texts, parsed_texts; exact SC).
  assert (TS : texts (sorted_items l)) by (apply (texts_perm l); [apply Permutation_sym, SO | exact TL]).
  destruct (C69_replace_partial ip_ok x scheme us pw h p path query fragment None None (Some (urlencode (sorted_items l))) None)
    as (x' & E & Sh & _); try assumption; try discriminate.
  { intros s [= <-]. apply encode_good. exact TS. }
  exists x', (urlencode (sorted_items l)). split.
  { unfold remove_query_params, with_query. rewrite X. exact E. }
  split; [exact Sh|]. rewrite parse_encode by exact TS. split.
  - intros k I. assert (PM := param_perm k _ _ (SO l)). unfold l in PM at 2. rewrite mpops_param in PM by (apply ON; exact I).
    rewrite (proj2 (smem_In k keys) I) in PM. apply Permutation_sym, Permutation_nil in PM. exact PM.
  - intros k I. assert (PM := param_perm k _ _ (SO l)). unfold l in PM at 2.
    assert (O : forall ks l, ~ In k ks -> param k (fold_left (fun l k => mpop k l) ks l) = param k l).
    { clear. induction ks as [|a ks IH]; intros l N; [reflexivity|]. cbn [fold_left]. rewrite IH by (intros J; apply N; right; exact J).
      apply mpop_other. intros ->. apply N. left. reflexivity. }
    rewrite O in PM by exact I. exact PM.
Qed.
Print Assumptions C70_remove_partial.

Definition C70_remove_statement : Prop := forall ip_ok sorted_items keys x x', sorts sorted_items ->
  remove_query_params ip_ok sorted_items keys x = Some x' ->
  forall k, In k keys -> param k (parse_qsl (p_query (split x'))) = [].
(** Only the first of the values of a repeated parameter is removed. *)
Theorem C70_remove_refuted : ~ C70_remove_statement.
Proof.
  intros H.
  set (x := {| text := u "http://h/?a=1&a=2"; split := {| p_scheme := u "http"; p_netloc := u "h"; p_path := u "/"; p_query := u "a=1&a=2"; p_fragment := [] |} |}).
  destruct (remove_query_params (fun _ => true) (fun l => l) [u "a"] x) as [x'|] eqn:E; [|vm_compute in E; discriminate E].
  specialize (H (fun _ => true) (fun l => l) [u "a"] x x' (fun l => Permutation_refl l) E (u "a") (or_introl eq_refl)).
  vm_compute in E. injection E as <-. vm_compute in H. discriminate H.
Qed.
Print Assumptions C70_remove_refuted.

(** [replace_query_params] leaves exactly the given parameters. *)
Theorem C70_replace : forall ip_ok d x scheme us pw h p path query fragment,
  shows x scheme (authority us pw h p) path query fragment ->
  scheme_name scheme -> good_authority ip_ok us pw h p -> good_path path -> good_query query -> smooth fragment -> texts d ->
  exists x' q', replace_query_params ip_ok d x = Some x'
    /\ shows x' scheme (authority us pw h p) path q' fragment /\ parse_qsl q' = d.
Proof.
  intros ip_ok d x scheme us pw h p path query fragment X S G P Q F TD.
  destruct (C69_replace_partial ip_ok x scheme us pw h p path query fragment None None (Some (urlencode d)) None)
    as (x' & E & Sh & _); try assumption; try discriminate.
  { intros s [= <-]. apply encode_good. exact TD. }
  exists x', (urlencode d). split; [exact E|]. split; [exact Sh | apply parse_encode; exact TD].
Qed.
Print Assumptions C70_replace.

(** Non-vacuity: a URL with all pieces. *)
Example C69_case : exists x, url_of (fun s => seqb s (u "::1")) (u "https://me:pw@[::1]:8443/a/b?x=1&y=2#top") = Some x
  /\ shows x (u "https") (authority (Some (u "me")) (Some (u "pw")) (u "[::1]") (Some 8443%N)) (u "/a/b") (u "x=1&y=2") (u "top")
  /\ option_map text (url_replace (fun s => seqb s (u "::1")) {| c_scheme := None; c_netloc := None; c_path := None; c_query := None;
        c_fragment := None; c_host := Some (Some (u "example.org")); c_port := Some None; c_user := None; c_pass := None |} x)
     = Some (u "https://me:pw@example.org/a/b?x=1&y=2#top")
  /\ option_map text (include_query_params (fun _ => true) (fun l => l) [(u "x", u "a b")] x) = Some (u "https://me:pw@[::1]:8443/a/b?x=a+b&y=2#top").
Proof. eexists. split; [vm_compute; reflexivity|]. repeat split; vm_compute; reflexivity. Qed.
Example C69_case_good : good_authority (fun s => seqb s (u "::1")) (Some (u "me")) (Some (u "pw")) (u "[::1]") (Some 8443%N)
  /\ good_path (u "/a/b") /\ good_query (u "x=1&y=2") /\ scheme_name (u "https").
Proof.
  assert (FO : forall l s, forallb (fun c => negb (cmem c l)) s = true -> free_of l s).
  { intros l s H c I J. assert (A := proj1 (forallb_forall _ _) H c I). cbn beta in A. rewrite (proj2 (cmem_In c l) J) in A. discriminate A. }
  refine (conj _ (conj _ (conj _ _))).
  - constructor.
    + intros us [= <-]. split; [apply FO; reflexivity | apply smooth_lit; reflexivity].
    + intros pw [= <-]. split; [apply FO; reflexivity | apply smooth_lit; reflexivity].
    + apply (gh_ip _ (u "::1")); [reflexivity | apply FO; reflexivity | apply smooth_lit; reflexivity].
    + intros n [= <-]. lia.
  - refine (conj _ (conj _ _)); [right; exists (u "a/b"); reflexivity | apply FO; reflexivity | apply smooth_lit; reflexivity].
  - split; [apply FO; reflexivity | apply smooth_lit; reflexivity].
  - exists 104%N, (u "ttps"). split; [reflexivity|]. split; [lia|]. intros x [<-|[<-|[<-|[<-|[]]]]]; left; split; discriminate.
Qed.
