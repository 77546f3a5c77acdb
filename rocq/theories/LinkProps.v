(** C314, C315: links. *)
From Verif Require Import PyStr PyStrFacts Utf8 HeaderModel PathModel UrlModel UrlSpec UrlProofs LinkModel LinkSpec.

Lemma request_scheme_name s : request_scheme s -> scheme_name s.
Proof.
  intros H. unfold request_scheme in H. cbn [In] in H.
  destruct H as [<-|[<-|[<-|[<-|[]]]]]; eexists; eexists; (split; [reflexivity|]); (split; [split; discriminate|]); intros x X; cbn in X;
    repeat (destruct X as [<-|X]; [left; split; discriminate|]); destruct X.
Qed.
Lemma rstrip_slashes r k : no_last_slash r -> rstrip_by is_slash (r ++ repeat slash k) = r.
Proof.
  intros L. rewrite rstrip_by_app by (induction k; [reflexivity|exact IHk]). unfold rstrip_by. destruct (rev r) as [|c t] eqn:E.
  - apply (f_equal (@rev _)) in E. rewrite rev_involutive in E. subst r. reflexivity.
  - assert (X : r = rev t ++ [c]) by (apply (f_equal (@rev _)) in E; rewrite rev_involutive in E; exact E). cbn [lstrip_by]. destruct (is_slash c) eqn:I.
    + unfold is_slash in I. apply N.eqb_eq in I. subst c. contradiction (L (rev t)).
    + cbn [rev]. symmetry. exact X.
Qed.
Lemma with_slash r k : exists k', base_path (r ++ repeat slash k) = r ++ repeat slash k'.
Proof.
  unfold base_path.
  destruct (suffixb _ _); [exists k; reflexivity|]. exists (k + 1). rewrite repeat_app, app_assoc. reflexivity.
Qed.
Lemma good_slashes r k : good_path r -> good_path (r ++ repeat slash k).
Proof.
  intros (A & B & C). assert (I : forall c, In c (repeat slash k) -> c = slash) by (intros c H; exact (repeat_spec k slash c H)). refine (conj _ (conj _ _)).
  - destruct A as [->|(x & ->)]; [|right; exists (x ++ repeat slash k); rewrite app_assoc; reflexivity]. destruct k as [|k]; [left; reflexivity|right; exists (repeat slash k); reflexivity].
  - apply free_of_app. split; [exact B|]. intros c H. rewrite (I c H). intros [X|[X|[]]]; discriminate X.
  - apply smooth_app. split; [exact C|]. intros c H. rewrite (I c H). repeat split; discriminate.
Qed.
Lemma good_app r p : good_path r -> good_path p -> good_path (r ++ p).
Proof.
  intros (A & B & C) (A' & B' & C'). refine (conj _ (conj _ _)); [|apply free_of_app; split; assumption|apply smooth_app; split; assumption].
  destruct A as [->|(x & ->)]; [exact A'|right; exists (x ++ p); rewrite app_assoc; reflexivity].
Qed.
Lemma addressed_good ip_ok sc auth path : request_scheme (s_scheme sc) -> addressed ip_ok sc auth ->
  (exists us pw h p, auth = authority us pw h p /\ good_authority ip_ok us pw h p)
  /\ scope_text {| s_type := s_type sc; s_scheme := s_scheme sc; s_server := s_server sc; s_path := path; s_query := []; s_headers := s_headers sc |}
     = Some (url_text (s_scheme sc) auth path [] []).
Proof.
  intros S A. unfold scope_text, url_text. cbn [s_type s_scheme s_server s_path s_query s_headers empty]. rewrite ?app_nil_r.
  destruct A as [us pw h p H G|h n H SV G IM|h n H SV G LE IM].
  - split; [exists us, pw, h, p; split; [reflexivity|exact G]|]. rewrite H. reflexivity.
  - split; [exists None, None, h, None; split; [reflexivity|]; constructor; [intros ? X; discriminate X|intros ? X; discriminate X|exact G|intros ? X; discriminate X]|].
    rewrite H, SV. assert (D : default_port (s_scheme sc) = Some n).
    { destruct IM as [(I & ->)|(I & ->)]; cbn [In] in I; destruct I as [<-|[<-|[]]]; reflexivity. }
    rewrite D, N.eqb_refl. unfold authority. rewrite app_nil_r. reflexivity.
  - split; [exists None, None, h, (Some n); split; [reflexivity|]; constructor; [intros ? X; discriminate X|intros ? X; discriminate X|exact G|intros ? [= <-]; exact LE]|].
    rewrite H, SV. assert (D : exists d, default_port (s_scheme sc) = Some d /\ implied (s_scheme sc) d).
    { unfold implied. unfold request_scheme in S. cbn [In] in S. destruct S as [E|[E|[E|[E|[]]]]]; rewrite <- E; eexists; (split; [reflexivity|]); cbn [In]; tauto. }
    destruct D as (d & D & I). rewrite D. destruct (N.eqb_spec n d) as [->|_]; [contradiction|]. unfold authority. cbn [app port_text]. rewrite <- !app_assoc. reflexivity.
Qed.
Lemma secure_scheme s : request_scheme s -> forall kind s', link_scheme s kind s' ->
  match kind with Some false => if is_secure s then u "https" else u "http" | Some true => if is_secure s then u "wss" else u "ws" | None => s end = s' /\ request_scheme s'.
Proof. intros R kind s' L. destruct L as [t E|t E|t E|t E|t]; [| | | |split; [reflexivity|exact R]]; destruct E as [E|E]; rewrite E; (split; [reflexivity|unfold request_scheme; cbn [In]; auto 6]). Qed.

(** The link to a route: the scheme of its kind, as secure as the request; its host, or else the authority that was asked; the root path
    of the application without slashes at the end, and the path of the route.  Reading the link gives these parts and nothing else. *)
Theorem C314 : forall ip_ok sc root k path kind host asked scheme auth,
  request_scheme (s_scheme sc) -> addressed ip_ok sc asked -> good_path root -> no_last_slash root -> good_path path ->
  link_scheme (s_scheme sc) kind scheme -> link_authority ip_ok asked host auth ->
  exists x y, url_path_for ip_ok sc (root ++ repeat slash k) {| ru_path := path; ru_protocol := kind; ru_host := host |} = Some x
    /\ text x = scheme ++ u "://" ++ auth ++ root ++ path
    /\ shows x scheme auth (root ++ path) [] []
    /\ url_of ip_ok (text x) = Some y /\ shows y scheme auth (root ++ path) [] [].
Proof.
  intros ip_ok sc root k path kind host asked scheme auth S A R L P LS LA. unfold url_path_for, base_url.
  destruct (with_slash root k) as (k' & ->). unfold build_from_scope. destruct (addressed_good ip_ok sc asked (root ++ repeat slash k') S A) as ((us & pw & h & p & EA & GA) & ->).
  rewrite EA. rewrite (url_of_text ip_ok _ us pw h p _ [] []); [|exact (request_scheme_name _ S)|exact GA|exact (good_slashes _ k' R)|split; [intros c []|apply smooth_nil]|apply smooth_nil].
  rewrite <- EA. unfold make_absolute_url. cbn [split p_scheme p_netloc p_path ru_path ru_protocol ru_host]. rewrite (rstrip_slashes _ _ L).
  destruct (secure_scheme _ S _ _ LS) as (-> & S').
  assert (X : match host with [] => asked | h0 => h0 end = auth /\ exists us pw h p, auth = authority us pw h p /\ good_authority ip_ok us pw h p).
  { destruct LA as [|us' pw' h' p' G' N']; [split; [reflexivity|exists us, pw, h, p; split; [exact EA|exact GA]]|].
    split; [destruct (authority us' pw' h' p'); [contradiction N'; reflexivity|reflexivity]|exists us', pw', h', p'; split; [reflexivity|exact G']]. }
  assert (XH : (match host with [] => asked | n :: l => n :: l end) = auth) by (rewrite <- (proj1 X); destruct host; reflexivity). rewrite XH. destruct X as (_ & us2 & pw2 & h2 & p2 & EA2 & GA2).
  assert (T : urlunsplit {| p_scheme := scheme; p_netloc := auth; p_path := root ++ path; p_query := []; p_fragment := [] |} = url_text scheme auth (root ++ path) [] []).
  { apply unsplit_text; [destruct (scheme_facts _ (request_scheme_name _ S')) as (_ & _ & _ & _ & N0 & _); exact N0|rewrite EA2; exact (proj2 (authority_net _ _ _ _ _ GA2))|exact (good_app _ _ R P)]. }
  rewrite T. eexists. eexists. split; [reflexivity|]. cbn [text]. split; [unfold url_text; rewrite !app_nil_r; reflexivity|]. split; [reflexivity|].
  rewrite EA2. rewrite (url_of_text ip_ok _ us2 pw2 h2 p2 _ [] []); [|exact (request_scheme_name _ S')|exact GA2|exact (good_app _ _ R P)|split; [intros c []|apply smooth_nil]|apply smooth_nil].
  split; reflexivity.
Qed.
Print Assumptions C314.

(** ** C315 *)
(** Full statement: whoever follows a link reaches the path of the route. *)
Definition C315_application (fits : str -> Prop) : Prop := forall ip_ok sc root path asked x,
  request_scheme (s_scheme sc) -> addressed ip_ok sc asked -> good_path root -> no_last_slash root -> ~ In 37%N root ->
  (exists r, path = slash :: r) -> smooth path -> fits path ->
  url_path_for ip_ok sc root {| ru_path := path; ru_protocol := Some false; ru_host := [] |} = Some x ->
  exists p, requested ip_ok (text x) p /\ get_route_path root p = path.
Definition C315_statement : Prop := C315_application (fun _ => True).
Definition browser : scope := {| s_type := u "http"; s_scheme := u "http"; s_server := None; s_path := u "/"; s_query := []; s_headers := [(u "host", u "example.org")] |}.
Lemma example_org ip_ok : good_authority ip_ok None None (u "example.org") None.
Proof.
  constructor; [intros ? X; discriminate X|intros ? X; discriminate X| |intros ? X; discriminate X].
  apply gh_name; [discriminate| |apply smooth_lit; reflexivity].
  intros c H I. assert (X : forallb (fun c => negb (cmem c (u "@:/?#[]"))) (u "example.org") = true) by reflexivity.
  rewrite forallb_forall in X. specialize (X c H). apply negb_true_iff in X. apply cmem_In in I. congruence.
Qed.
Lemma browser_addressed ip_ok : addressed ip_ok browser (u "example.org").
Proof. exact (ad_host ip_ok browser None None (u "example.org") None eq_refl (example_org ip_ok)). Qed.
Lemma witness (path : str) : C315_statement -> forallb (fun c => negb (unsafe c)) (slash :: path) = true ->
  forall x, url_path_for (fun _ => true) browser [] {| ru_path := slash :: path; ru_protocol := Some false; ru_host := [] |} = Some x ->
  exists p, requested (fun _ => true) (text x) p /\ p = slash :: path.
Proof.
  intros H F x E. apply (H (fun _ => true) browser [] (slash :: path) (u "example.org") x); try assumption.
  - left. reflexivity.
  - apply browser_addressed.
  - split; [left; reflexivity|]. split; [intros c []|apply smooth_nil].
  - intros r X. destruct r; discriminate X.
  - intros [].
  - exists path. reflexivity.
  - apply smooth_lit. exact F.
  - exact I.
Qed.
(** A parameter with a question mark, a hash or a percent sign is not escaped. *)
Theorem C315_question_refuted : ~ C315_statement.
Proof.
  intros H. destruct (witness (u "who?") H eq_refl _ eq_refl) as (p & (x & E & ->) & X). vm_compute in E. injection E as <-. vm_compute in X. discriminate X.
Qed.
Print Assumptions C315_question_refuted.
Theorem C315_percent_refuted : ~ C315_application (fun path => forall c, In c path -> ~ In c (u "?#")).
Proof.
  intros H. destruct (url_path_for (fun _ => true) browser [] {| ru_path := u "/%41"; ru_protocol := Some false; ru_host := [] |}) as [l|] eqn:EL; [|vm_compute in EL; discriminate EL].
  destruct (H (fun _ => true) browser [] (u "/%41") (u "example.org") l) as (p & (x & E & ->) & X).
  - left. reflexivity.
  - apply browser_addressed.
  - split; [left; reflexivity|]. split; [intros c []|apply smooth_nil].
  - intros r X. destruct r; discriminate X.
  - intros [].
  - exists (u "%41"). reflexivity.
  - apply smooth_lit. reflexivity.
  - intros c I J. assert (Y : forallb (fun c => negb (cmem c (u "?#"))) (u "/%41") = true) by reflexivity. rewrite forallb_forall in Y. specialize (Y c I). apply negb_true_iff in Y. apply cmem_In in J. congruence.
  - exact EL.
  - vm_compute in EL. injection EL as <-. vm_compute in E. injection E as <-. vm_compute in X. discriminate X.
Qed.
Print Assumptions C315_percent_refuted.
Theorem C315_partial : C315_application (fun path => forall c, In c path -> ~ In c (u "?#%")).
Proof.
  intros ip_ok sc root path asked x S A R L UQ (r & EP) SM F E.
  assert (P : good_path path).
  { split; [right; exists r; exact EP|]. split; [|exact SM]. intros c I J. apply (F c I). cbn in J |- *. tauto. }
  assert (LS : exists scheme, link_scheme (s_scheme sc) (Some false) scheme).
  { unfold request_scheme in S. cbn [In] in S. destruct S as [X|[X|[X|[X|[]]]]]; rewrite <- X; eexists; first [apply ls_http; tauto|apply ls_https; tauto]. }
  destruct LS as (scheme & LS). destruct (C314 ip_ok sc root 0 path (Some false) [] asked scheme asked S A R L P LS (la_asked _ _)) as (x' & y & E' & _ & _ & EY & SY).
  cbn [repeat] in E'. rewrite app_nil_r in E'. rewrite E in E'. injection E' as <-. exists (unquote (p_path (split y))). split; [exists y; split; [exact EY|reflexivity]|].
  unfold shows in SY. rewrite SY. cbn [p_path].
  assert (NP : ~ In 37%N path) by (intros I; apply (F 37%N I); cbn; tauto).
  assert (U : unquote (root ++ path) = root ++ path).
  { unfold unquote. destruct (cmem 37 (root ++ path)) eqn:C; [|reflexivity]. apply cmem_In, in_app_iff in C as [C|C]; contradiction. }
  rewrite U. unfold get_route_path. destruct root as [|c t] eqn:ER; [reflexivity|]. rewrite <- ER. assert (PX : prefixb root (root ++ path) = true) by (apply prefixb_iff; exists path; reflexivity).
  rewrite PX. rewrite skipn_app, skipn_all, Nat.sub_diag. reflexivity.
Qed.
Print Assumptions C315_partial.
Example C314_case : exists x, url_path_for (fun _ => true) browser (u "/api/") {| ru_path := u "/users/7"; ru_protocol := Some true; ru_host := [] |} = Some x
  /\ text x = u "ws://example.org/api/users/7" /\ request_scheme (s_scheme browser) /\ addressed (fun _ => true) browser (u "example.org") /\ link_scheme (u "http") (Some true) (u "ws").
Proof. eexists. split; [reflexivity|]. split; [vm_compute; reflexivity|]. split; [left; reflexivity|]. split; [apply browser_addressed|apply ls_ws; left; reflexivity]. Qed.
Example C315_case : exists x, url_path_for (fun _ => true) browser (u "/api") {| ru_path := u "/users/7"; ru_protocol := Some false; ru_host := [] |} = Some x
  /\ requested (fun _ => true) (text x) (u "/api/users/7") /\ get_route_path (u "/api") (u "/api/users/7") = u "/users/7".
Proof. eexists. split; [reflexivity|]. split; [eexists; split; [vm_compute; reflexivity|vm_compute; reflexivity]|vm_compute; reflexivity]. Qed.
(** A server that listens on a socket file and a request without a Host header: the link has no host. *)
Theorem C315_socket_refuted : ~ (forall ip_ok sc path, request_scheme (s_scheme sc) -> hget (u "host") (s_headers sc) = None ->
  (exists h n, s_server sc = Some (h, n)) -> good_path path ->
  exists x y auth, url_path_for ip_ok sc [] {| ru_path := path; ru_protocol := Some false; ru_host := [] |} = Some x /\ url_of ip_ok (text x) = Some y /\ auth <> [] /\ shows y (u "http") auth path [] []).
Proof.
  intros H. destruct (H (fun _ => true) {| s_type := u "http"; s_scheme := u "http"; s_server := Some (u "/run/app.sock", None); s_path := u "/"; s_query := []; s_headers := [] |} (u "/list")) as (x & y & auth & E & EY & _ & SY).
  - left. reflexivity.
  - reflexivity.
  - eexists. eexists. reflexivity.
  - split; [right; exists (u "list"); reflexivity|]. split; [|apply smooth_lit; reflexivity]. intros c I J. assert (Y : forallb (fun c => negb (cmem c (u "?#"))) (u "/list") = true) by reflexivity. rewrite forallb_forall in Y. specialize (Y c I). apply negb_true_iff in Y. apply cmem_In in J. congruence.
  - vm_compute in E. injection E as <-. vm_compute in EY. injection EY as <-. unfold shows in SY. vm_compute in SY. discriminate SY.
Qed.
Print Assumptions C315_socket_refuted.
