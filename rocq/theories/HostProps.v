(** C35, C36, C39, C68: hosts, referrers, client addresses and redirects to TLS. *)
From Verif Require Import PyStr PyStrFacts Utf8 Asgi HeaderModel HeaderSpec HeaderProofs CorsModel CorsSpec UrlModel UrlSpec UrlProofs HostModel HostSpec HostProofs.

(** ** C35 *)
Definition listed (c : host_config) : Prop := (forall p, In p (h_hosts c) -> pattern p) /\ ~ In (u "*") (h_hosts c).
Definition C35_statement : Prop := forall order ip_ok c s h,
  set_order order -> listed c -> h_block c = true -> connection s = true -> request_host s h ->
  (called (trusted_host order ip_ok c s) <-> allows (h_hosts c) h).
(** An allowed IPv6 host is refused. *)
Theorem C35_refuted : ~ C35_statement.
Proof.
  intros H.
  set (c := {| h_hosts := [u "[::1]"]; h_www := false; h_block := true |}).
  set (s := {| s_type := u "http"; s_scheme := u "http"; s_server := None; s_path := u "/"; s_query := []; s_headers := [(u "host", u "[::1]:8000")] |}).
  destruct (H (nodup (list_eq_dec N.eq_dec)) (fun _ => true) c s (u "[::1]")) as [_ X].
  - intros l. split; [apply NoDup_nodup | intros x; apply nodup_In].
  - split.
    + intros p [<-|[]]. left. cbn. intros [I|[I|[I|[I|[I|[]]]]]]; discriminate I.
    + intros [I|[]]. vm_compute in I. discriminate I.
  - reflexivity.
  - reflexivity.
  - left. exists (u "[::1]:8000"). split; [reflexivity|]. apply (hv_ip (u "::1") (u "8000")). intros c' [<-|[<-|[<-|[<-|[]]]]]; split; discriminate.
  - destruct X as (f & X); [left; left; reflexivity|]. vm_compute in X. discriminate X.
Qed.
Print Assumptions C35_refuted.

Lemma plain_host s h : request_host s h -> ~ In 58%N h -> host_of s = h.
Proof.
  intros [(v & E & V)|(E & ->)] N; unfold host_of; rewrite hget_values by reflexivity; rewrite E; [|reflexivity].
  inversion V; subst.
  - change (u ":" ++ port) with (58%N :: port). apply first_part_app. exact N.
  - apply first_part_free. exact N.
  - rewrite !app_assoc. change (((u "[" ++ a) ++ u "]") ++ u ":") with (((u "[" ++ a) ++ u "]") ++ [58%N]). rewrite <- !app_assoc.
    change (u "[" ++ a ++ u "]" ++ [58%N] ++ port) with (u "[" ++ a ++ u "]" ++ 58%N :: port). rewrite !app_assoc. apply first_part_app.
    rewrite <- app_assoc. exact N.
  - apply first_part_free. exact N.
Qed.
(** The application is called exactly when the host is allowed, for hosts without colons. *)
Theorem C35_called_partial : forall order ip_ok c s h,
  listed c -> h_block c = true -> connection s = true -> request_host s h -> ~ In 58%N h ->
  (called (trusted_host order ip_ok c s) <-> allows (h_hosts c) h).
Proof.
  intros order ip_ok c s h [P N] B C R NC. rewrite trusted_host_eq by assumption. rewrite (plain_host s h R NC).
  rewrite <- (existsb_allows (h_hosts c) h P N). destruct (existsb (pattern_matches h) (h_hosts c)).
  - split; [reflexivity|]. intros _. eexists. reflexivity.
  - split; [|discriminate]. intros (f & E). exfalso. rewrite B in E.
    destruct (smem (u "www." ++ h) (h_hosts c) && h_www c); [|discriminate E].
    destruct (build_from_scope ip_ok s) as [x|]; [|discriminate E].
    destruct (url_replace ip_ok (set_netloc None (u "www." ++ p_netloc (split x))) x); discriminate E.
Qed.
Print Assumptions C35_called_partial.
(** Whether or not untrusted hosts are blocked, the flag the application sees tells the truth. *)
Theorem C35_flag_partial : forall order ip_ok c s h f,
  listed c -> connection s = true -> request_host s h -> ~ In 58%N h ->
  trusted_host order ip_ok c s = Through f -> (f = Some true /\ allows (h_hosts c) h) \/ (f = Some false /\ ~ allows (h_hosts c) h /\ h_block c = false).
Proof.
  intros order ip_ok c s h f [P N] C R NC. rewrite trusted_host_eq by assumption. rewrite (plain_host s h R NC).
  assert (A := existsb_allows (h_hosts c) h P N). destruct (existsb (pattern_matches h) (h_hosts c)).
  - intros [= <-]. left. split; [reflexivity | apply A; reflexivity].
  - destruct (smem (u "www." ++ h) (h_hosts c) && h_www c).
    + destruct (build_from_scope ip_ok s) as [x|]; [|discriminate].
      destruct (url_replace ip_ok (set_netloc None (u "www." ++ p_netloc (split x))) x); discriminate.
    + destruct (h_block c); [discriminate|]. intros [= <-]. right. split; [reflexivity|]. split; [|reflexivity].
      intros X. apply A in X. discriminate X.
Qed.
Print Assumptions C35_flag_partial.
(** Otherwise a 400 is sent, unless redirects are on and the www form is listed. *)
Theorem C35_refused_partial : forall order ip_ok c s h,
  listed c -> h_block c = true -> connection s = true -> request_host s h -> ~ In 58%N h -> ~ allows (h_hosts c) h ->
  h_www c = false \/ ~ In (u "www." ++ h) (h_hosts c) ->
  refused (trusted_host order ip_ok c s) (u "Invalid host header").
Proof.
  intros order ip_ok c s h [P N] B C R NC NA W. rewrite trusted_host_eq by assumption. rewrite (plain_host s h R NC).
  assert (A := existsb_allows (h_hosts c) h P N). destruct (existsb (pattern_matches h) (h_hosts c)); [exfalso; apply NA, A; reflexivity|].
  assert (X : smem (u "www." ++ h) (h_hosts c) && h_www c = false).
  { destruct W as [W|W]; [rewrite W; apply andb_false_r | rewrite (proj2 (smem_not_In _ _) W); reflexivity]. }
  rewrite X, B. apply plain_shape.
Qed.
Print Assumptions C35_refused_partial.
(** The redirect names the same resource on the www host. *)
Theorem C35_www_partial : forall order ip_ok c s name prt,
  set_order order -> listed c -> connection s = true -> In (s_scheme s) [u "http"; u "https"; u "ws"; u "wss"] ->
  hd_error (values (u "host") (s_headers s)) = Some (authority None None name prt) ->
  host_name name -> (forall n, prt = Some n -> (n <= 65535)%N) -> plain_path (s_path s) -> sent_query (s_query s) ->
  ~ allows (h_hosts c) name -> h_www c = true -> In (u "www." ++ name) (h_hosts c) ->
  exists location, redirects (trusted_host order ip_ok c s) 303 location
    /\ names location (s_scheme s) (authority None None (u "www." ++ name) prt) (s_path s) (s_query s).
Proof.
  intros order ip_ok c s name prt O [P N] C SC HV HN PR PP SQ NA W I. rewrite trusted_host_eq by assumption.
  assert (H58 : ~ In 58%N name) by (intros J; destruct HN as [_ HN]; specialize (HN _ J); lia).
  assert (HO : host_of s = name).
  { apply plain_host; [|exact H58]. left. eexists. split; [exact HV|]. unfold authority. cbn [app]. destruct prt as [n|].
    - apply hv_name; [exact H58|]. intros x X. assert (D := proj1 (forallb_forall _ _) (dec_digits n) x X). unfold is_digit in D. lia.
    - rewrite app_nil_r. apply hv_bare. exact H58. }
  rewrite HO. assert (A := existsb_allows (h_hosts c) name P N).
  destruct (existsb (pattern_matches name) (h_hosts c)); [exfalso; apply NA, A; reflexivity|].
  rewrite (proj2 (smem_In _ _) I), W. cbn [andb].
  destruct (scope_url ip_ok s name prt SC (or_introl HV) HN PR PP SQ) as (x & -> & X).
  assert (WN : host_name (u "www." ++ name)).
  { split; [discriminate|]. intros z Z. apply in_app_or in Z as [Z|Z]; [|exact (proj2 HN z Z)]. cbn in Z.
    destruct Z as [<-|[<-|[<-|[<-|[]]]]]; lia. }
  assert (EN : u "www." ++ p_netloc (split x) = authority None None (u "www." ++ name) prt).
  { rewrite X. cbn [p_netloc]. unfold authority. rewrite <- !app_assoc. reflexivity. }
  rewrite EN. destruct (moved ip_ok x _ _ _ _ None (u "www." ++ name) prt X (scheme_usual _ SC) WN PR (plain_good _ PP) (sent_good _ SQ)) as (y & -> & T).
  exists (quote_location (text y)). split; [apply redirect_shape; auto|]. rewrite T. apply location_names; assumption.
Qed.
Print Assumptions C35_www_partial.

(** ** C39 *)
Lemma host_name_lit h : negb (empty h) && forallb (fun c => between 48 57 c || between 65 90 c || between 97 122 c || N.eqb c 45 || N.eqb c 46 || N.eqb c 95)%bool h = true -> host_name h.
Proof.
  intros H. apply andb_true_iff in H as [A B]. split; [destruct h; [discriminate A|discriminate]|]. intros c I.
  assert (X := proj1 (forallb_forall _ _) B c I). cbn beta in X. unfold between in X. rewrite !orb_true_iff, !andb_true_iff, !N.leb_le, !N.eqb_eq in X. lia.
Qed.
Definition C39_statement : Prop := forall order ip_ok s name prt,
  set_order order -> connection s = true -> s_scheme s = u "http" \/ s_scheme s = u "ws" ->
  request_authority s name prt -> good_authority ip_ok None None name prt -> sent_query (s_query s) -> (exists r, s_path s = u "/" ++ r) ->
  exists location, redirects (https_redirect order ip_ok s) 307 location
    /\ names location (s_scheme s ++ u "s") (secure_authority name prt) (s_path s) (s_query s).
(** A path that holds a percent sign is redirected to another path. *)
Theorem C39_refuted : ~ C39_statement.
Proof.
  intros H.
  set (s := {| s_type := u "http"; s_scheme := u "http"; s_server := None; s_path := u "/%41"; s_query := []; s_headers := [(u "host", u "h")] |}).
  destruct (H (nodup (list_eq_dec N.eq_dec)) (fun _ => true) s (u "h") None) as (loc & (ms & E & _ & _ & L) & (raw & N & U & _)).
  - intros l. split; [apply NoDup_nodup | intros x; apply nodup_In].
  - reflexivity.
  - left. reflexivity.
  - left. reflexivity.
  - apply host_name_good; [|discriminate]. apply host_name_lit. reflexivity.
  - intros c [].
  - exists (u "%41"). reflexivity.
  - vm_compute in E. injection E as <-. vm_compute in L. injection L as <-.
    change (secure_authority (u "h") None) with (u "h") in N. cbn in N.
    change (u "https://h" ++ u "/%41" = u "https://h" ++ (raw ++ [])) in N. apply app_inv_head in N. rewrite app_nil_r in N. subst raw.
    vm_compute in U. discriminate U.
Qed.
Print Assumptions C39_refuted.
(** With an IPv6 host and a default port the brackets are lost and the request fails. *)
Theorem C39_ipv6_refuted : forall order,
  https_redirect order (seqb (u "::1")) {| s_type := u "http"; s_scheme := u "http"; s_server := None; s_path := u "/"; s_query := [];
                                           s_headers := [(u "host", u "[::1]:80")] |} = Fails.
Proof. intros order. vm_compute. reflexivity. Qed.
Print Assumptions C39_ipv6_refuted.

(** Plain requests are sent to the same resource over TLS. *)
Theorem C39_redirect_partial : forall order ip_ok s name prt,
  set_order order -> connection s = true -> s_scheme s = u "http" \/ s_scheme s = u "ws" ->
  request_authority s name prt -> host_name name -> (forall n, prt = Some n -> (n <= 65535)%N) ->
  plain_path (s_path s) -> sent_query (s_query s) ->
  exists location, redirects (https_redirect order ip_ok s) 307 location
    /\ names location (s_scheme s ++ u "s") (secure_authority name prt) (s_path s) (s_query s).
Proof.
  intros order ip_ok s name prt O C S RA HN PR PP SQ.
  assert (SC : In (s_scheme s) [u "http"; u "https"; u "ws"; u "wss"]) by (destruct S as [-> | ->]; cbn; auto).
  assert (SC' : In (s_scheme s ++ u "s") [u "http"; u "https"; u "ws"; u "wss"]) by (destruct S as [-> | ->]; cbn; auto).
  assert (SR : should_redirect s = true).
  { unfold should_redirect. rewrite C. destruct S as [-> | ->]; reflexivity. }
  unfold https_redirect. rewrite SR. unfold build_redirect_url.
  destruct (scope_url ip_ok s name prt SC RA HN PR PP SQ) as (x & -> & X). rewrite X. cbn [p_scheme p_netloc].
  assert (SS : secure_scheme (if empty (s_scheme s) then u "http" else s_scheme s) = Some (s_scheme s ++ u "s")) by (destruct S as [-> | ->]; reflexivity).
  rewrite SS.
  assert (G := host_name_good ip_ok name prt HN PR). rewrite (authority_port _ _ _ _ _ G).
  assert (LN : host_name (lower name)).
  { destruct HN as [NN HN]. split; [destruct name; [contradiction|discriminate]|]. intros c I. unfold lower in I. apply in_map_iff in I. destruct I as (z & <- & Z).
    specialize (HN z Z). unfold lower_c. destruct (N.leb_spec 65 z), (N.leb_spec z 90); cbn [andb]; lia. }
  assert (HH : hostname (authority None None name prt) = Some (lower name)).
  { unfold hostname. destruct (authority_hostinfo _ _ _ _ _ G) as (b & E & B). rewrite E. cbn [fst].
    assert (B' : name = b).
    { destruct B as [[-> _]|B]; [reflexivity|]. exfalso. destruct HN as [_ HN]. assert (J : In 91%N name) by (rewrite B; left; reflexivity). specialize (HN _ J). lia. }
    subst b. destruct name as [|c r] eqn:EN; [destruct HN as [NN _]; contradiction|].
    assert (NP : split1 37 (c :: r) = None).
    { apply split1_none. intros J. destruct HN as [_ HN]. specialize (HN _ J). lia. }
    rewrite NP. reflexivity. }
  assert (T : exists name' prt', (match prt with
               | Some q => if N.eqb q 80 || N.eqb q 443 then match hostname (authority None None name prt) with Some h => h | None => [] end
                           else authority None None name prt
               | None => authority None None name prt end) = authority None None name' prt'
             /\ secure_authority name prt = authority None None name' prt' /\ host_name name' /\ (forall n, prt' = Some n -> (n <= 65535)%N)).
  { destruct prt as [q|].
    - rewrite HH. destruct (N.eqb_spec q 80) as [->|N80]; [|destruct (N.eqb_spec q 443) as [->|N443]]; cbn [orb].
      + exists (lower name), None. unfold authority. cbn [app]. rewrite app_nil_r. repeat split; [apply LN | apply LN | discriminate].
      + exists (lower name), None. unfold authority. cbn [app]. rewrite app_nil_r. repeat split; [apply LN | apply LN | discriminate].
      + exists name, (Some q). refine (conj eq_refl (conj _ (conj HN PR))).
        unfold secure_authority. destruct q as [|q]; [reflexivity|].
        destruct (Pos.eq_dec q 80) as [->|A]; [contradiction|]. destruct (Pos.eq_dec q 443) as [->|B]; [contradiction|].
        repeat (match goal with |- context [match ?p with xI _ => _ | xO _ => _ | xH => _ end] => is_var p; destruct p end; try reflexivity; try congruence).
    - exists name, None. exact (conj eq_refl (conj eq_refl (conj HN PR))). }
  destruct T as (name' & prt' & E & SA & HN' & PR').
  assert (E' : (match Some prt with
               | Some (Some q) => if N.eqb q 80 || N.eqb q 443 then match hostname (authority None None name prt) with Some h => h | None => [] end
                                  else authority None None name prt
               | _ => authority None None name prt end) = authority None None name' prt') by (rewrite <- E; destruct prt; reflexivity).
  rewrite E'. rewrite SA.
  destruct (moved ip_ok x _ _ _ _ (Some (s_scheme s ++ u "s")) name' prt' X (scheme_usual _ SC') HN' PR' (plain_good _ PP) (sent_good _ SQ)) as (y & Y & T).
  match goal with |- context [url_replace ?a ?b ?c] => replace (url_replace a b c) with (Some y) by (symmetry; exact Y) end.
  exists (quote_location (text y)). split; [apply redirect_shape; auto|]. rewrite T. apply location_names; assumption.
Qed.
Print Assumptions C39_redirect_partial.
(** Secure requests, and what is not a request, reach the application; so following the redirect ends. *)
Theorem C39_secure : forall order ip_ok s,
  (s_scheme s <> u "http" /\ s_scheme s <> u "ws") \/ (s_type s <> u "http" /\ s_type s <> u "websocket") ->
  https_redirect order ip_ok s = Through None.
Proof.
  intros order ip_ok s H. unfold https_redirect, should_redirect, connection. destruct H as [[A B]|[A B]].
  - destruct (seqb_spec (s_scheme s) (u "http")) as [E|_]; [contradiction|]. destruct (seqb_spec (s_scheme s) (u "ws")) as [E|_]; [contradiction|].
    rewrite andb_false_r. reflexivity.
  - destruct (seqb_spec (s_type s) (u "http")) as [E|_]; [contradiction|]. destruct (seqb_spec (s_type s) (u "websocket")) as [E|_]; [contradiction|]. reflexivity.
Qed.
Print Assumptions C39_secure.
Theorem C39_no_loop_partial : forall order ip_ok s ty h name prt,
  set_order order -> connection s = true -> s_scheme s = u "http" \/ s_scheme s = u "ws" ->
  request_authority s name prt -> host_name name -> (forall n, prt = Some n -> (n <= 65535)%N) ->
  plain_path (s_path s) -> sent_query (s_query s) ->
  exists location scheme auth, redirects (https_redirect order ip_ok s) 307 location /\ names location scheme auth (s_path s) (s_query s)
    /\ https_redirect order ip_ok {| s_type := ty; s_scheme := scheme; s_server := s_server s; s_path := s_path s; s_query := s_query s; s_headers := h |}
       = Through None.
Proof.
  intros order ip_ok s ty h name prt O C S RA HN PR PP SQ.
  destruct (C39_redirect_partial order ip_ok s name prt O C S RA HN PR PP SQ) as (loc & R & Nm). eexists. eexists. eexists. split; [exact R|]. split; [exact Nm|].
  apply C39_secure. left. cbn [s_scheme]. destruct S as [-> | ->]; split; intros E; vm_compute in E; discriminate E.
Qed.
Print Assumptions C39_no_loop_partial.

(** ** C36 *)
Lemma node_not_unix a n : node a n -> n <> u "unix".
Proof.
  intros ND E. assert (A : In 46%N n \/ In 58%N n).
  { destruct ND as [a D F|a p D F P|a T F|a p T F P|a (_ & NU & _) _]; [| | | |destruct (NU E)].
    - left. exact D.
    - left. apply in_or_app. left. exact D.
    - right. apply in_or_app. right. apply in_or_app. left. apply two_count. exact T.
    - right. apply in_or_app. right. apply in_or_app. left. apply two_count. exact T. }
  rewrite E in A. clear E. destruct A as [A|A]; apply cmem_In in A; vm_compute in A; discriminate A.
Qed.
(** From an untrusted peer, no header changes the address. *)
Theorem C36_untrusted : forall proxies clean_client clean_proxy peer h,
  address peer -> ~ In (u "*") proxies -> ~ In (clean_proxy peer) proxies ->
  get_ip proxies clean_client clean_proxy (Some peer) h = Some (clean_client peer).
Proof.
  intros proxies cc cp peer h A N1 N2. assert (S := address_strip peer A). destruct A as (NE & NU & _). unfold get_ip.
  destruct peer as [|c r] eqn:E; [contradiction|]. rewrite <- E in *. unfold trusted.
  rewrite (proj2 (smem_not_In _ _) N1), (proj2 (smem_not_In _ _) N2). cbn [orb].
  destruct (seqb_spec peer (u "unix")) as [X|_]; [contradiction|]. rewrite S. reflexivity.
Qed.
Print Assumptions C36_untrusted.
(** From a trusted proxy, the address is the first "for" of the Forwarded header. *)
Theorem C36_forwarded_partial : forall proxies clean_client clean_proxy peer h pre f q a n rest,
  peer <> [] -> In (u "*") proxies \/ In (clean_proxy peer) proxies ->
  hd_error (values (u "forwarded") h) = Some (pre ++ f ++ q ++ n ++ rest) ->
  (forall x y, lower pre <> x ++ u "for=" ++ y) -> lower f = u "for=" -> (q = [] \/ q = u """") ->
  node a n -> (forall c r, rest = c :: r -> In c (u """;, ")) ->
  get_ip proxies clean_client clean_proxy (Some peer) h = Some (clean_client a).
Proof.
  intros proxies cc cp peer h pre f q a n rest NE T HV P LF Q ND R. unfold get_ip. destruct peer as [|c r] eqn:E; [contradiction|]. rewrite <- E in *.
  assert (TR : trusted proxies (cp peer) = true) by (unfold trusted; apply orb_true_iff; destruct T as [T|T]; [left|right]; apply smem_In; exact T).
  rewrite TR. rewrite hget_values by reflexivity. rewrite HV. destruct (node_free a n ND) as [F NN]. rewrite (forwarded_hit pre f q n rest P LF Q F NN R).
  destruct (seqb_spec n (u "unix")) as [X|_]; [|rewrite (node_strip a n ND); reflexivity].
  exfalso. exact (node_not_unix a n ND X).
Qed.
Print Assumptions C36_forwarded_partial.
(** Without that header, it is the first address of X-Forwarded-For. *)
Theorem C36_x_forwarded_partial : forall proxies clean_client clean_proxy peer h pre a n rest,
  peer <> [] -> In (u "*") proxies \/ In (clean_proxy peer) proxies ->
  values (u "forwarded") h = [] -> hd_error (values (u "x-forwarded-for") h) = Some (pre ++ n ++ rest) ->
  (forall c, In c pre -> In c (u """;, ")) -> node a n -> (forall c r, rest = c :: r -> In c (u """;, ")) ->
  get_ip proxies clean_client clean_proxy (Some peer) h = Some (clean_client a).
Proof.
  intros proxies cc cp peer h pre a n rest NE T NF HV P ND R. unfold get_ip. destruct peer as [|c r] eqn:E; [contradiction|]. rewrite <- E in *.
  assert (TR : trusted proxies (cp peer) = true) by (unfold trusted; apply orb_true_iff; destruct T as [T|T]; [left|right]; apply smem_In; exact T).
  rewrite TR. rewrite !hget_values by reflexivity. rewrite NF, HV. cbn [hd_error]. destruct (node_free a n ND) as [F NN]. rewrite (x_forwarded_hit pre n rest P F NN R).
  destruct (seqb_spec n (u "unix")) as [X|_]; [|rewrite (node_strip a n ND); reflexivity].
  exfalso. exact (node_not_unix a n ND X).
Qed.
Print Assumptions C36_x_forwarded_partial.
(** The port of an obfuscated identifier is kept as part of the address. *)
Theorem C36_port_refuted : exists h,
  hd_error (values (u "forwarded") h) = Some (u "for=""_hidden:4711""") /\
  get_ip [u "10.0.0.1"] (fun x => x) (fun x => x) (Some (u "10.0.0.1")) h = Some (u "_hidden:4711").
Proof. exists [(u "forwarded", u "for=""_hidden:4711""")]. now vm_compute. Qed.
Print Assumptions C36_port_refuted.
(** Without both it is the peer. *)
Theorem C36_no_header : forall proxies clean_client clean_proxy peer h,
  address peer -> values (u "forwarded") h = [] -> values (u "x-forwarded-for") h = [] ->
  get_ip proxies clean_client clean_proxy (Some peer) h = Some (clean_client peer).
Proof.
  intros proxies cc cp peer h A N1 N2. assert (S := address_strip peer A). destruct A as (NE & NU & _). unfold get_ip.
  destruct peer as [|c r] eqn:E; [contradiction|]. rewrite <- E in *. rewrite !hget_values by reflexivity. rewrite N1, N2. cbn [hd_error].
  assert (X : (if trusted proxies (cp peer) then peer else peer) = peer) by (destruct (trusted proxies (cp peer)); reflexivity). rewrite X.
  destruct (seqb_spec peer (u "unix")) as [Y|_]; [contradiction|]. rewrite S. reflexivity.
Qed.
Print Assumptions C36_no_header.
(** The application sees the reported address in "x-real-ip", whatever the client sent there. *)
Theorem C36_real_ip : forall proxies clean_client clean_proxy peer h ip h',
  client_ip_scope proxies clean_client clean_proxy peer h = Some (ip, h') ->
  get_ip proxies clean_client clean_proxy peer h = Some ip /\ values (u "x-real-ip") h' = [ip]
  /\ forall n, n <> u "x-real-ip" -> values n h' = values n h.
Proof.
  intros proxies cc cp peer h ip h'. unfold client_ip_scope. destruct (get_ip proxies cc cp peer h) as [i|]; [|discriminate].
  intros E. assert (E1 : i = ip) by congruence. assert (E2 : h' = hset (u "x-real-ip") i h) by congruence. clear E. subst i h'. split; [reflexivity|]. split.
  - rewrite values_set. reflexivity.
  - intros n NE. rewrite values_set. destruct (seqb_spec n (lower (u "x-real-ip"))) as [E|_]; [exfalso; exact (NE E)|reflexivity].
Qed.
Print Assumptions C36_real_ip.

(** ** C68 *)
Definition ref_listed (c : ref_config) : Prop := (forall p, In p (r_hosts c) -> pattern p) /\ ~ In (u "*") (r_hosts c).
(** A referrer is trusted when its host is the request's, if that is allowed, or is listed. *)
Definition trusts (c : ref_config) (own host : str) : Prop :=
  (r_same c = true /\ lower host = own) \/ allows (r_hosts c) (lower host).
Theorem C68_referrer_partial : forall order ip_ok c s own scheme us pw host prt path query fragment,
  ref_listed c -> connection s = true -> request_host s own -> ~ In 58%N own ->
  hd_error (values (u "referer") (s_headers s)) = Some (url_text scheme (authority us pw host prt) path query fragment) ->
  scheme_name scheme -> good_authority ip_ok us pw host prt -> host_name host -> good_path path -> good_query query -> smooth fragment ->
  (trusts c own host /\ trusted_referrer order ip_ok c s = Through (Some true))
  \/ (~ trusts c own host /\ r_block c = false /\ trusted_referrer order ip_ok c s = Through (Some false))
  \/ (~ trusts c own host /\ r_block c = true /\ refused (trusted_referrer order ip_ok c s) (u "Invalid referrer")).
Proof.
  intros order ip_ok c s own scheme us pw host prt path query fragment [P N] C RH N58 HV S G HN PP QQ F.
  unfold trusted_referrer. rewrite C. cbn [negb]. rewrite hget_values by reflexivity. rewrite HV. rewrite (plain_host s own RH N58).
  assert (V : validate_referrer ip_ok c (url_text scheme (authority us pw host prt) path query fragment) own
              = Some (r_same c && seqb (lower host) own || existsb (pattern_matches (lower host)) (r_hosts c))).
  { unfold validate_referrer. rewrite (proj2 (smem_not_In _ _) N).
    assert (E : empty (url_text scheme (authority us pw host prt) path query fragment) = false).
    { destruct S as (x & r & -> & _). reflexivity. }
    rewrite E, url_of_text by assumption. cbn [split p_netloc].
    assert (HH : hostname (authority us pw host prt) = Some (lower host)).
    { unfold hostname. destruct (authority_hostinfo _ _ _ _ _ G) as (b & E1 & B). rewrite E1. cbn [fst].
      assert (B' : host = b).
      { destruct B as [[-> _]|B]; [reflexivity|]. exfalso. destruct HN as [_ HN]. assert (J : In 91%N host) by (rewrite B; left; reflexivity). specialize (HN _ J). lia. }
      subst b. destruct host as [|x r] eqn:EN; [destruct HN as [NN _]; contradiction|].
      assert (NP : split1 37 (x :: r) = None).
      { apply split1_none. intros J. destruct HN as [_ HN]. specialize (HN _ J). lia. }
      rewrite NP. reflexivity. }
    rewrite HH. rewrite first_part_free.
    - destruct (r_same c && seqb (lower host) own); reflexivity.
    - intros J. unfold lower in J. apply in_map_iff in J. destruct J as (z & Z & J). destruct HN as [_ HN]. specialize (HN z J).
      unfold lower_c in Z. destruct (N.leb_spec 65 z), (N.leb_spec z 90); cbn [andb] in Z; lia. }
  rewrite V.
  assert (T : r_same c && seqb (lower host) own || existsb (pattern_matches (lower host)) (r_hosts c) = true <-> trusts c own host).
  { rewrite orb_true_iff, andb_true_iff, seqb_eq, (existsb_allows (r_hosts c) (lower host) P N). reflexivity. }
  destruct (r_same c && seqb (lower host) own || existsb (pattern_matches (lower host)) (r_hosts c)).
  - left. split; [apply T; reflexivity|]. rewrite andb_false_r. reflexivity.
  - right. assert (NT : ~ trusts c own host) by (intros X; apply T in X; discriminate X). destruct (r_block c).
    + right. split; [exact NT|]. split; [reflexivity|]. cbn [andb negb]. apply plain_shape.
    + left. auto.
Qed.
Print Assumptions C68_referrer_partial.
(** Without a referrer: trusted exactly when the empty referrer is listed. *)
Theorem C68_empty : forall order ip_ok c s, ref_listed c -> connection s = true -> values (u "referer") (s_headers s) = [] ->
  (In [] (r_hosts c) -> trusted_referrer order ip_ok c s = Through (Some true))
  /\ (~ In [] (r_hosts c) -> r_block c = false -> trusted_referrer order ip_ok c s = Through (Some false))
  /\ (~ In [] (r_hosts c) -> r_block c = true -> refused (trusted_referrer order ip_ok c s) (u "Invalid referrer")).
Proof.
  intros order ip_ok c s [P N] C HV. unfold trusted_referrer. rewrite C, hget_values by reflexivity. rewrite HV. cbn [negb hd_error].
  unfold validate_referrer. rewrite (proj2 (smem_not_In _ _) N). cbn [empty]. split; [|split].
  - intros I. rewrite (proj2 (smem_In _ _) I), andb_false_r. reflexivity.
  - intros I B. rewrite (proj2 (smem_not_In _ _) I), B. reflexivity.
  - intros I B. rewrite (proj2 (smem_not_In _ _) I), B. apply plain_shape.
Qed.
Print Assumptions C68_empty.
(** Every request is either passed on or refused. *)
Definition C68_statement : Prop := forall order ip_ok c s, ref_listed c -> connection s = true ->
  called (trusted_referrer order ip_ok c s) \/ refused (trusted_referrer order ip_ok c s) (u "Invalid referrer").
(** A Referer header with a port that is not a number raises. *)
Theorem C68_refuted : ~ C68_statement.
Proof.
  intros H.
  destruct (H (fun l => l) (fun _ => true) {| r_hosts := []; r_same := true; r_block := true |}
              {| s_type := u "http"; s_scheme := u "http"; s_server := None; s_path := u "/"; s_query := [];
                 s_headers := [(u "host", u "h"); (u "referer", u "http://h:x/")] |}) as [(f & E)|(ms & E & _)].
  - split; [intros p []|intros []].
  - reflexivity.
  - vm_compute in E. discriminate E.
  - vm_compute in E. discriminate E.
Qed.
Print Assumptions C68_refuted.

(** ** Cases that meet the hypotheses *)
Definition ex_order : list str -> list str := nodup (list_eq_dec N.eq_dec).
Definition ex_scope (host path query : str) : scope :=
  {| s_type := u "http"; s_scheme := u "http"; s_server := None; s_path := path; s_query := query; s_headers := [(u "host", host)] |}.
Example C35_case :
  let c := {| h_hosts := [u "*.example.com"; u "www.site.org"]; h_www := true; h_block := true |} in
  listed c
  /\ trusted_host ex_order (fun _ => true) c (ex_scope (u "api.example.com:8000") (u "/") []) = Through (Some true)
  /\ refused (trusted_host ex_order (fun _ => true) c (ex_scope (u "badexample.com") (u "/") [])) (u "Invalid host header")
  /\ redirects (trusted_host ex_order (fun _ => true) c (ex_scope (u "site.org:81") (u "/a b") (u "x=1"))) 303 (u "http://www.site.org:81/a%20b?x=1").
Proof.
  refine (conj _ (conj _ (conj _ _))).
  - split; [|intros [I|[I|[]]]; vm_compute in I; discriminate I].
    intros p [<-|[<-|[]]].
    + right. right. exists (u "example.com"). split; [reflexivity|]. apply cmem_not_In. vm_compute. reflexivity.
    + left. apply cmem_not_In. vm_compute. reflexivity.
  - vm_compute. reflexivity.
  - vm_compute. eexists. split; [reflexivity|]. split; [eexists; eexists; reflexivity|]. split; [repeat constructor|reflexivity].
  - vm_compute. eexists. split; [reflexivity|]. split; [eexists; eexists; reflexivity|]. split; [repeat constructor|reflexivity].
Qed.
Example C39_case : redirects (https_redirect ex_order (fun _ => true) (ex_scope (u "Site.org:80") (u "/a") (u "x=1"))) 307 (u "https://site.org/a?x=1")
  /\ host_name (u "Site.org") /\ plain_path (u "/a") /\ sent_query (u "x=1")
  /\ request_authority (ex_scope (u "Site.org:80") (u "/a") (u "x=1")) (u "Site.org") (Some 80%N).
Proof.
  refine (conj _ (conj _ (conj _ (conj _ _)))).
  - vm_compute. eexists. split; [reflexivity|]. split; [eexists; eexists; reflexivity|]. split; [repeat constructor|reflexivity].
  - apply host_name_lit. reflexivity.
  - refine (conj _ (conj _ (conj _ _))); [exists (u "a"); reflexivity| | |].
    + intros c I J. cbn in I, J. destruct I as [<-|[<-|[]]]; destruct J as [J|[J|[J|[]]]]; discriminate.
    + apply smooth_lit. reflexivity.
    + intros c [<-|[<-|[]]]; left; vm_compute; reflexivity.
  - intros c I. cbn in I. destruct I as [<-|[<-|[<-|[]]]]; [left; lia|right; apply cmem_In; vm_compute; reflexivity|left; lia].
  - left. reflexivity.
Qed.
Example C36_case :
  get_ip [u "10.0.0.1"] (fun x => x) (fun x => x) (Some (u "10.0.0.1")) [(u "forwarded", u "proto=https;For=""[2001:db8::1]:4711""")] = Some (u "2001:db8::1")
  /\ get_ip [u "10.0.0.1"] (fun x => x) (fun x => x) (Some (u "10.0.0.1")) [(u "x-forwarded-for", u "192.0.2.1:80, 10.0.0.2")] = Some (u "192.0.2.1")
  /\ get_ip [u "10.0.0.1"] (fun x => x) (fun x => x) (Some (u "10.0.0.9")) [(u "x-forwarded-for", u "192.0.2.1")] = Some (u "10.0.0.9")
  /\ node (u "2001:db8::1") (u "[2001:db8::1]:4711") /\ address (u "10.0.0.9").
Proof.
  repeat split; try (vm_compute; reflexivity).
  - apply (nd_6p (u "2001:db8::1") (u "4711")).
    + exists (u "2001"), (u "db8"), (u ":1"). reflexivity.
    + intros c I J. cbn in I, J. repeat (destruct I as [<-|I]; [repeat (destruct J as [J|J]; [discriminate|]); destruct J|]). destruct I.
    + split; [discriminate|]. cbn. intros c I. repeat (destruct I as [<-|I]; [lia|]). destruct I.
  - discriminate.
  - intros E. vm_compute in E. discriminate E.
  - left. apply cmem_not_In. vm_compute. reflexivity.
Qed.
