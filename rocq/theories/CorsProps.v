(** C33 and C65: cross-origin headers. *)
From Verif Require Import PyStr PyStrFacts Asgi HeaderModel HeaderSpec HeaderProofs HeaderProps CorsModel CorsSpec CorsProofs.

Definition conf (origins : list str) (cred : bool) (priv : bool) : config :=
  {| c_origins := origins; c_methods := []; c_headers := [u "X-Token"]; c_credentials := cred; c_regex := Some (fun o => suffixb (u ".test") o);
     c_private := priv; c_expose := [u "X-Total"]; c_max_age := 600; c_sorted := fun l => l |}.
Definition ok_response : list amsg := [AStart 200 [(u "vary", u "Accept"); (u "x-total", u "3")]; ABody (u "hi") false].
Definition from (o : str) : headers := [(u "host", u "h"); (u "Origin", o)].
Definition ask (o m hs : str) : headers := from o ++ [(u "Access-Control-Request-Method", m); (u "access-control-request-headers", hs)].

(** C33: an application that grants nothing itself, whatever the request: every origin the response
    grants is the wildcard, with all origins allowed, or the origin of the request, and that one is
    allowed. *)
Theorem C33_grant : forall order c method req sent v, set_order order -> grants sent = [] ->
  In v (grants (fst (cors order c method req sent))) ->
  (v = u "*" /\ In (u "*") (c_origins c)) \/ (hget (u "origin") req = Some v /\ allowed c v).
Proof.
  intros order c method req sent v O N H. unfold cors in H. destruct (hget (u "origin") req) as [o|]; [|cbn [fst] in H; rewrite N in H; destruct H].
  assert (G : (v = u "*" /\ all_origins c = true) \/ (v = o /\ validate_origin c o = true)).
  { assert (S : In v (grants (map (fun m => match m with AStart st h => AStart st (wire order (simple_send c req o h)) | b => b end) sent)) ->
      (v = u "*" /\ all_origins c = true) \/ (v = o /\ validate_origin c o = true)).
    { intros X. apply lines_map in X; [|exact O]. destruct X as (st & h & I & X). apply simple_grant in X.
      destruct X as [(X1 & X2 & _)|[X|(X & _)]]; [tauto | tauto | rewrite (no_app_grant _ _ _ N I) in X; destruct X]. }
    destruct (seqb method (u "OPTIONS")); [|exact (S H)].
    destruct (hget (u "access-control-request-method") req) as [m|]; cbn [fst] in H.
    - apply preflight_grant in H; [|exact O]. tauto.
    - destruct (hget (u "access-control-request-private-network") req) as [w|]; [|exact (S H)].
      apply private_grant in H; [|exact O]. exact H. }
  destruct G as [(-> & X)|(-> & X)]; [left; split; [reflexivity | apply all_star; exact X] | right; split; [reflexivity | apply validate_allowed; exact X]].
Qed.
Print Assumptions C33_grant.
Example C33_grant_used :
  grants (fst (cors dedup (conf [u "http://a"] true false) (u "GET") (from (u "http://a")) ok_response)) = [u "http://a"] /\
  grants (fst (cors dedup (conf [u "http://a"] true false) (u "GET") (from (u "http://b.test")) ok_response)) = [u "http://b.test"] /\
  grants (fst (cors dedup (conf [u "http://a"] true false) (u "GET") (from (u "http://b")) ok_response)) = [] /\
  grants (fst (cors dedup (conf [u "*"] true false) (u "GET") (from (u "http://b")) ok_response)) = [u "*"].
Proof. repeat split; vm_compute; reflexivity. Qed.

(** An allowed origin is granted in every response start, except that of a refused request for
    private network access. *)
Theorem C33_granted : forall order c method req sent o, set_order order -> hget (u "origin") req = Some o -> allowed c o ->
  (method = u "OPTIONS" -> has (u "access-control-request-private-network") req -> has (u "access-control-request-method") req) ->
  forall st h, In (AStart st h) (fst (cors order c method req sent)) ->
  In o (values (u "access-control-allow-origin") h) \/ In (u "*") (values (u "access-control-allow-origin") h).
Proof.
  intros order c method req sent o O E AL NP st h H. apply validate_allowed in AL. unfold cors in H. rewrite E in H.
  assert (S : In (AStart st h) (map (fun m => match m with AStart st h => AStart st (wire order (simple_send c req o h)) | b => b end) sent) ->
    In o (values (u "access-control-allow-origin") h) \/ In (u "*") (values (u "access-control-allow-origin") h)).
  { intros X. apply in_map_iff in X. destruct X as ([st' h'|b m] & X & _); [|discriminate]. injection X as _ <-.
    rewrite !(wire_in order _ _ _ O). unfold simple_send. rewrite AL. destruct (all_origins c) eqn:EA; cbn [andb negb].
    - destruct (hcontains (u "cookie") req); [rewrite explicit_acao | rewrite hupdate_acao, EA]; cbn; tauto.
    - rewrite explicit_acao. cbn. tauto. }
  assert (P : forall stt body d, has_entity_header_status stt = false -> In (AStart st h) (plain_text order stt body d) ->
     In o (values (u "access-control-allow-origin") d) \/ In (u "*") (values (u "access-control-allow-origin") d) ->
     In o (values (u "access-control-allow-origin") h) \/ In (u "*") (values (u "access-control-allow-origin") h)).
  { intros stt body d NE X D. unfold plain_text, respond in X. cbn [In] in X. destruct X as [X|[X|[]]]; [|discriminate].
    assert (h = wire order (fst (make_headers stt body (u "utf-8") (Some (u "text/plain")) d))) as Eh by congruence.
    assert (K : forall v, In v (values (u "access-control-allow-origin") d) -> In v (values (u "access-control-allow-origin") h)).
    { intros v Hv. apply (plain_has order stt body) in Hv; [|exact O|exact NE]. unfold plain_text, respond, lines in Hv. cbn [flat_map] in Hv.
      rewrite app_nil_r in Hv. rewrite Eh. exact Hv. }
    destruct D as [D|D]; [left | right]; apply K; exact D. }
  destruct (seqb_spec method (u "OPTIONS")) as [EM|]; [|exact (S H)].
  destruct (hget (u "access-control-request-method") req) as [m|] eqn:HM; cbn [fst] in H.
  - rewrite preflight_eq in H.
    assert (D1 : In o (values (u "access-control-allow-origin") (pre_dict c o (hget (u "access-control-request-headers") req))) \/
                 In (u "*") (values (u "access-control-allow-origin") (pre_dict c o (hget (u "access-control-request-headers") req)))).
    { rewrite pre_dict_values, AL. destruct (explicit c) eqn:X; [left; rewrite pre_set; left; reflexivity|].
      rewrite pre_values. unfold explicit in X. destruct (all_origins c); [right; left; reflexivity | discriminate]. }
    destruct (pre_fail _ _ _ _) eqn:F; (eapply P; [|exact H|exact D1]; reflexivity).
  - destruct (hget (u "access-control-request-private-network") req) as [w|] eqn:HP; [|exact (S H)].
    exfalso. assert (X : has (u "access-control-request-method") req).
    { apply NP; [exact EM|]. apply (proj1 (hget_has (u "access-control-request-private-network") req)). exists w. exact HP. }
    apply (proj2 (hget_has (u "access-control-request-method") req)) in X. destruct X as (v & X). congruence.
Qed.
Print Assumptions C33_granted.
Example C33_granted_used : allowed (conf [u "http://a"] true false) (u "http://a") /\ hget (u "origin") (from (u "http://a")) = Some (u "http://a") /\
  (u "GET" = u "OPTIONS" -> has (u "access-control-request-private-network") (from (u "http://a")) -> has (u "access-control-request-method") (from (u "http://a"))).
Proof. split; [right; left; left; reflexivity|]. split; [vm_compute; reflexivity | intros X; exfalso; revert X; lit]. Qed.

(** A preflight is answered without calling the application: 200 if the origin, the method and all
    the headers asked for are allowed, 400 otherwise. *)
Theorem C33_preflight : forall order c req sent o m, sorts c ->
  hget (u "origin") req = Some o -> hget (u "access-control-request-method") req = Some m ->
  let r := hget (u "access-control-request-headers") req in
  snd (cors order c (u "OPTIONS") req sent) = false /\
  (allowed c o /\ allows_method c m /\ allows_headers c r -> status_is (fst (cors order c (u "OPTIONS") req sent)) 200) /\
  (~ (allowed c o /\ allows_method c m /\ allows_headers c r) -> status_is (fst (cors order c (u "OPTIONS") req sent)) 400).
Proof.
  intros order c req sent o m S E1 E2 r. unfold cors. rewrite E1, E2. change (seqb (u "OPTIONS") (u "OPTIONS")) with true. cbn [fst snd].
  split; [reflexivity|]. rewrite preflight_eq. fold r. rewrite <- (fail_none c o m r S). split.
  - intros ->. eexists; eexists; reflexivity.
  - intros H. destruct (pre_fail c o m r); [contradiction | eexists; eexists; reflexivity].
Qed.
Print Assumptions C33_preflight.
Example C33_preflight_used :
  map (fun r => match fst (cors dedup (conf [u "http://a"] true false) (u "OPTIONS") r ok_response) with AStart st _ :: _ => st | _ => 0%Z end)
    [ask (u "http://a") (u "GET") (u "x-token, accept"); ask (u "http://b") (u "GET") (u "x-token"); ask (u "http://a") (u "PUT") (u "x-token");
     ask (u "http://a") (u "GET") (u "x-token,x-other")] = [200; 400; 400; 400]%Z /\ sorts (conf [u "http://a"] true false).
Proof. split; [vm_compute; reflexivity | intros l x; reflexivity]. Qed.

(** With credentials and a cookie the wildcard is never sent (to an origin that is not itself the
    wildcard): refuted, a refused request for private network access carries it. *)
Definition C33_credentials_statement : Prop := forall order c method req sent o, set_order order -> grants sent = [] ->
  c_credentials c = true -> has (u "cookie") req -> hget (u "origin") req = Some o -> o <> u "*" ->
  ~ In (u "*") (grants (fst (cors order c method req sent))).
Theorem C33_credentials_refuted : ~ C33_credentials_statement.
Proof.
  intros H. apply (H dedup (conf [u "*"] true false) (u "OPTIONS")
    (from (u "http://a") ++ [(u "cookie", u "a=b"); (u "access-control-request-private-network", u "true")]) ok_response (u "http://a") dedup_order);
    try (vm_compute; reflexivity); try (vm_compute; discriminate). left. vm_compute. reflexivity.
Qed.
Print Assumptions C33_credentials_refuted.

(** It is never sent otherwise. *)
Theorem C33_credentials_partial : forall order c method req sent o, set_order order -> grants sent = [] ->
  c_credentials c = true -> has (u "cookie") req -> hget (u "origin") req = Some o -> o <> u "*" ->
  (method = u "OPTIONS" -> has (u "access-control-request-private-network") req -> has (u "access-control-request-method") req) ->
  ~ In (u "*") (grants (fst (cors order c method req sent))).
Proof.
  intros order c method req sent o O N CR CK E NS NP H. unfold cors in H. rewrite E in H.
  assert (HC : hcontains (u "cookie") req = true).
  { rewrite contains_values. change (lower (u "cookie")) with (u "cookie"). unfold has in CK. destruct (values (u "cookie") req); [contradiction | reflexivity]. }
  assert (S : ~ In (u "*") (grants (map (fun m => match m with AStart st h => AStart st (wire order (simple_send c req o h)) | b => b end) sent))).
  { intros X. apply lines_map in X; [|exact O]. destruct X as (st & h & I & X). apply simple_grant in X.
    destruct X as [(_ & _ & X)|[(X & _)|(X & _)]]; [congruence | congruence | rewrite (no_app_grant _ _ _ N I) in X; destruct X]. }
  destruct (seqb_spec method (u "OPTIONS")) as [EM|]; [|exact (S H)].
  destruct (hget (u "access-control-request-method") req) as [m|] eqn:HM; cbn [fst] in H.
  - apply preflight_grant in H; [|exact O]. unfold explicit in H. rewrite CR, orb_true_r in H. destruct H as [(_ & _ & X)|(X & _)]; congruence.
  - destruct (hget (u "access-control-request-private-network") req) as [w|] eqn:HP; [|exact (S H)].
    assert (X : has (u "access-control-request-method") req).
    { apply NP; [exact EM|]. apply (proj1 (hget_has (u "access-control-request-private-network") req)). exists w. exact HP. }
    apply (proj2 (hget_has (u "access-control-request-method") req)) in X. destruct X as (v & X). congruence.
Qed.
Print Assumptions C33_credentials_partial.
Example C33_credentials_used : has (u "cookie") (from (u "http://a") ++ [(u "Cookie", u "a=b")]) /\
  grants (fst (cors dedup (conf [u "*"] true false) (u "GET") (from (u "http://a") ++ [(u "Cookie", u "a=b")]) ok_response)) = [u "http://a"].
Proof. split; [vm_compute; discriminate | vm_compute; reflexivity]. Qed.

(** C65: a response that names an origin says that it varies with the origin: refuted, the answer to
    an allowed request for private network access does not. *)
Definition C65_statement : Prop := forall order c method req sent v, set_order order -> grants sent = [] ->
  In v (grants (fst (cors order c method req sent))) -> v <> u "*" ->
  exists x, In x (lines (u "vary") (fst (cors order c method req sent))) /\ In (u "Origin") (map strip (split_char 44 x)).
Theorem C65_refuted : ~ C65_statement.
Proof.
  intros H. destruct (H dedup (conf [u "*"] false true) (u "OPTIONS") (from (u "http://a") ++ [(u "access-control-request-private-network", u "true")]) ok_response (u "http://a") dedup_order)
    as (x & X & _); [vm_compute; reflexivity | left; vm_compute; reflexivity | lit |]. vm_compute in X. exact X.
Qed.
Print Assumptions C65_refuted.

(** It does otherwise. *)
Theorem C65_vary_partial : forall order c method req sent v, set_order order -> grants sent = [] ->
  (method = u "OPTIONS" -> has (u "access-control-request-private-network") req -> has (u "access-control-request-method") req) ->
  In v (grants (fst (cors order c method req sent))) -> v <> u "*" ->
  exists x, In x (lines (u "vary") (fst (cors order c method req sent))) /\ In (u "Origin") (map strip (split_char 44 x)).
Proof.
  intros order c method req sent v O N NP H NS. unfold cors in *. destruct (hget (u "origin") req) as [o|]; [|cbn [fst] in H; rewrite N in H; destruct H].
  assert (S : In v (grants (map (fun m => match m with AStart st h => AStart st (wire order (simple_send c req o h)) | b => b end) sent)) ->
    exists x, In x (lines (u "vary") (map (fun m => match m with AStart st h => AStart st (wire order (simple_send c req o h)) | b => b end) sent)) /\
      In (u "Origin") (map strip (split_char 44 x))).
  { intros X. apply lines_map in X; [|exact O]. destruct X as (st & h & I & X).
    assert (G : exists h1, simple_send c req o h = set_explicit_origin h1 o).
    { pose proof (simple_grant _ _ _ _ _ X) as G. destruct G as [(G & _)|[(_ & G)|(G & _)]]; [contradiction | | rewrite (no_app_grant _ _ _ N I) in G; destruct G].
      unfold simple_send in *. rewrite G in *. destruct (all_origins c) eqn:EA; cbn [andb negb] in *; [|eexists; reflexivity].
      destruct (hcontains (u "cookie") req); [eexists; reflexivity|]. rewrite hupdate_acao, EA in X. destruct X as [X|[]]. congruence. }
    destruct G as (h1 & G). destruct (explicit_vary h1 o) as (x & Ex & T). exists x. split; [|exact T].
    unfold lines. apply in_flat_map. exists (AStart st (wire order (simple_send c req o h))). split.
    - apply in_map_iff. exists (AStart st h). auto.
    - apply (wire_in order _ _ _ O). rewrite G, Ex. left. reflexivity. }
  destruct (seqb_spec method (u "OPTIONS")) as [EM|]; [|exact (S H)].
  destruct (hget (u "access-control-request-method") req) as [m|] eqn:HM; cbn [fst] in *.
  - apply preflight_grant in H; [|exact O]. destruct H as [(H & _)|(_ & _ & H)]; [contradiction|].
    exists (u "Origin"). split; [|left; vm_compute; reflexivity]. rewrite preflight_eq.
    destruct (pre_fail c o m _); (apply plain_has; [exact O | reflexivity | rewrite pre_dict_vary, H; left; reflexivity]).
  - destruct (hget (u "access-control-request-private-network") req) as [w|] eqn:HP; [|exact (S H)].
    exfalso. assert (X : has (u "access-control-request-method") req).
    { apply NP; [exact EM|]. apply (proj1 (hget_has (u "access-control-request-private-network") req)). exists w. exact HP. }
    apply (proj2 (hget_has (u "access-control-request-method") req)) in X. destruct X as (y & X). congruence.
Qed.
Print Assumptions C65_vary_partial.
Example C65_vary_used : lines (u "vary") (fst (cors dedup (conf [u "http://a"] true false) (u "GET") (from (u "http://a")) ok_response)) =
  [u "Accept, Origin, Access-Control-Expose-Headers"].
Proof. vm_compute. reflexivity. Qed.

(** A request without an Origin passes through. *)
Theorem C33_same_origin : forall order c method req sent, ~ has (u "origin") req -> cors order c method req sent = (sent, true).
Proof.
  intros order c method req sent H. unfold cors. destruct (hget (u "origin") req) as [o|] eqn:E; [|reflexivity].
  destruct H. apply (proj1 (hget_has (u "origin") req)). exists o. exact E.
Qed.
Print Assumptions C33_same_origin.
Example C33_same_origin_used : ~ has (u "origin") [(u "host", u "h")].
Proof. intros H. apply H. vm_compute. reflexivity. Qed.
