From Verif Require Import PyStr PyStrFacts Utf8 UrlModel UrlSpec UrlProofs HeaderModel HeaderSpec HeaderProofs HostProofs CookieModel CookieProps Base64 SecModel SecSpec UrlModel.

Lemma authorization_sent h : authorization h = sent h.
Proof.
  unfold authorization, sent, hget. rewrite getall_values. reflexivity.
Qed.
Lemma empty_iff s : empty s = true <-> s = [].
Proof. destruct s; split; intros; cbn in *; congruence. Qed.
Lemma nonempty_iff s : empty s = false <-> s <> [].
Proof. destruct s; split; intros; cbn in *; congruence. Qed.
Lemma no_space name s : lower s = name -> ~ In 32%N name -> ~ In 32%N s.
Proof.
  intros <- F I. apply F. unfold lower. apply in_map_iff. exists 32%N. now split.
Qed.
Lemma scheme_param_some s t : ~ In 32%N s -> scheme_param (Some (s ++ u " " ++ t)) = (s, t).
Proof.
  intros F. unfold scheme_param, partition. change (u " " ++ t) with (32%N :: t). rewrite split1_app by exact F.
  destruct s; reflexivity.
Qed.
Lemma scheme_param_inv v s t : scheme_param (Some v) = (s, t) ->
  (v = s ++ u " " ++ t /\ ~ In 32%N s) \/ (v = s /\ t = [] /\ ~ In 32%N s).
Proof.
  unfold scheme_param, partition. destruct (empty v) eqn:E.
  - intros [= <- <-]. apply empty_iff in E. subst. right. refine (conj eq_refl (conj eq_refl _)). intros [].
  - destruct (split1 32 v) as [[a b]|] eqn:S.
    + intros [= <- <-]. apply split1_some in S. left. exact S.
    + intros [= <- <-]. apply split1_none in S. right. auto.
Qed.
Lemma absent_some s t : absent (Some (s ++ u " " ++ t)) = false.
Proof. destruct s; reflexivity. Qed.

(** *** C102: the credentials of HTTP Basic are those the client sent. *)
Definition C102_statement : Prop :=
  forall auto_error realm h scheme user password, (forall c, In c (user ++ password) -> scalar c) -> ~ In 58%N user ->
  presents (u "basic") h scheme (b64encode (utf8_enc (user ++ u ":" ++ password))) ->
  http_basic auto_error realm h = Found (user, password).
(** False: a password with a letter that is not ASCII is answered 401. *)
Theorem C102_refuted : ~ C102_statement.
Proof.
  intros H. specialize (H true [] [(u "Authorization", u "Basic " ++ b64encode (utf8_enc (u "ana:" ++ [233%N])))] (u "Basic") (u "ana") [233%N]).
  assert (E : http_basic true [] [(u "Authorization", u "Basic " ++ b64encode (utf8_enc (u "ana:" ++ [233%N])))] = Found (u "ana", [233%N])).
  { apply H.
    - intros c I. vm_compute in I. destruct I as [<-|[<-|[<-|[<-|[]]]]]; left; reflexivity.
    - apply cmem_not_In. reflexivity.
    - split; reflexivity. }
  vm_compute in E. discriminate E.
Qed.
Print Assumptions C102_refuted.

Lemma plain_ascii s : plain s -> ascii s = true.
Proof. intros P. apply forallb_forall. intros c I. apply N.ltb_lt, P, I. Qed.
Lemma ascii_plain s : ascii s = true -> plain s.
Proof. intros P c I. unfold ascii in P. rewrite forallb_forall in P. apply N.ltb_lt, P, I. Qed.
Lemma b64_plain s : bytes s -> plain (b64encode s).
Proof.
  intros B c I. apply (b64_chars 43 47) in I; [|exact B]. 
  lia.
Qed.

(** Proved: for ASCII names and passwords. *)
Theorem C102_basic_partial : forall auto_error realm h scheme user password,
  plain user -> plain password -> ~ In 58%N user ->
  presents (u "basic") h scheme (b64encode (user ++ u ":" ++ password)) ->
  http_basic auto_error realm h = Found (user, password).
Proof.
  intros ae realm h s user pw PU PP F [E L]. unfold http_basic. rewrite authorization_sent, E.
  assert (NS : ~ In 32%N s) by (apply (no_space _ _ L), cmem_not_In; reflexivity).
  rewrite scheme_param_some by exact NS. rewrite absent_some, L, seqb_refl. cbn [orb negb].
  assert (P : plain (user ++ u ":" ++ pw)).
  { intros c I. apply in_app_or in I as [I|I]; [auto|]. destruct I as [<-|I]; [reflexivity | auto]. }
  assert (B : bytes (user ++ u ":" ++ pw)) by (intros c I; specialize (P c I); lia).
  rewrite plain_ascii by (apply b64_plain, B). unfold b64decode, b64encode. rewrite b64_round_trip; [|left; split; reflexivity|exact B].
  rewrite plain_ascii by exact P. cbn [negb]. change (u ":" ++ pw) with (58%N :: pw). now rewrite split1_app.
Qed.
Print Assumptions C102_basic_partial.

(** And nothing else is ever taken for credentials. *)
Theorem C102_only : forall auto_error realm h user password,
  http_basic auto_error realm h = Found (user, password) ->
  exists scheme rest, presents (u "basic") h scheme rest /\ b64decode rest = Some (user ++ u ":" ++ password) /\
    ~ In 58%N user /\ plain user /\ plain password.
Proof.
  intros ae realm h user pw. unfold http_basic. rewrite authorization_sent. destruct (sent h) as [v|] eqn:E.
  - destruct (scheme_param (Some v)) as [s t] eqn:SP. destruct (absent (Some v) || _) eqn:G; [destruct ae; discriminate|].
    destruct (if ascii t then b64decode t else None) as [data|] eqn:D; [|discriminate].
    destruct (ascii data) eqn:A; cbn [negb]; [|discriminate]. destruct (split1 58 data) as [[a b]|] eqn:S; [|discriminate].
    intros [= <- <-]. apply split1_some in S as [-> F]. apply orb_false_iff in G as [_ G]. apply negb_false_iff, seqb_eq in G.
    destruct (ascii t) eqn:AT; [|discriminate].
    apply scheme_param_inv in SP as [[-> _]|(-> & -> & _)].
    + exists s, t. refine (conj (conj E G) (conj D (conj F _))). pose proof (ascii_plain _ A) as P. split; intros c I; apply P, in_or_app; [now left | right; now right].
    + vm_compute in D. injection D as D. destruct a; discriminate D.
  - cbn. destruct ae; discriminate.
Qed.
Print Assumptions C102_only.

Definition ana : list (str * str) := [(u "host", u "x"); (u "AUTHORIZATION", u "bAsIc YW5hOnM6ZWNyZXQ=")].
Example C102_case : presents (u "basic") ana (u "bAsIc") (b64encode (u "ana" ++ u ":" ++ u "s:ecret")) /\
  http_basic false (u "x") ana = Found (u "ana", u "s:ecret") /\
  http_basic true (u "here") [(u "authorization", u "Basic YW5h")] = Unauthorized (u "Basic realm=""here""").
Proof. refine (conj (conj eq_refl eq_refl) (conj eq_refl eq_refl)). Qed.

(** *** C103: tokens and keys arrive as sent. *)
Lemma word_space name s : In name [u "basic"; u "bearer"; u "digest"] -> lower s = name -> ~ In 32%N s.
Proof. intros I L. apply (no_space _ _ L), cmem_not_In. destruct I as [<-|[<-|[<-|[]]]]; reflexivity. Qed.

Theorem C103_bearer : forall auto_error h scheme token,
  http_bearer auto_error h = Found (scheme, token) <-> presents (u "bearer") h scheme token /\ token <> [].
Proof.
  intros ae h s t. unfold http_bearer. rewrite authorization_sent. split.
  - destruct (absent (sent h)); [destruct ae; discriminate|]. destruct (sent h) as [v|] eqn:E; [|destruct ae; discriminate].
    destruct (scheme_param (Some v)) as [a b] eqn:SP. destruct ((empty a || empty b) || _) eqn:G; [destruct ae; discriminate|].
    intros [= <- <-]. apply orb_false_iff in G as [G1 G2]. apply orb_false_iff in G1 as [_ G1]. apply nonempty_iff in G1. apply negb_false_iff, seqb_eq in G2.
    apply scheme_param_inv in SP as [[-> _]|(_ & -> & _)]; [|contradiction]. now split; [split|].
  - intros [[E L] T]. rewrite E, absent_some, scheme_param_some by (apply (word_space (u "bearer")); [cbn; auto | exact L]).
    apply nonempty_iff in T. rewrite T, L, seqb_refl. destruct s; [discriminate L|reflexivity].
Qed.
Print Assumptions C103_bearer.

Theorem C103_digest : forall auto_error h scheme credentials,
  http_digest auto_error h = Found (scheme, credentials) <-> presents (u "digest") h scheme credentials /\ credentials <> [].
Proof.
  intros ae h s t. unfold http_digest. rewrite authorization_sent. split.
  - destruct (sent h) as [v|] eqn:E; [|cbn; destruct ae; discriminate].
    destruct (scheme_param (Some v)) as [a b] eqn:SP. destruct (absent _ || _ || _) eqn:G; [destruct ae; discriminate|].
    destruct (negb _) eqn:G2; [discriminate|]. intros [= <- <-]. apply orb_false_iff in G as [_ G1]. apply nonempty_iff in G1. apply negb_false_iff, seqb_eq in G2.
    apply scheme_param_inv in SP as [[-> _]|(_ & -> & _)]; [|contradiction]. now split; [split|].
  - intros [[E L] T]. rewrite E, scheme_param_some by (apply (word_space (u "digest")); [cbn; auto | exact L]).
    rewrite absent_some. apply nonempty_iff in T. rewrite T, L, seqb_refl. destruct s; [discriminate L|reflexivity].
Qed.
Print Assumptions C103_digest.

(** The general scheme: any scheme, both parts present. *)
Theorem C103_base : forall auto_error challenge h scheme credentials,
  http_base auto_error challenge h = Found (scheme, credentials) <->
  sent h = Some (scheme ++ u " " ++ credentials) /\ ~ In 32%N scheme /\ scheme <> [] /\ credentials <> [].
Proof.
  intros ae c h s t. unfold http_base. rewrite authorization_sent. split.
  - destruct (absent (sent h)); [destruct ae; discriminate|]. destruct (sent h) as [v|] eqn:E; [|destruct ae; discriminate].
    destruct (scheme_param (Some v)) as [a b] eqn:SP. destruct (empty a || empty b) eqn:G; [destruct ae; discriminate|].
    intros [= <- <-]. apply orb_false_iff in G as [G1 G2]. apply nonempty_iff in G1, G2.
    apply scheme_param_inv in SP as [[-> F]|(_ & -> & _)]; [|contradiction]. auto.
  - intros (E & F & S & T). rewrite E, absent_some, scheme_param_some by exact F. apply nonempty_iff in S, T. now rewrite S, T.
Qed.
Print Assumptions C103_base.

(** The whole header, for OAuth2 and OpenID Connect. *)
Theorem C103_whole : forall auto_error h v,
  (oauth2 auto_error h = Found v <-> sent h = Some v /\ v <> []) /\ (open_id auto_error h = Found v <-> sent h = Some v /\ v <> []).
Proof.
  assert (X : forall c ae h v, raw_authorization ae c h = Found v <-> sent h = Some v /\ v <> []).
  { intros c ae h v. unfold raw_authorization. rewrite authorization_sent. destruct (sent h) as [w|]; split.
    - destruct (empty w) eqn:G; [destruct ae; discriminate|]. intros [= <-]. apply nonempty_iff in G. now split.
    - intros [[= ->] T]. apply nonempty_iff in T. now rewrite T.
    - destruct ae; discriminate.
    - intros [[=] _]. }
  intros ae h v. split; apply X.
Qed.
Print Assumptions C103_whole.

(** The bearer token of the two OAuth2 flows: as sent, and no header without the scheme is accepted. *)
Theorem C103_oauth2_partial : forall auto_error h token,
  oauth2_bearer auto_error h = Found token <->
  exists scheme, lower scheme = u "bearer" /\ (sent h = Some (scheme ++ u " " ++ token) \/ (sent h = Some scheme /\ token = [])).
Proof.
  intros ae h t. unfold oauth2_bearer. rewrite authorization_sent. split.
  - destruct (sent h) as [v|] eqn:E; [|cbn; destruct ae; discriminate].
    destruct (scheme_param (Some v)) as [a b] eqn:SP. destruct (negb _ && _) eqn:G; [|destruct ae; discriminate].
    intros [= <-]. apply andb_true_iff in G as [_ G]. apply seqb_eq in G. exists a. split; [exact G|].
    apply scheme_param_inv in SP as [[-> _]|(-> & -> & _)]; auto.
  - intros (s & L & [E|[E ->]]); rewrite E.
    + rewrite scheme_param_some by (apply (word_space (u "bearer")); [cbn; auto | exact L]). now rewrite absent_some, L, seqb_refl.
    + assert (F : ~ In 32%N s) by (apply (word_space (u "bearer")); [cbn; auto | exact L]). unfold scheme_param, partition, absent.
      apply split1_none in F. rewrite F. destruct s; [discriminate L|]. cbn [empty negb andb]. now rewrite L, seqb_refl.
Qed.
Print Assumptions C103_oauth2_partial.
(** A token is not empty: false, "Bearer" alone gives the token "". *)
Definition C103_oauth2_statement : Prop := forall auto_error h token, oauth2_bearer auto_error h = Found token -> token <> [].
Theorem C103_oauth2_refuted : ~ C103_oauth2_statement.
Proof. intros H. apply (H true [(u "authorization", u "Bearer")] []); reflexivity. Qed.
Print Assumptions C103_oauth2_refuted.

Lemma api_key_found ae v k : api_key ae v = Found k <-> v = Some k /\ k <> [].
Proof.
  unfold api_key. destruct v as [w|]; split.
  - destruct (empty w) eqn:G; [destruct ae; discriminate|]. intros [= <-]. apply nonempty_iff in G. now split.
  - intros [[= ->] T]. apply nonempty_iff in T. now rewrite T.
  - destruct ae; discriminate.
  - intros [[=] _].
Qed.
Lemma mget_param k l : mget k l = hd_error (param k l).
Proof.
  unfold mget, param. induction l as [|[a b] l IH]; [reflexivity|]. cbn [List.find filter fst]. destruct (seqb a k); [reflexivity | exact IH].
Qed.
(** The API key is the first value sent under the name as a query parameter, or as a header; or the last
    one sent in cookies; and it is not empty. *)
Theorem C103_api_key : forall auto_error name key,
  (forall params, texts params ->
    (api_key_in_query auto_error name (urlencode params) = Found key <-> hd_error (param name params) = Some key /\ key <> [])) /\
  (forall h, api_key_in_header auto_error name h = Found key <-> hd_error (values (lower name) h) = Some key /\ key <> []) /\
  (forall order lines, set_order order -> Forall (fun cs => cs <> [] /\ Forall sent_pair cs) lines ->
    (api_key_in_cookie order auto_error name
       (map (fun cs => (u "cookie", join (u "; ") (map (fun c => fst c ++ u "=" ++ snd c) cs))) lines) = Found key
     <-> dget name (rev (map (fun c => (fst c, unquote (cunquote (snd c)))) (concat lines))) = Some key /\ key <> [])).
Proof.
  intros ae n k. split; [|split].
  - intros l T. unfold api_key_in_query. now rewrite parse_encode, api_key_found, mget_param.
  - intros h. unfold api_key_in_header, hget. now rewrite api_key_found, getall_values.
  - intros order lines O F. unfold api_key_in_cookie. now rewrite api_key_found, C24_last_wins.
Qed.
Print Assumptions C103_api_key.

Example C103_case :
  http_bearer false [(u "Authorization", u "BEARER a.b c")] = Found (u "BEARER", u "a.b c") /\
  http_bearer true [(u "Authorization", u "Bearer ")] = Unauthorized (u "Bearer") /\
  oauth2_bearer true [(u "authorization", u "bearer x"); (u "authorization", u "bearer y")] = Found (u "x") /\
  api_key_in_query true (u "k") (u "k=a%20b&k=c") = Found (u "a b") /\
  api_key_in_header true (u "X-Key") [(u "x-key", u "v")] = Found (u "v").
Proof. repeat (split; [reflexivity|]). reflexivity. Qed.

(** *** C104: with automatic errors a request without credentials is answered 401 with a challenge; without
    them the scheme gives None and never fails. *)
Lemma asks order s h :
  exists found : bool, ask order s true h = (if found then Found tt else Unauthorized (challenge_of s)) /\
    (ask order s false h = (if found then Found tt else Nothing) \/
     (found = false /\ ask order s false h = Unauthorized (challenge_of s) /\
      ((exists r sc rest, s = Basic r /\ (presents (u "basic") h sc rest \/ (sent h = Some sc /\ lower sc = u "basic"))) \/
       (exists sc rest, s = Digest /\ sent h = Some (sc ++ u " " ++ rest) /\ sc <> [] /\ rest <> [] /\ ~ In 32%N sc /\ lower sc <> u "digest")))).
Proof.
  assert (K : forall v, exists found : bool, forget (api_key true v) = (if found then Found tt else Unauthorized (u "APIKey")) /\
     forget (api_key false v) = (if found then Found tt else Nothing)).
  { intros v. unfold api_key. destruct v as [w|]; [destruct (empty w)|]; [exists false|exists true|exists false]; auto. }
  destruct s as [c|r| | | | | |n|n q|n]; cbn [ask challenge_of].
  - unfold http_base. destruct (absent _); [exists false; auto|]. destruct (scheme_param _) as [a b]. destruct (_ || _); [exists false|exists true]; auto.
  - unfold http_basic. rewrite authorization_sent. destruct (scheme_param (sent h)) as [a b] eqn:SP.
    assert (C : (match r with [] => u "Basic" | _ :: _ => u "Basic realm=""" ++ r ++ u """" end) = basic_challenge r) by (destruct r; reflexivity).
    rewrite C. destruct (absent (sent h) || _) eqn:G; [exists false; auto|]. apply orb_false_iff in G as [G1 G2]. apply negb_false_iff, seqb_eq in G2.
    assert (P : exists sc rest, presents (u "basic") h sc rest \/ (sent h = Some sc /\ lower sc = u "basic")).
    { destruct (sent h) as [v|] eqn:E; [|discriminate G1]. apply scheme_param_inv in SP as [[-> _]|(-> & -> & _)]; [exists a, b; left; split; [exact E | assumption] | exists a, []; right; auto]. }
    assert (R : exists r0 sc rest, Basic r = Basic r0 /\ (presents (u "basic") h sc rest \/ (sent h = Some sc /\ lower sc = u "basic"))).
    { destruct P as (sc & rest & P). exists r, sc, rest. auto. }
    destruct (if ascii b then _ else _) as [data|]; [|exists false; auto 6].
    destruct (negb _); [exists false; auto 6|]. destruct (split1 58 data) as [[x y]|]; [exists true; auto | exists false; auto 6].
  - unfold http_bearer. destruct (absent _); [exists false; auto|]. destruct (scheme_param _) as [a b]. destruct (_ || _ || _); [exists false|exists true]; auto.
  - unfold http_digest. rewrite authorization_sent. destruct (scheme_param (sent h)) as [a b] eqn:SP. destruct (_ || _ || _) eqn:G; [exists false; auto|].
    destruct (seqb (lower a) (u "digest")) eqn:G2; cbn [negb]; [exists true; auto|]. exists false. split; [reflexivity|]. right.
    refine (conj eq_refl (conj eq_refl _)). right. apply orb_false_iff in G as [G G3]. apply orb_false_iff in G as [G1 G4]. apply nonempty_iff in G3, G4.
    destruct (sent h) as [v|] eqn:E; [|discriminate G1]. apply scheme_param_inv in SP as [[-> F]|(-> & -> & _)]; [|contradiction].
    exists a, b. refine (conj eq_refl (conj eq_refl (conj G4 (conj G3 (conj F _))))). intros L. rewrite L, seqb_refl in G2. discriminate.
  - unfold oauth2, raw_authorization. destruct (authorization h) as [v|]; [destruct (empty v)|]; [exists false|exists true|exists false]; auto.
  - unfold open_id, raw_authorization. destruct (authorization h) as [v|]; [destruct (empty v)|]; [exists false|exists true|exists false]; auto.
  - unfold oauth2_bearer. destruct (scheme_param _) as [a b]. destruct (_ && _); [exists true|exists false]; auto.
  - destruct (K (hget n h)) as (f & T & F). exists f. split; [exact T | left; exact F].
  - destruct (K (mget n (parse_qsl q))) as (f & T & F). exists f. split; [exact T | left; exact F].
  - destruct (K (dget n (request_cookies order h))) as (f & T & F). exists f. split; [exact T | left; exact F].
Qed.

(** With automatic errors: credentials or the challenge, never None; and the flag does not change what is found. *)
Theorem C104_challenge : forall order s h,
  (ask order s true h = Found tt \/ ask order s true h = Unauthorized (challenge_of s)) /\
  (ask order s true h = Found tt <-> ask order s false h = Found tt).
Proof.
  intros order s h. destruct (asks order s h) as (f & T & F). rewrite T. split; [destruct f; auto|].
  destruct F as [F | (-> & F & _)]; rewrite F; [destruct f|]; split; congruence.
Qed.
Print Assumptions C104_challenge.

Definition C104_optional_statement : Prop := forall order s h, ask order s false h = Found tt \/ ask order s false h = Nothing.
(** False: HTTP Basic answers 401 to credentials it cannot read, HTTP Digest to another scheme. *)
Theorem C104_optional_refuted : ~ C104_optional_statement.
Proof.
  intros H. destruct (H (fun l => l) Digest [(u "authorization", u "Bearer x")]) as [E|E]; vm_compute in E; discriminate E.
Qed.
Print Assumptions C104_optional_refuted.
(** Proved: only those two, and Basic only when the client asked for Basic. *)
Theorem C104_optional_partial : forall order s h,
  (forall r, s = Basic r -> forall scheme, lower scheme = u "basic" -> sent h <> Some scheme /\ forall rest, sent h <> Some (scheme ++ u " " ++ rest)) ->
  (s = Digest -> forall scheme rest, sent h = Some (scheme ++ u " " ++ rest) -> ~ In 32%N scheme -> scheme <> [] -> rest <> [] -> lower scheme = u "digest") ->
  ask order s false h = Found tt \/ ask order s false h = Nothing.
Proof.
  intros order s h A B. destruct (asks order s h) as (f & T & [F | (-> & F & [(r & sc & rest & -> & P) | (sc & rest & -> & E & S & R & NS & L)])]).
  - rewrite F. destruct f; auto.
  - destruct P as [[E L] | [E L]]; destruct (A r eq_refl sc L) as [A1 A2]; [destruct (A2 rest E) | destruct (A1 E)].
  - destruct L. exact (B eq_refl sc rest E NS S R).
Qed.
Print Assumptions C104_optional_partial.

Example C104_case :
  (forall r, Basic (u "x") = Basic r -> forall scheme, lower scheme = u "basic" ->
     sent [(u "authorization", u "Token z")] <> Some scheme /\ forall rest, sent [(u "authorization", u "Token z")] <> Some (scheme ++ u " " ++ rest)) /\
  ask (fun l => l) (Basic (u "x")) false [(u "authorization", u "Token z")] = Nothing /\
  ask (fun l => l) (Basic (u "x")) true [(u "authorization", u "Token z")] = Unauthorized (u "Basic realm=""x""") /\
  ask (fun l => l) (Basic (u "x")) false [(u "authorization", u "Basic !")] = Unauthorized (u "Basic realm=""x""").
Proof.
  split; [|repeat (split; [reflexivity|]); reflexivity].
  intros r _ s L. assert (NS : forall t, u "Token z" <> s ++ t).
  { intros t E. destruct s as [|c s]; [discriminate L|]. cbn in E. injection E as E _. subst c. discriminate L. }
  split; [intros [= E]; apply (NS []); now rewrite app_nil_r | intros rest [= E]; exact (NS _ E)].
Qed.
