(** C34, C66 and C67: CSRF tokens. *)
From Verif Require Import PyStr PyStrFacts Utf8 Asgi HeaderModel HeaderSpec HeaderProofs HeaderProps CookieModel CookieSpec CookieProofs RequestModel FormSpec CsrfModel CsrfSpec CsrfProofs.

(** An environment and a configuration for the examples. *)
Definition demo_env : env := {| mac := fun k m => u "c0ffee" ++ dec (N.of_nat (length k + length m)); decode_ignore := fun s => s |}.
Definition demo : config :=
  {| s_secret := u "secret"; s_cookie := u "csrftoken"; s_header := u "X-CSRFToken"; s_path := Some (u "/"); s_safe := [u "GET"; u "HEAD"; u "QUERY"]; s_secure := false;
     s_httponly := false; s_samesite := Some (u "lax"); s_domain := None; s_field := u "csrf_token"; s_max := N.to_nat 2000 |}.
Definition rnd : str := repeat 97%N 64.
Definition tok : str := generate demo_env (u "secret") rnd.
Lemma demo_good : good_env demo_env.
Proof.
  split; [reflexivity|]. intros k m. split; [discriminate|]. intros c. cbn [mac demo_env]. rewrite in_app_iff. intros [H|H].
  - cbn in H. cbn. tauto.
  - assert (D := dec_digits (N.of_nat (length k + length m))). rewrite Forall_forall in D || rewrite forallb_forall in D. specialize (D c H).
    unfold is_digit in D. rewrite andb_true_iff, !N.leb_le in D.
    assert (c = 48 \/ c = 49 \/ c = 50 \/ c = 51 \/ c = 52 \/ c = 53 \/ c = 54 \/ c = 55 \/ c = 56 \/ c = 57)%N as X by lia.
    cbn. repeat (destruct X as [->|X]; [tauto|]). subst c. tauto.
Qed.
Lemma tok_ascii : ascii_text tok.
Proof. exact (proj1 (ascii_iff tok) ltac:(vm_compute; reflexivity)). Qed.
Lemma tok_authentic : authentic demo_env (s_secret demo) tok.
Proof. exists rnd. split; [vm_compute; reflexivity | reflexivity]. Qed.

(** C34: for a method that is not safe, whatever the cookies, headers and body, the application is
    called only if the cookie is an authentic token and the very same token is submitted. *)
Theorem C34_only : forall e c order method req msgs src, ~ In method (s_safe c) -> settled msgs ->
  csrf e c order method req msgs = Called src ->
  exists t, dget (s_cookie c) (request_cookies order req) = Some t /\ authentic e (s_secret c) t /\ submits e c req msgs t.
Proof.
  intros e c order method req msgs src M S H. destruct (csrf_called _ _ _ _ _ _ _ M S H) as (t & A & B & C & _). exists t. auto.
Qed.
Print Assumptions C34_only.
Example C34_only_used : csrf demo_env demo dedup (u "POST") [(u "cookie", u "csrftoken=" ++ tok); (u "x-csrftoken", tok)] [MReq (u "x") false] = Called [MReq (u "x") false] /\
  ~ In (u "POST") (s_safe demo) /\ settled [MReq (u "x") false].
Proof.
  split; [vm_compute; reflexivity|]. split; [apply smem_not_In; vm_compute; reflexivity|].
  intros [|? [|? ?]] b E; discriminate E.
Qed.

(** Otherwise the request is refused (PermissionDenied, 403): refuted.  A token with a character
    beyond ASCII raises a TypeError instead. *)
Definition C34_refused_statement : Prop := forall e c order method req msgs, good_env e -> ~ In method (s_safe c) -> settled msgs -> complete msgs ->
  (forall src, csrf e c order method req msgs <> Called src) -> csrf e c order method req msgs = Denied.
Theorem C34_refused_refuted : ~ C34_refused_statement.
Proof.
  intros H. specialize (H demo_env demo dedup (u "POST") [(u "cookie", u "csrftoken=" ++ tok); (u "x-csrftoken", rnd ++ [233%N])] [MReq [] false] demo_good).
  assert (X : csrf demo_env demo dedup (u "POST") [(u "cookie", u "csrftoken=" ++ tok); (u "x-csrftoken", rnd ++ [233%N])] [MReq [] false] = Fails) by (vm_compute; reflexivity).
  rewrite X in H. discriminate H.
  - apply smem_not_In. vm_compute. reflexivity.
  - intros [|? [|? ?]] b E; discriminate E.
  - discriminate.
  - intros src E. discriminate E.
Qed.
Print Assumptions C34_refused_refuted.

(** Proved when the texts submitted are ASCII and the body arrives: no authentic token that is both
    cookie and submitted, and the request is refused. *)
Theorem C34_refused_partial : forall e c order method req msgs, good_env e -> ~ In method (s_safe c) -> settled msgs -> complete msgs ->
  (forall t, dget (s_cookie c) (request_cookies order req) = Some t -> ascii_text t) -> (forall t, submits e c req msgs t -> ascii_text t) ->
  (forall t, dget (s_cookie c) (request_cookies order req) = Some t -> authentic e (s_secret c) t -> ~ submits e c req msgs t) ->
  csrf e c order method req msgs = Denied.
Proof.
  intros e c order method req msgs G M S CM AC AS N. destruct (csrf_denied e c order method req msgs G M S CM AC AS) as [H|(src & H)]; [exact H|].
  destruct (C34_only _ _ _ _ _ _ _ M S H) as (t & A & B & D). destruct (N t A B D).
Qed.
Print Assumptions C34_refused_partial.
Example C34_refused_used :
  csrf demo_env demo dedup (u "POST") [(u "cookie", u "csrftoken=" ++ tok); (u "x-csrftoken", u "b" ++ tl tok)] [MReq [] false] = Denied /\
  csrf demo_env demo dedup (u "POST") [(u "x-csrftoken", tok)] [MReq [] false] = Denied /\
  csrf demo_env demo dedup (u "DELETE") [(u "cookie", u "csrftoken=forged"); (u "x-csrftoken", u "forged")] [MReq [] false] = Denied.
Proof. repeat split; vm_compute; reflexivity. Qed.

(** A client that leaves before its form has arrived keeps the request waiting for ever. *)
Theorem C34_hangs : forall e c order method req n, ~ In method (s_safe c) -> hget (s_header c) req = None ->
  hget (u "content-type") req = Some (u "application/x-www-form-urlencoded") ->
  csrf e c order method req (repeat MDisc n) = Hangs.
Proof.
  intros e c order method req n M H CT. unfold csrf. rewrite (proj2 (smem_not_In _ _) M), H, CT. cbn [truthy].
  change (is_form (u "application/x-www-form-urlencoded")) with true. cbn iota.
  assert (R : forall max acc, read_body max acc (repeat MDisc n) = NeverReads) by (intros max; induction n as [|n IH]; intros acc; [reflexivity | exact (IH acc)]).
  rewrite R. reflexivity.
Qed.
Print Assumptions C34_hangs.

(** C66: the body.  When the application is called it reads the body that was sent. *)
Theorem C66_body : forall e c order method req msgs src, settled msgs ->
  csrf e c order method req msgs = Called src -> arrived src = arrived msgs.
Proof.
  intros e c order method req msgs src S H. destruct (in_dec (list_eq_dec N.eq_dec) method (s_safe c)) as [I|M].
  - unfold csrf in H. apply smem_In in I. rewrite I in H. congruence.
  - destruct (csrf_called _ _ _ _ _ _ _ M S H) as (t & _ & _ & _ & E). exact E.
Qed.
Print Assumptions C66_body.
Example C66_body_used : arrived [MReq (u "a") true; MReq (u "b") false] = Some (u "ab").
Proof. reflexivity. Qed.

(** A request with the cookie's token in the header is accepted. *)
Theorem C66_header : forall e c order method req msgs t, good_env e -> ~ In method (s_safe c) -> ascii_text t -> authentic e (s_secret c) t ->
  dget (s_cookie c) (request_cookies order req) = Some t -> hget (s_header c) req = Some t ->
  csrf e c order method req msgs = Called msgs.
Proof. intros e c order method req msgs t G M A AU C H. apply (csrf_header e c order method req msgs t); assumption. Qed.
Print Assumptions C66_header.
Example C66_header_used : good_env demo_env /\ ascii_text tok /\ authentic demo_env (s_secret demo) tok.
Proof. split; [exact demo_good|]. split; [exact tok_ascii | exact tok_authentic]. Qed.

(** So is an urlencoded form with the token as the first value of the field, in whatever chunks. *)
Theorem C66_urlencoded : forall e c order method req msgs t pre post, good_env e -> ~ In method (s_safe c) -> ascii_text t -> authentic e (s_secret c) t ->
  dget (s_cookie c) (request_cookies order req) = Some t -> hget (s_header c) req = None ->
  hget (u "content-type") req = Some (u "application/x-www-form-urlencoded") ->
  texts (pre ++ (s_field c, t) :: post) -> (forall p, In p pre -> fst p <> s_field c) ->
  let body := std_encode (pre ++ (s_field c, t) :: post) in
  arrived msgs = Some body -> length body <= s_max c ->
  exists src, csrf e c order method req msgs = Called src /\ arrived src = Some body.
Proof.
  intros e c order method req msgs t pre post G M A AU C H CT T N body AR L. exists [MReq body false]. split; [|reflexivity].
  apply (csrf_form e c order method req msgs t (u "application/x-www-form-urlencoded") body); try assumption; [reflexivity|].
  apply extract_url; assumption.
Qed.
Print Assumptions C66_urlencoded.
Example C66_urlencoded_used :
  csrf demo_env demo dedup (u "POST") [(u "cookie", u "csrftoken=" ++ tok); (u "content-type", u "application/x-www-form-urlencoded")]
    [MReq (u "a=b%20c&csrf_") true; MReq (u "token=" ++ tok) false] = Called [MReq (u "a=b%20c&csrf_token=" ++ tok) false].
Proof. vm_compute. reflexivity. Qed.

(** And a multipart form: refuted, a boundary with a capital letter is not found. *)
Definition C66_multipart_statement : Prop := forall e c order method req msgs t boundary pre post, good_env e -> ~ In method (s_safe c) -> hex_text t -> authentic e (s_secret c) t ->
  dget (s_cookie c) (request_cookies order req) = Some t -> hget (s_header c) req = None ->
  good_boundary boundary -> hget (u "content-type") req = Some (u "multipart/form-data; boundary=" ++ boundary) ->
  Forall (good_field boundary) (pre ++ [(s_field c, t)]) -> (forall p, In p pre -> fst p <> s_field c) ->
  let body := multipart_form boundary (pre ++ (s_field c, t) :: post) in
  arrived msgs = Some body -> length body <= s_max c ->
  exists src, csrf e c order method req msgs = Called src /\ arrived src = Some body.

Definition form_request (boundary : str) : headers :=
  [(u "cookie", u "csrftoken=" ++ tok); (u "content-type", u "multipart/form-data; boundary=" ++ boundary)].
Lemma tok_hex : hex_text tok.
Proof. intros c H. apply cmem_In. assert (F : forallb (fun c => cmem c (u "0123456789abcdef")) tok = true) by (vm_compute; reflexivity). rewrite forallb_forall in F. exact (F c H). Qed.
Lemma demo_field b : (forall x y, s_field demo <> x ++ (u "--" ++ b) ++ y) -> good_boundary b -> good_field b (s_field demo, tok).
Proof.
  intros NF G. split; [|split].
  - intros c H. assert (F : forallb (fun c => (c <? 128)%N && negb (N.eqb c 34) && negb (N.eqb c 13) && negb (N.eqb c 10)) (s_field demo) = true) by (vm_compute; reflexivity).
    rewrite forallb_forall in F. specialize (F c H). rewrite !andb_true_iff, !negb_true_iff, !N.eqb_neq, N.ltb_lt in F. tauto.
  - intros (x & y & E). exact (NF x y E).
  - intros (x & y & E). cbn [snd] in E. assert (I : In 45%N tok) by (rewrite E, !in_app_iff; right; left; left; left; reflexivity).
    apply tok_hex in I. revert I. apply cmem_not_In. vm_compute. reflexivity.
Qed.
Lemma demo_no_dash b x y : s_field demo <> x ++ (u "--" ++ b) ++ y.
Proof.
  intros E. assert (I : In 45%N (s_field demo)) by (rewrite E, !in_app_iff; right; left; left; left; reflexivity). revert I. apply cmem_not_In. vm_compute. reflexivity.
Qed.

Theorem C66_multipart_refuted : ~ C66_multipart_statement.
Proof.
  intros H. set (b := u "----WebKitFormBoundaryX"). assert (GB : good_boundary b) by (split; [discriminate | vm_compute; reflexivity]).
  destruct (H demo_env demo dedup (u "POST") (form_request b) [MReq (multipart_form b [(s_field demo, tok)]) false] tok b [] [] demo_good) as (src & E & _).
  - apply smem_not_In. vm_compute. reflexivity.
  - exact tok_hex.
  - exact tok_authentic.
  - vm_compute. reflexivity.
  - vm_compute. reflexivity.
  - exact GB.
  - vm_compute. reflexivity.
  - constructor; [apply demo_field; [intros x y; apply demo_no_dash | exact GB] | constructor].
  - intros p [].
  - reflexivity.
  - apply Nat.leb_le. vm_compute. reflexivity.
  - vm_compute in E. discriminate E.
Qed.
Print Assumptions C66_multipart_refuted.

(** Proved for boundaries without capital letters. *)
Theorem C66_multipart_partial : forall e c order method req msgs t boundary pre post, good_env e -> ~ In method (s_safe c) -> hex_text t -> authentic e (s_secret c) t ->
  dget (s_cookie c) (request_cookies order req) = Some t -> hget (s_header c) req = None ->
  good_boundary boundary -> lower boundary = boundary -> hget (u "content-type") req = Some (u "multipart/form-data; boundary=" ++ boundary) ->
  Forall (good_field boundary) (pre ++ [(s_field c, t)]) -> (forall p, In p pre -> fst p <> s_field c) ->
  let body := multipart_form boundary (pre ++ (s_field c, t) :: post) in
  arrived msgs = Some body -> length body <= s_max c ->
  exists src, csrf e c order method req msgs = Called src /\ arrived src = Some body.
Proof.
  intros e c order method req msgs t b pre post G M HX AU C H GB LB CT F N body AR L. exists [MReq body false]. split; [|reflexivity].
  apply (csrf_form e c order method req msgs t (u "multipart/form-data; boundary=" ++ b) body); try assumption.
  - intros x Hx. apply HX in Hx. cbn in Hx. repeat (destruct Hx as [<-|Hx]; [lia|]). destruct Hx.
  - unfold is_form. apply orb_true_iff. left. apply containsb_iff. exists [], (u "; boundary=" ++ b).
    unfold lower. rewrite map_app. change (map lower_c b) with (lower b). rewrite LB. reflexivity.
  - unfold body, multipart_form. change (pre ++ (s_field c, t) :: post) with (pre ++ [(s_field c, t)] ++ post). rewrite (app_assoc pre), (map_app _ (pre ++ _) post), concat_app, <- app_assoc.
    apply (extract_multi e b (s_field c) pre t post); try assumption. reflexivity.
Qed.
Print Assumptions C66_multipart_partial.
Example C66_multipart_used : let b := u "----formdata-undici-01" in
  good_boundary b /\ lower b = b /\ good_field b (s_field demo, tok) /\
  csrf demo_env demo dedup (u "POST") (form_request b) [MReq (multipart_form b [(u "title", u "x"); (s_field demo, tok)]) false]
    = Called [MReq (multipart_form b [(u "title", u "x"); (s_field demo, tok)]) false].
Proof.
  intros b. assert (GB : good_boundary b) by (split; [discriminate | vm_compute; reflexivity]).
  split; [exact GB|]. split; [vm_compute; reflexivity|]. split; [apply demo_field; [intros x y; apply demo_no_dash | exact GB] | vm_compute; reflexivity].
Qed.

(** C67: the response to a safe request hands a token to a client that has none, which the client
    then presents: refuted, not if the response sets another cookie. *)
Definition C67_statement : Prop := forall e c order req random h, good_env e -> set_order order ->
  usable_cookie (token_cookie c (generate e (s_secret c) random)) -> length random = 64 -> hex_text random ->
  dget (s_cookie c) (request_cookies order req) = None ->
  exists t, authentic e (s_secret c) t /\
    dget (s_cookie c) (request_cookies order (client_send (fold_left client_store (values (u "set-cookie") (wire order (send_wrapper e c order req random h))) []))) = Some t.
Lemma demo_usable : usable_cookie (token_cookie demo tok).
Proof.
  split; [|split; [intros t X; discriminate X|split]].
  - split; [discriminate|]. split; [vm_compute; reflexivity|]. apply smem_not_In. vm_compute. reflexivity.
  - intros t X. change (Some (u "/") = Some t) in X. injection X as <-. split; [reflexivity | apply cmem_not_In; reflexivity].
  - intros s X. change (Some (u "lax") = Some s) in X. injection X as <-. right. left. reflexivity.
Qed.
Lemma rnd_hex : hex_text rnd.
Proof. intros c H. apply repeat_spec in H. subst c. apply cmem_In. vm_compute. reflexivity. Qed.
Theorem C67_refuted : ~ C67_statement.
Proof.
  intros H. destruct (H demo_env demo dedup [] rnd [(u "set-cookie", u "lang=en")] demo_good dedup_order demo_usable) as (t & _ & E).
  - vm_compute. reflexivity.
  - exact rnd_hex.
  - reflexivity.
  - vm_compute in E. discriminate E.
Qed.
Print Assumptions C67_refuted.

(** It does if the response sets no cookie itself. *)
Lemma handed e c order req random h : good_env e -> set_order order ->
  usable_cookie (token_cookie c (generate e (s_secret c) random)) -> hex_text random ->
  dget (s_cookie c) (request_cookies order req) = None ->
  (forall k, In k (map fst h) -> lower k <> u "set-cookie") ->
  dget (s_cookie c) (request_cookies order (client_send (fold_left client_store (values (u "set-cookie") (wire order (send_wrapper e c order req random h))) [])))
    = Some (generate e (s_secret c) random).
Proof.
  intros G O US HX N NS. set (t := generate e (s_secret c) random) in *.
  unfold send_wrapper. rewrite N. fold t.
  assert (hcontains (u "set-cookie") h = false) as -> by (rewrite contains_values, values_nil by exact NS; reflexivity).
  set (h' := hadd _ _ _).
  destruct (round_trip order [Put (token_cookie c t)] h O) as (h2 & P & R).
  - constructor; [|constructor]. split; [exact US|]. split; [intros x X; discriminate X | intros z X; discriminate X].
  - intros ck [X|[]]. injection X as <-. cbn [token_cookie c_value]. unfold t, generate. rewrite in_app_iff. intros [X|X].
    + apply HX in X. revert X. apply cmem_not_In. vm_compute. reflexivity.
    + apply G in X. revert X. apply cmem_not_In. vm_compute. reflexivity.
  - exact NS.
  - assert (E : h2 = h').
    { cbn [fold_left perform] in P. unfold set_cookie in P. destruct (_ || _); [discriminate|]. destruct (c_samesite _) as [s|]; [destruct (smem _ _); [|discriminate]|]; unfold h'; congruence. }
    rewrite <- E, R. cbn [fold_left expect dset token_cookie c_key c_value dget]. destruct (seqb_spec (s_cookie c) (s_cookie c)); [reflexivity | contradiction].
Qed.
Theorem C67_partial : forall e c order req random h, good_env e -> set_order order ->
  usable_cookie (token_cookie c (generate e (s_secret c) random)) -> length random = 64 -> hex_text random ->
  dget (s_cookie c) (request_cookies order req) = None ->
  (forall k, In k (map fst h) -> lower k <> u "set-cookie") ->
  exists t, authentic e (s_secret c) t /\
    dget (s_cookie c) (request_cookies order (client_send (fold_left client_store (values (u "set-cookie") (wire order (send_wrapper e c order req random h))) []))) = Some t.
Proof.
  intros e c order req random h G O US L HX N NS. exists (generate e (s_secret c) random). split; [exists random; auto | apply handed; assumption].
Qed.
Print Assumptions C67_partial.
Example C67_used : usable_cookie (token_cookie demo (generate demo_env (s_secret demo) rnd)) /\ length rnd = 64 /\ hex_text rnd.
Proof. split; [exact demo_usable|]. split; [vm_compute; reflexivity | exact rnd_hex]. Qed.
