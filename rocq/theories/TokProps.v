(** C349, C350: the token a handler puts into a form. *)
From Coq Require Import List NArith Lia.
From Verif Require Import PyStr PyStrFacts Asgi HeaderModel HeaderSpec HeaderProofs HeaderProps CookieModel CookieSpec CookieProofs RequestModel CsrfModel CsrfSpec CsrfProofs CsrfProps TokModel.
Import ListNotations.

Lemma hex_ascii t : hex_text t -> ascii_text t.
Proof.
  intros H x I. apply H in I. assert (A : forallb (fun c => (c <? 128)%N) (u "0123456789abcdef") = true) by reflexivity.
  rewrite forallb_forall in A. apply A in I. now apply N.ltb_lt.
Qed.

(** C349: a client without a token gets a page whose handler asks for the token with its response, which may set other
    cookies before.  The token is signed, and a request that presents the cookies the client then has and the token is
    admitted, whatever the middleware would have added to the response. *)
Theorem C349_form : forall e c order req random calls h0 h1 wrapped, good_env e -> set_order order ->
  dget (s_cookie c) (request_cookies order req) = None \/ dget (s_cookie c) (request_cookies order req) = Some [] ->
  length random = 64 -> hex_text random -> usable_cookie (token_cookie c (generate e (s_secret c) random)) ->
  Forall usable_call calls -> (forall k, In (Put k) calls -> ~ In 37%N (c_value k)) ->
  (forall k, In k (map fst h0) -> lower k <> u "set-cookie") ->
  fold_left perform calls (Some h0) = Some h1 ->
  exists t h2, get_or_set e c order req random (Some h1) = (t, Some h2) /\ authentic e (s_secret c) t /\
    forall method msgs req', ~ In method (s_safe c) ->
      request_cookies order req' =
        request_cookies order (client_send (fold_left client_store (values (u "set-cookie") (wire order (send_wrapper e c order req wrapped h2))) [])) ->
      hget (s_header c) req' = Some t ->
      csrf e c order method req' msgs = Called msgs.
Proof.
  intros e c order req random calls h0 h1 wrapped G O N L HX US UC P NS F.
  set (t := generate e (s_secret c) random). set (h2 := hadd (u "set-cookie") (strip (u " " ++ output_string (token_cookie c t))) h1).
  assert (GS : get_or_set e c order req random (Some h1) = (t, Some h2)).
  { unfold get_or_set. destruct N as [-> | ->]; reflexivity. }
  assert (SW : send_wrapper e c order req wrapped h2 = h2).
  { unfold send_wrapper. destruct (dget _ _); [reflexivity|].
    assert (C : hcontains (u "set-cookie") h2 = true).
    { unfold h2, hadd, hcontains. rewrite existsb_app. apply Bool.orb_true_iff. right. reflexivity. }
    now rewrite C. }
  assert (AU : authentic e (s_secret c) t) by (exists random; auto).
  assert (TA : hex_text t).
  { intros x I. unfold t, generate in I. apply in_app_or in I. destruct I as [I|I]; [now apply HX | now apply G in I]. }
  exists t, h2. refine (conj GS (conj AU _)). intros method msgs req' M C H. rewrite SW in C.
  destruct (round_trip order (calls ++ [Put (token_cookie c t)]) h0 O) as (h & Q & R).
  - apply Forall_app. split; [exact UC|]. constructor; [|constructor].
    split; [exact US|]. split; [intros x X; discriminate X | intros z X; discriminate X].
  - intros ck I. apply in_app_or in I. destruct I as [I | [X | []]]; [now apply P|]. injection X as <-. cbn [token_cookie c_value].
    intro X. apply TA in X. revert X. apply cmem_not_In. vm_compute. reflexivity.
  - exact NS.
  - rewrite fold_left_app, F in Q.
    assert (E : h = h2).
    { cbn [fold_left perform] in Q. unfold set_cookie in Q. destruct (_ || _); [discriminate|].
      destruct (c_samesite _) as [s|]; [destruct (smem _ _); [|discriminate]|]; unfold h2; congruence. }
    subst h. rewrite R, fold_left_app in C. cbn [fold_left expect token_cookie c_key c_value] in C.
    apply (C66_header e c order method req' msgs t G M (hex_ascii t TA) AU); [|exact H].
    rewrite C. apply dget_dset_same.
Qed.
Print Assumptions C349_form.

Example C349_case :
  let h1 := [(u "x-a", u "1")] in
  exists t h2, get_or_set demo_env demo dedup [] rnd (Some h1) = (t, Some h2) /\
    csrf demo_env demo dedup (u "POST")
      (client_send (fold_left client_store (values (u "set-cookie") (wire dedup (send_wrapper demo_env demo dedup [] rnd h2))) []) ++ [(s_header demo, t)])
      [MReq (u "x") false] = Called [MReq (u "x") false] /\
    length rnd = 64 /\ hex_text rnd /\ usable_cookie (token_cookie demo (generate demo_env (s_secret demo) rnd)).
Proof.
  cbv zeta. eexists _, _. split; [reflexivity|]. split; [vm_compute; reflexivity|]. split; [vm_compute; reflexivity|].
  split; [exact rnd_hex | exact demo_usable].
Qed.

(** C350: a client that has a token already can submit the form it gets. *)
Definition C350_statement : Prop := forall e c order req random h t0 method msgs req', good_env e -> set_order order ->
  dget (s_cookie c) (request_cookies order req) = Some t0 -> t0 <> [] -> ascii_text t0 -> ~ In method (s_safe c) ->
  request_cookies order req' = request_cookies order req ->
  hget (s_header c) req' = Some (fst (get_or_set e c order req random (Some h))) ->
  csrf e c order method req' msgs = Called msgs.

Theorem C350_refuted : ~ C350_statement.
Proof.
  intro H. specialize (H demo_env demo dedup [(u "cookie", u "csrftoken=old")] rnd [] (u "old") (u "POST") [MReq [] false]
    [(u "cookie", u "csrftoken=old"); (s_header demo, u "old")]).
  assert (X : csrf demo_env demo dedup (u "POST") [(u "cookie", u "csrftoken=old"); (s_header demo, u "old")] [MReq [] false] = Denied)
    by (vm_compute; reflexivity).
  rewrite X in H. discriminate H.
  - exact demo_good.
  - exact dedup_order.
  - vm_compute. reflexivity.
  - discriminate.
  - intros x I. cbn in I. destruct I as [<- | [<- | [<- | []]]]; reflexivity.
  - apply smem_not_In. vm_compute. reflexivity.
  - vm_compute. reflexivity.
  - vm_compute. reflexivity.
Qed.
Print Assumptions C350_refuted.

(** If it is signed, it can. *)
Theorem C350_partial : forall e c order req random h t0 method msgs req', good_env e -> set_order order ->
  dget (s_cookie c) (request_cookies order req) = Some t0 -> authentic e (s_secret c) t0 -> ascii_text t0 -> ~ In method (s_safe c) ->
  request_cookies order req' = request_cookies order req ->
  hget (s_header c) req' = Some (fst (get_or_set e c order req random (Some h))) ->
  csrf e c order method req' msgs = Called msgs.
Proof.
  intros e c order req random h t0 method msgs req' G O C AU A M R H.
  assert (E : fst (get_or_set e c order req random (Some h)) = t0).
  { unfold get_or_set. rewrite C. destruct AU as [r [L ->]]. destruct r; [discriminate L|]. reflexivity. }
  rewrite E in H. apply (C66_header e c order method req' msgs t0 G M A AU); [now rewrite R | exact H].
Qed.
Print Assumptions C350_partial.

(** If it is not, the client is stuck: neither the handler nor the middleware gives it another one, and no request with
    that cookie is admitted. *)
Theorem C350_stuck : forall e c order req random wrapped h t0,
  dget (s_cookie c) (request_cookies order req) = Some t0 -> t0 <> [] -> ~ authentic e (s_secret c) t0 ->
  get_or_set e c order req random (Some h) = (t0, Some h) /\ send_wrapper e c order req wrapped h = h /\
  forall method msgs req' src, ~ In method (s_safe c) -> settled msgs ->
    request_cookies order req' = request_cookies order req -> csrf e c order method req' msgs <> Called src.
Proof.
  intros e c order req random wrapped h t0 C NE NA. refine (conj _ (conj _ _)).
  - unfold get_or_set. rewrite C. destruct t0; [contradiction | reflexivity].
  - unfold send_wrapper. now rewrite C.
  - intros method msgs req' src M S R H. destruct (C34_only _ _ _ _ _ _ _ M S H) as (t & E & AU & _). rewrite R, C in E. congruence.
Qed.
Print Assumptions C350_stuck.

Example C350_case :
  dget (s_cookie demo) (request_cookies dedup [(u "cookie", u "csrftoken=" ++ tok)]) = Some tok /\ authentic demo_env (s_secret demo) tok /\
  dget (s_cookie demo) (request_cookies dedup [(u "cookie", u "csrftoken=old")]) = Some (u "old") /\ ~ authentic demo_env (s_secret demo) (u "old").
Proof.
  split; [vm_compute; reflexivity|]. split; [exact tok_authentic|]. split; [vm_compute; reflexivity|].
  intros [r [L E]]. assert (X : length (u "old") = length (r ++ mac demo_env (s_secret demo) r)) by (now rewrite <- E).
  rewrite app_length, L in X. cbn [length u] in X. vm_compute in X. lia.
Qed.
