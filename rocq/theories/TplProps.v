(** The properties C120, C121 and C122. *)
From Verif Require SessionProofs.
From Verif Require Import PyStr PyStrFacts Utf8 Asgi HeaderModel HeaderSpec HeaderProofs HeaderProps CookieModel CookieSpec CookieProofs RequestModel FormSpec CsrfModel CsrfSpec CsrfProofs CsrfProps PathIncProofs TplModel TplSpec.

(** ** C120.  A hook that returns nothing hands over to the next class; each class's version runs once. *)
Definition C120_statement : Prop :=
  forall mro (own : nat -> option (hook nat)) self x, linear mro self -> (forall c h, own c = Some h -> h_wrapped h = true) ->
  snd (expected own (mro self)) = Some x ->
  exists n, call_hook mro own n self self = Result (fst (expected own (mro self))) (Some x).
(** A subclass that adds nothing to a class whose hook returns nothing: that hook runs for ever. *)
Definition chain (n : nat) : list nat := rev (seq 0 (S n)).
Definition audited (c : nat) : option (hook nat) :=
  match c with 0 => Some {| h_wrapped := true; h_result := Some 7 |} | 1 => Some {| h_wrapped := true; h_result := None |} | _ => None end.
Lemma chain_linear n : linear chain n.
Proof.
  split; [exists (rev (seq 0 n)); unfold chain; rewrite seq_S, rev_app_distr; reflexivity|].
  intros a c r. unfold chain. revert a c r. induction n as [|n IH]; intros a c r E.
  - destruct a as [|x [|y a]]; try discriminate E. cbn in E. injection E as <- <-. reflexivity.
  - rewrite seq_S, rev_app_distr in E. cbn [rev app plus] in E. destruct a as [|x a]; cbn [app] in E; [|injection E as _ E; apply (IH a), E].
    injection E as <- <-. rewrite (seq_S (S (S n))) || rewrite (seq_S (S n)). rewrite rev_app_distr. reflexivity.
Qed.
Theorem C120_refuted : ~ C120_statement.
Proof.
  intros S. destruct (S chain audited 2 7) as (n & E).
  - apply chain_linear. - intros [|[|c]] h X; try discriminate X; injection X as <-; reflexivity. - reflexivity.
  - assert (X : forall m c, c = 1 \/ c = 2 -> exists l, call_hook chain audited m 2 c = RecursionError l).
    { clear. induction m as [|m IH]; intros c C; [exists []; reflexivity|]. destruct (IH 1 (or_introl eq_refl)) as (l & L). exists (1 :: l).
      destruct C as [-> | ->]; cbn [call_hook]; (change (parent chain audited 2) with (Some 1)); cbn; rewrite L; reflexivity. }
    destruct (X n 2 (or_intror eq_refl)) as (l & L). congruence.
Qed.
Print Assumptions C120_refuted.

Section Hooks.
Context {R : Type} (mro : nat -> list nat) (own : nat -> option (hook R)) (self : nat).
Lemma provider_own c h r : mro c = c :: r -> own c = Some h -> provider mro own c = Some (c, h).
Proof. intros M O. unfold provider. rewrite M. cbn [List.find]. rewrite O, O. reflexivity. Qed.
Lemma provider_defines c d h : provider mro own c = Some (d, h) -> own d = Some h /\ In d (mro c).
Proof.
  unfold provider. destruct (List.find _ (mro c)) as [x|] eqn:F; [|discriminate]. apply List.find_some in F. destruct (own x) as [k|] eqn:O; [|discriminate]. intros [= <- <-]. split; [exact O | apply F].
Qed.
Lemma expected_skip l : List.find (fun d => match own d with Some _ => true | None => false end) l = None -> expected own l = ([], None).
Proof. induction l as [|c l IH]; cbn [List.find expected]; [reflexivity|]. destruct (own c); [discriminate | exact IH]. Qed.
Lemma expected_find l d : List.find (fun d => match own d with Some _ => true | None => false end) l = Some d ->
  exists a r h, l = a ++ d :: r /\ own d = Some h /\ (forall c, In c a -> own c = None) /\
    expected own l = match h_result h with Some x => ([d], Some x) | None => (d :: fst (expected own r), snd (expected own r)) end.
Proof.
  induction l as [|c l IH]; cbn [List.find expected]; [discriminate|]. destruct (own c) as [h|] eqn:O.
  - intros [= <-]. exists [], l, h. repeat split; auto. intros x [].
  - intros F. destruct (IH F) as (a & r & h & -> & Od & N & E). exists (c :: a), r, h. repeat split; auto. intros x [<-|I]; auto.
Qed.
End Hooks.
(** Proved when the class itself defines the hook, or the first version there is gives a result, and the second one
    does. *)
Theorem C120_partial : forall R mro (own : nat -> option (hook R)) self x, linear mro self -> (forall c h, own c = Some h -> h_wrapped h = true) ->
  snd (expected own (mro self)) = Some x ->
  length (fst (expected own (mro self))) = 1 \/ (length (fst (expected own (mro self))) = 2 /\ own self <> None) ->
  exists n, forall m, n <= m -> call_hook mro own m self self = Result (fst (expected own (mro self))) (Some x).
Proof.
  intros R mro own self x [(rest & M) L] W E C.
  destruct (List.find (fun d => match own d with Some _ => true | None => false end) (mro self)) as [d|] eqn:F; [|rewrite (expected_skip own _ F) in E; discriminate E].
  destruct (expected_find own _ d F) as (a & r & h & EM & O & N & EX). rewrite EX in *.
  assert (P : provider mro own self = Some (d, h)) by (unfold provider; rewrite F, O; reflexivity).
  destruct (h_result h) as [y|] eqn:RS.
  - cbn [fst snd] in *. assert (y = x) by congruence. subst y. exists 1. intros [|m] LE; [lia|]. cbn [call_hook]. rewrite P, (W d h O), RS. reflexivity.
  - cbn [fst snd length] in *. destruct C as [C|[C OS]].
    { destruct (fst (expected own r)) as [|z l] eqn:FR; [|discriminate C]. exfalso. revert E FR. destruct (List.find (fun d => match own d with Some _ => true | None => false end) r) as [d'|] eqn:F'.
      - destruct (expected_find own _ d' F') as (a' & r' & h' & _ & _ & _ & EX'). rewrite EX'. destruct (h_result h'); discriminate.
      - rewrite (expected_skip own _ F'). discriminate. }
    assert (D : d = self).
    { rewrite M in F. cbn [List.find] in F. destruct (own self) as [hs|] eqn:OSE; [|congruence]. congruence. }
    subst d. assert (A : a = []).
    { destruct a as [|z a]; [reflexivity|]. exfalso. rewrite M in EM. injection EM as <- _. rewrite (N self (or_introl eq_refl)) in O. discriminate. }
    subst a. cbn [app] in EM.
    destruct (List.find (fun d => match own d with Some _ => true | None => false end) r) as [d'|] eqn:F'; [|rewrite (expected_skip own _ F') in E; discriminate E].
    destruct (expected_find own _ d' F') as (a' & r' & h' & ER & O' & N' & EX'). rewrite EX' in *. destruct (h_result h') as [y|] eqn:RS'.
    + cbn [fst snd length] in *. assert (y = x) by congruence. subst y.
      (* the parent the wrapper finds: the first class after [self], which gets the hook from [d'] *)
      assert (PA : exists b, parent mro own self = Some b /\ provider mro own b = Some (d', h')).
      { unfold parent. rewrite EM. cbn [tl]. destruct r as [|b r0]; [discriminate F'|].
        assert (Mb : mro b = b :: r0) by (apply (L [self]); exact EM).
        assert (Pb : provider mro own b = Some (d', h')) by (unfold provider; rewrite Mb, F', O'; reflexivity).
        exists b. split; [|exact Pb]. cbn [List.find]. rewrite Pb. reflexivity. }
      destruct PA as (b & PA & PB). exists 2. intros [|[|m]] LE; [lia|lia|]. cbn [call_hook]. rewrite P, (W self h O), RS, PA, PB, (W d' h' O'), RS'. reflexivity.
    + cbn [fst snd length] in *. destruct (fst (expected own r')) as [|z l] eqn:FR; [|discriminate C]. exfalso. revert E FR. destruct (List.find (fun d => match own d with Some _ => true | None => false end) r') as [d2|] eqn:F2.
      * destruct (expected_find own _ d2 F2) as (a2 & r2 & h2 & _ & _ & _ & EX2). rewrite EX2. destruct (h_result h2); discriminate.
      * rewrite (expected_skip own _ F2). discriminate.
Qed.
Print Assumptions C120_partial.
Definition polite (c : nat) : option (hook nat) :=
  match c with 0 => Some {| h_wrapped := true; h_result := Some 7 |} | 3 => Some {| h_wrapped := true; h_result := None |} | _ => None end.
Example C120_case : expected polite (chain 3) = ([3; 0], Some 7) /\ linear chain 3 /\ call_hook chain polite 9 3 3 = Result [3; 0] (Some 7).
Proof. split; [reflexivity|]. split; [apply chain_linear | reflexivity]. Qed.

(** Otherwise it never ends, in any class hierarchy: the version found above the class runs again and again. *)
Theorem C120_for_ever : forall R mro (own : nat -> option (hook R)) self d0 h0 b d1 h1,
  provider mro own self = Some (d0, h0) -> h_wrapped h0 = true -> h_result h0 = None ->
  parent mro own self = Some b -> provider mro own b = Some (d1, h1) -> h_wrapped h1 = true -> h_result h1 = None ->
  forall n, call_hook mro own (S n) self self = RecursionError (d0 :: repeat d1 n).
Proof.
  intros R mro own self d0 h0 b d1 h1 P W N PA PB W1 N1 n. cbn [call_hook]. rewrite P, W, N, PA.
  assert (X : call_hook mro own n self b = RecursionError (repeat d1 n)).
  { induction n as [|n IH]; [reflexivity|]. cbn [call_hook repeat]. rewrite PB, W1, N1, PA, IH. reflexivity. }
  rewrite X. reflexivity.
Qed.
Print Assumptions C120_for_ever.
Example C120_for_ever_case : provider chain audited 2 = Some (1, {| h_wrapped := true; h_result := None |}) /\ parent chain audited 2 = Some 1 /\
  call_hook chain audited 5 2 2 = RecursionError [1; 1; 1; 1; 1].
Proof. vm_compute. auto. Qed.

(** ** C121.  The token on the page of a form, submitted with the cookies the browser then has, is accepted. *)
Definition C121_statement : Prop := forall e c order jar random random' h t, good_env e -> set_order order ->
  In (u "GET") (s_safe c) -> ~ In (u "POST") (s_safe c) -> ~ In (lower (s_header c)) [u "cookie"; u "content-type"] ->
  usable_cookie (token_cookie c (generate e (s_secret c) random')) -> length random = 64 -> length random' = 64 -> hex_text random -> hex_text random' ->
  (forall k, In k (map fst h) -> lower k <> u "set-cookie") -> ascii_text (s_field c) -> length (std_encode [(s_field c, t)]) <= s_max c ->
  page_token e (s_secret c) (s_cookie c) order true (u "GET") (client_send jar) random = Some t ->
  accepted (submit e c order (visit e c order jar (u "GET") random' h) t).
Definition rnd' : str := repeat 98%N 64.
Lemma rnd'_hex : hex_text rnd'.
Proof. intros c H. apply repeat_spec in H. subst c. apply cmem_In. vm_compute. reflexivity. Qed.
Lemma demo_field_ascii : ascii_text (s_field demo).
Proof. exact (proj1 (ascii_iff (s_field demo)) eq_refl). Qed.
(** Refuted: on the first visit the page and the cookie have two different tokens. *)
Theorem C121_refuted : ~ C121_statement.
Proof.
  intros S. destruct (S demo_env demo dedup [] rnd' rnd [] (generate demo_env (s_secret demo) rnd') demo_good dedup_order) as (msgs & E).
  - left. reflexivity.
  - apply smem_not_In. reflexivity.
  - apply smem_not_In. reflexivity.
  - exact demo_usable.
  - reflexivity.
  - reflexivity.
  - exact rnd'_hex.
  - exact rnd_hex.
  - intros k [].
  - exact demo_field_ascii.
  - apply Nat.leb_le. vm_compute. reflexivity.
  - reflexivity.
  - vm_compute in E. discriminate E.
Qed.
Print Assumptions C121_refuted.

Lemma no_cookie order h n : set_order order -> (forall k, In k (map fst h) -> lower k <> n) -> values n (wire order h) = [].
Proof. intros O H. rewrite wire_values, values_nil; auto. intros k k' I _ E. destruct (H k I E). Qed.
Lemma sent_cookies order ct jar : set_order order -> request_cookies order ((u "content-type", ct) :: client_send jar) = request_cookies order (client_send jar).
Proof.
  intros O. unfold request_cookies. f_equal. destruct jar as [|p jar].
  - cbn [client_send]. assert (X : forall h, ~ In (u "cookie") (map fst h) -> getlist order (u "cookie") h = []).
    { intros h N. unfold getlist. assert (F : filter (fun e => seqb (fst e) (u "cookie")) (multi_items order h) = []); [|rewrite F; reflexivity].
      unfold multi_items. assert (NI : ~ In (u "cookie") (order (map fst h))) by (intros I; apply N, O, I). revert NI. generalize (order (map fst h)). intros ks NI.
      induction ks as [|k ks IH]; [reflexivity|]. cbn [flat_map]. rewrite filter_app, IH by (intros I; apply NI; right; exact I). rewrite app_nil_r.
      assert (K : seqb k (u "cookie") = false) by (apply seqb_neq; intros ->; apply NI; left; reflexivity).
      induction (hgetall k h) as [|v vs IV]; [reflexivity|]. cbn [map filter fst]. rewrite K. exact IV. }
    rewrite !X; [reflexivity| |]; cbn; intuition discriminate.
  - cbn [client_send]. rewrite (getlist_values order [_] (u "cookie") O); [rewrite (getlist_values order [_; _] (u "cookie") O); [reflexivity| |]| |]; cbn [map fst In]; auto.
    + intros k [<-|[<-|[]]] E; [discriminate E | reflexivity].
    + intros k [<-|[]] _. reflexivity.
Qed.
Lemma sent_header n ct jar : ~ In (lower n) [u "cookie"; u "content-type"] -> hget n ((u "content-type", ct) :: client_send jar) = None.
Proof.
  intros H. unfold hget. rewrite getall_values, values_nil; [reflexivity|]. intros k I E. apply H. rewrite <- E. cbn [map fst In] in I. destruct I as [<-|I]; [right; left; reflexivity|].
  destruct jar; cbn in I; [destruct I|]. destruct I as [<-|[]]. left. reflexivity.
Qed.
Lemma sent_type ct jar : hget (u "content-type") ((u "content-type", ct) :: client_send jar) = Some ct.
Proof. reflexivity. Qed.
Lemma one_text n t : ascii_text n -> ascii_text t -> texts [(n, t)].
Proof.
  intros A B p [<-|[]]. split; intros c I; [specialize (A c I) | specialize (B c I)]; unfold scalar in *; lia.
Qed.
Lemma hex_ascii s : hex_text s -> ascii_text s.
Proof.
  intros H c I. apply H in I. assert (F : forallb (fun c => (c <? 128)%N) (u "0123456789abcdef") = true) by reflexivity.
  rewrite forallb_forall in F. apply N.ltb_lt, F, I.
Qed.
Lemma generated_ascii e s r : good_env e -> hex_text r -> ascii_text (generate e s r).
Proof. intros G H. apply hex_ascii. intros c I. unfold generate in I. apply in_app_or in I. destruct I as [I|I]; [apply H, I | apply G in I; exact I]. Qed.
(** What happens to a submission. *)
Lemma submitted e c order jar t : good_env e -> set_order order -> ~ In (u "POST") (s_safe c) -> ~ In (lower (s_header c)) [u "cookie"; u "content-type"] ->
  ascii_text (s_field c) -> ascii_text t -> length (std_encode [(s_field c, t)]) <= s_max c -> accepted (submit e c order jar t) ->
  dget (s_cookie c) (request_cookies order (client_send jar)) = Some t.
Proof.
  intros G O M H F A L (msgs & E). unfold submit, csrf in E. rewrite (proj2 (smem_not_In _ _) M), sent_header, sent_type, sent_cookies in E by assumption. cbn [truthy] in E.
  change (is_form (u "application/x-www-form-urlencoded")) with true in E. cbn iota in E.
  rewrite (read_small (s_max c) [MReq (std_encode [(s_field c, t)]) false] (std_encode [(s_field c, t)]) eq_refl L) in E.
  assert (X := extract_url e (s_field c) [] t [] G (one_text _ _ F A) ltac:(intros p [])). cbn [app] in X. rewrite X in E. clear X.
  destruct (tokens_match e (s_secret c) (Some t) _) as [[|]|] eqn:TM; try discriminate E.
  apply match_true in TM. destruct TM as (x & X & Y & _). congruence.
Qed.
Lemma visit_keeps e c order jar method random h t : set_order order -> dget (s_cookie c) (request_cookies order (client_send jar)) = Some t ->
  (forall k, In k (map fst h) -> lower k <> u "set-cookie") -> visit e c order jar method random h = jar.
Proof.
  intros O C NS. unfold visit, send_wrapper. rewrite C. destruct (smem method (s_safe c)); rewrite no_cookie by assumption; reflexivity.
Qed.
(** Proved for a browser that had an authentic token before it got the page. *)
Theorem C121_partial : forall e c order jar random random' h t old, good_env e -> set_order order ->
  In (u "GET") (s_safe c) -> ~ In (u "POST") (s_safe c) -> ~ In (lower (s_header c)) [u "cookie"; u "content-type"] ->
  (forall k, In k (map fst h) -> lower k <> u "set-cookie") -> ascii_text (s_field c) -> length (std_encode [(s_field c, t)]) <= s_max c ->
  dget (s_cookie c) (request_cookies order (client_send jar)) = Some old -> ascii_text old -> authentic e (s_secret c) old ->
  page_token e (s_secret c) (s_cookie c) order true (u "GET") (client_send jar) random = Some t ->
  t = old /\ accepted (submit e c order (visit e c order jar (u "GET") random' h) t).
Proof.
  intros e c order jar random random' h t old G O S M H NS F L C A AU P. unfold page_token in P. rewrite C in P.
  assert (t = old) as ->.
  { destruct AU as (r & LR & ->). destruct r as [|x r]; [discriminate LR|]. change (Some ((x :: r) ++ mac e (s_secret c) (x :: r)) = Some t) in P. injection P as <-. reflexivity. }
  split; [reflexivity|]. rewrite (visit_keeps _ _ _ _ _ _ _ old) by assumption.
  destruct (C66_urlencoded e c order (u "POST") ((u "content-type", u "application/x-www-form-urlencoded") :: client_send jar) [MReq (std_encode [(s_field c, old)]) false] old [] [] G M A AU) as (src & E & _).
  - rewrite sent_cookies; assumption.
  - apply sent_header. exact H.
  - apply sent_type.
  - apply one_text; assumption.
  - intros p [].
  - reflexivity.
  - exact L.
  - exists src. exact E.
Qed.
Print Assumptions C121_partial.
Example C121_case : dget (s_cookie demo) (request_cookies dedup (client_send [(u "csrftoken", tok)])) = Some tok /\
  page_token demo_env (s_secret demo) (s_cookie demo) dedup true (u "GET") (client_send [(u "csrftoken", tok)]) rnd' = Some tok.
Proof. split; vm_compute; reflexivity. Qed.

(** The first visit never succeeds, unless the two random tokens happen to be equal. *)
Theorem C121_first : forall e c order random random' h t, good_env e -> set_order order ->
  In (u "GET") (s_safe c) -> ~ In (u "POST") (s_safe c) -> ~ In (lower (s_header c)) [u "cookie"; u "content-type"] ->
  usable_cookie (token_cookie c (generate e (s_secret c) random')) -> length random = 64 -> length random' = 64 -> hex_text random -> hex_text random' ->
  (forall k, In k (map fst h) -> lower k <> u "set-cookie") -> ascii_text (s_field c) -> length (std_encode [(s_field c, t)]) <= s_max c ->
  page_token e (s_secret c) (s_cookie c) order true (u "GET") (client_send []) random = Some t ->
  random <> random' -> ~ accepted (submit e c order (visit e c order [] (u "GET") random' h) t).
Proof.
  intros e c order random random' h t G O S M H US L1 L2 H1 H2 NS F L P D A.
  assert (NC : dget (s_cookie c) (request_cookies order (client_send [])) = None).
  { cbn [client_send]. unfold request_cookies, getlist, multi_items. cbn [map]. destruct (order []) as [|k ks] eqn:EO; [reflexivity|]. exfalso. apply (proj1 (proj2 (O []) k)). rewrite EO. left. reflexivity. }
  assert (t = generate e (s_secret c) random) as -> by (unfold page_token in P; rewrite NC in P; change (Some (generate e (s_secret c) random) = Some t) in P; congruence).
  apply submitted in A; try assumption; [|apply generated_ascii; assumption].
  unfold visit in A. rewrite (proj2 (smem_In _ _) S), handed in A by assumption. apply D.
  assert (E : generate e (s_secret c) random = generate e (s_secret c) random') by congruence. unfold generate in E.
  assert (X : forall a b : str, length a = 64 -> firstn 64 (a ++ b) = a).
  { intros a b La. rewrite <- La, firstn_app, firstn_all, Nat.sub_diag, firstn_O, app_nil_r. reflexivity. }
  rewrite <- (X random (mac e (s_secret c) random) L1), E, X by exact L2. reflexivity.
Qed.
Print Assumptions C121_first.
(** And a browser with a token that is not authentic, say from before the secret was changed, never gets a better
    one: whatever it submits is refused, and so it will be after the next visit. *)
Theorem C121_stuck : forall e c order jar old method random random' h, set_order order ->
  ~ In (u "POST") (s_safe c) -> dget (s_cookie c) (request_cookies order (client_send jar)) = Some old -> ~ authentic e (s_secret c) old ->
  (forall k, In k (map fst h) -> lower k <> u "set-cookie") ->
  visit e c order jar method random' h = jar /\ (forall t, ~ accepted (submit e c order (visit e c order jar method random' h) t)) /\
  (old <> [] -> page_token e (s_secret c) (s_cookie c) order true (u "GET") (client_send jar) random = Some old).
Proof.
  intros e c order jar old method random random' h O M C NA NS. rewrite (visit_keeps _ _ _ _ _ _ _ old) by assumption. split; [reflexivity|]. split.
  - intros t (msgs & E). assert (ST : settled [MReq (std_encode [(s_field c, t)]) false]) by (intros [|? [|? ?]] b Y; discriminate Y).
    destruct (C34_only e c order (u "POST") _ _ msgs M ST E) as (x & X & AU & _). rewrite sent_cookies in X by exact O. congruence.
  - intros N. unfold page_token. rewrite C. destruct old; [congruence | reflexivity].
Qed.
Print Assumptions C121_stuck.
(** The page of a form that was not valid answers a POST: it has no token. *)
Theorem C121_again : forall e secret name order req random, page_token e secret name order true (u "POST") req random = None.
Proof. reflexivity. Qed.
Print Assumptions C121_again.
Example C121_stuck_case : ~ authentic demo_env (s_secret demo) (u "old") /\ dget (s_cookie demo) (request_cookies dedup (client_send [(u "csrftoken", u "old")])) = Some (u "old").
Proof.
  split; [|vm_compute; reflexivity]. intros (r & L & E). assert (X := f_equal (@length N) E). rewrite app_length, L in X. change (length (u "old")) with 3 in X. lia.
Qed.

(** ** C122.  What a template sees *)
Lemma dget_ddel' {V} n k (d : dict V) : dget n (ddel k d) = if seqb n k then None else dget n d.
Proof. destruct (seqb_spec n k) as [->|N]; [apply dget_ddel_same | apply dget_ddel_other; exact N]. Qed.
Lemma dget_dset' {V} n k (v : V) (d : dict V) : dget n (dset k v d) = if seqb n k then Some v else dget n d.
Proof. destruct (seqb_spec n k) as [->|N]; [apply dget_dset_same | apply dget_dset_other; exact N]. Qed.
Lemma proper_ddel {V} k (d : dict V) : proper d -> proper (ddel k d).
Proof. apply SessionProofs.NoDup_ddel. Qed.

Lemma proper_dset {V} k (v : V) d : proper d -> proper (dset k v d).
Proof.
  unfold proper. induction d as [|(a, w) d IH]; cbn [dset map fst]; [repeat constructor; intros []|]. intros N. inversion N; subst.
  destruct (seqb_spec k a) as [->|D]; cbn [map fst]; constructor; auto.
  intros I. apply H1. clear -I D. induction d as [|(b, z) d IH]; cbn [dset map fst In] in *; [destruct I as [->|[]]; congruence|].
  destruct (seqb_spec k b) as [->|]; cbn [map fst In] in *; tauto.
Qed.
Lemma proper_dupdate {V} (e d : dict V) : proper d -> proper (dupdate d e).
Proof. unfold dupdate. revert d. induction e as [|(k, v) e IH]; intros d P; [exact P|]. cbn [fold_left fst snd]. apply IH, proper_dset, P. Qed.
Lemma proper_process {V} available (ps : list (processor V)) : forall context out, proper context -> process available ps context = Some out -> proper out.
Proof.
  induction ps as [|p ps IH]; intros context out P; cbn [process]; [intros [= <-]; exact P|].
  destruct (arguments _ _) as [a|]; [|discriminate]. destruct (p_run p a) as [d|]; [|discriminate]. apply IH, proper_dupdate, P.
Qed.

Section Contexts.
Context {V : Type}.
Implicit Types (c : controller V) (ctx : dict V).
(** The dicts that the controller's processors return when given their arguments. *)
Definition outputs (available : dict V) (ps : list (processor V)) (outs : list (dict V)) : Prop :=
  Forall2 (fun p d => p_run p (given (map fst (p_params p)) available) = Some d) ps outs.
Lemma arguments_given (available : dict V) ps : forall a, arguments ps available = Some a -> a = given (map fst ps) available.
Proof.
  induction ps as [|(n, o) ps IH]; cbn [arguments map given flat_map fst]; [congruence|]. intros a. fold (given (map fst ps) available).
  destruct (dget n available) as [v|], (arguments ps available) as [a'|]; try discriminate.
  - intros [= <-]. rewrite <- (IH a' eq_refl). reflexivity.
  - destruct o; [|discriminate]. intros [= <-]. apply IH. reflexivity.
Qed.
Lemma process_seen available ps : forall context out, process available ps context = Some out ->
  exists outs, outputs available ps outs /\ (Forall proper outs -> forall n, dget n out = match latest n outs with Some v => Some v | None => dget n context end).
Proof.
  induction ps as [|p ps IH]; intros context out; cbn [process].
  - intros [= <-]. exists []. split; [constructor | reflexivity].
  - destruct (arguments (p_params p) available) as [a|] eqn:EA; [|discriminate]. destruct (p_run p a) as [d|] eqn:ER; [|discriminate]. intros E.
    destruct (IH _ _ E) as (outs & O & S). exists (d :: outs). split; [constructor; [rewrite <- (arguments_given _ _ _ EA); exact ER | exact O]|].
    intros P n. inversion P; subst. rewrite (S H2). cbn [latest]. destruct (latest n outs); [reflexivity|]. apply dget_dupdate. assumption.
Qed.
Lemma data_seen c request kwargs out : get_context_data c request kwargs = Some out -> proper kwargs ->
  exists outs base, outputs (dupdate [(u "request", request); (u "controller", c_self c)] kwargs) (c_processors c) outs /\ out = c_more c base /\
    (Forall proper outs -> forall n, dget n base =
      match latest n outs with Some v => Some v | None =>
      match dget n kwargs with Some v => Some v | None =>
      match (if seqb n (c_csrf_name c) then c_csrf c else None) with Some v => Some v | None =>
      if seqb n (u "request") then Some request else None end end end).
Proof.
  unfold get_context_data. destruct (_ || _); [discriminate|]. intros E PK.
  destruct (process _ _ _) as [base|] eqn:EP; [|discriminate]. injection E as <-.
  destruct (process_seen _ _ _ _ EP) as (outs & O & S). exists outs, base. split; [exact O|]. split; [reflexivity|]. intros P n.
  rewrite (S P). destruct (latest n outs); [reflexivity|]. rewrite dget_dupdate by exact PK. destruct (dget n kwargs); [reflexivity|].
  destruct (c_csrf c) as [t|].
  - rewrite dget_dset'. destruct (seqb n (c_csrf_name c)); [reflexivity|]. reflexivity.
  - destruct (seqb n (c_csrf_name c)); reflexivity.
Qed.
Lemma tps_seen request (tps : list (V -> dict V)) : (forall p, In p tps -> proper (p request)) -> forall ctx n,
  dget n (fold_left (fun d p => dupdate d (p request)) tps ctx) = match latest n (map (fun p => p request) tps) with Some v => Some v | None => dget n ctx end.
Proof.
  induction tps as [|p tps IH]; intros P ctx n; [reflexivity|]. cbn [fold_left map latest]. rewrite IH by (intros q I; apply P; right; exact I).
  destruct (latest n _); [reflexivity|]. apply dget_dupdate, P. left. reflexivity.
Qed.
Lemma template_seen request tps ctx n : (forall p, In p tps -> proper (p request)) ->
  dget n (template_context request tps ctx) =
    match latest n (map (fun p => p request) tps) with Some v => Some v | None =>
    match dget n ctx with Some v => Some v | None => if seqb n (u "request") then Some request else None end end.
Proof.
  intros P. unfold template_context. assert (S := tps_seen request tps P ctx). destruct (dget (u "request") _) as [v|] eqn:E.
  - rewrite S. destruct (seqb_spec n (u "request")) as [->|N].
    + rewrite S in E. destruct (latest (u "request") _); [reflexivity|]. rewrite E. reflexivity.
    + destruct (latest n _); [reflexivity|]. destruct (dget n ctx); reflexivity.
  - rewrite dget_dset', S. destruct (seqb_spec n (u "request")) as [->|N].
    + rewrite S in E. destruct (latest (u "request") _); [discriminate|]. rewrite E. reflexivity.
    + destruct (latest n _); [reflexivity|]. destruct (dget n ctx); reflexivity.
Qed.
End Contexts.

(** A template sees the names that the handler gives it, with the handler's values, and the request. *)
Definition C122_statement : Prop := forall (c : controller nat) request context tps ctx, proper context -> (forall p, In p tps -> proper (p request)) -> (forall x, c_more c x = x) ->
  render_context c request context = Some ctx ->
  (forall n v, n <> u "request" -> dget n context = Some v -> dget n (template_context request tps ctx) = Some v) /\
  dget (u "request") (template_context request tps ctx) = Some request.
(** Refuted: a processor of the template object takes the handler's name away. *)
Definition bare : controller nat := {| c_self := 0; c_csrf := Some 9; c_csrf_name := u "csrf_token"; c_processors := []; c_more := fun x => x |}.
Theorem C122_refuted : ~ C122_statement.
Proof.
  intros S. destruct (S bare 1 [(u "user", 2)] [fun _ => [(u "user", 3)]] [(u "request", 1); (u "csrf_token", 9); (u "user", 2)]) as [E _]; try reflexivity.
  - repeat constructor; intros [].
  - intros p [<-|[]]. repeat constructor; intros [].
  - specialize (E (u "user") 2 ltac:(discriminate) eq_refl). vm_compute in E. discriminate E.
Qed.
Print Assumptions C122_refuted.
(** So is the request, by any processor. *)
Definition replacing : processor nat := {| p_params := [(u "request", false)]; p_run := fun _ => Some [(u "request", 5)] |}.
Theorem C122_request_refuted : ~ (forall (c : controller nat) request context ctx, proper context -> (forall x, c_more c x = x) -> render_context c request context = Some ctx ->
  dget (u "request") (template_context request [] ctx) = Some request).
Proof.
  intros S. specialize (S {| c_self := 0; c_csrf := None; c_csrf_name := u "csrf_token"; c_processors := [replacing]; c_more := fun x => x |} 1 [] [(u "request", 5)]).
  assert (X : dget (u "request") (template_context 1 [] [(u "request", 5)]) = Some 1) by (apply S; [constructor | reflexivity | reflexivity]). vm_compute in X. discriminate X.
Qed.
Print Assumptions C122_request_refuted.

(** All that a template sees: the last processor of the template object, then what the handler gives except a request,
    then the last of the controller's processors, then the token, then the request. *)
Theorem C122_partial : forall V (c : controller V) request context tps ctx, proper context -> (forall p, In p tps -> proper (p request)) -> (forall x, c_more c x = x) ->
  render_context c request context = Some ctx ->
  exists outs, outputs (dupdate [(u "request", request); (u "controller", c_self c)] (ddel (u "request") context)) (c_processors c) outs /\
  (Forall proper outs -> forall n,
    dget n (template_context request tps ctx) =
      match latest n (map (fun p => p request) tps) with Some v => Some v | None =>
      match (if seqb n (u "request") then None else dget n context) with Some v => Some v | None =>
      match latest n outs with Some v => Some v | None =>
      match (if seqb n (c_csrf_name c) then c_csrf c else None) with Some v => Some v | None =>
      if seqb n (u "request") then Some request else None end end end end).
Proof.
  intros V c request context tps ctx PC PT M R. unfold render_context in R.
  assert (PD := proper_ddel (u "request") context PC). destruct (get_context_data c request (ddel (u "request") context)) as [merged|] eqn:E; [|discriminate]. injection R as <-.
  destruct (data_seen _ _ _ _ E PD) as (outs & base & O & -> & S). exists outs. split; [exact O|]. intros P n.
  rewrite template_seen by exact PT. rewrite dget_dupdate by exact PD. rewrite M, (S P).
  destruct (latest n (map _ tps)); [reflexivity|].
  destruct (seqb_spec n (u "request")) as [->|N].
  - rewrite !dget_ddel_same. destruct (latest _ outs); [reflexivity|]. destruct (if seqb _ _ then _ else _); reflexivity.
  - rewrite !dget_ddel_other by exact N. destruct (dget n context); [reflexivity|]. destruct (latest _ outs); [reflexivity|]. destruct (if seqb _ _ then _ else _); reflexivity.
Qed.
Print Assumptions C122_partial.
(** In particular, unless a processor of the template object has the name. *)
Theorem C122_handler_partial : forall V (c : controller V) request context tps ctx, proper context -> (forall p, In p tps -> proper (p request)) -> (forall x, c_more c x = x) ->
  render_context c request context = Some ctx -> forall n v, n <> u "request" -> dget n context = Some v -> (forall p, In p tps -> dget n (p request) = None) ->
  dget n (template_context request tps ctx) = Some v.
Proof.
  intros V c request context tps ctx PC PT M R n v NR G NT. unfold render_context in R.
  assert (PD := proper_ddel (u "request") context PC). destruct (get_context_data c request (ddel (u "request") context)) as [merged|] eqn:E; [|discriminate]. injection R as <-.
  rewrite template_seen, dget_dupdate by assumption. rewrite dget_ddel_other, G by exact NR.
  assert (L : latest n (map (fun p => p request) tps) = None); [|rewrite L; reflexivity].
  clear -NT. induction tps as [|p tps IH]; [reflexivity|]. cbn [map latest]. rewrite IH by (intros q I; apply NT; right; exact I). apply NT. left. reflexivity.
Qed.
Print Assumptions C122_handler_partial.
Example C122_case : render_context {| c_self := 0; c_csrf := Some 9; c_csrf_name := u "csrf_token"; c_processors := [{| p_params := [(u "controller", false); (u "title", true)]; p_run := fun a => Some [(u "title", 8); (u "menu", length a)] |}]; c_more := fun x => x |}
    1 [(u "title", 2); (u "request", 77)] = Some [(u "request", 1); (u "csrf_token", 9); (u "title", 2); (u "menu", 2)].
Proof. reflexivity. Qed.

(** Rendering succeeds with any names, without processors: refuted, [self] is taken. *)
Definition C122_names_statement : Prop := forall (c : controller nat) request context, c_processors c = [] -> proper context -> render_context c request context <> None.
Theorem C122_names_refuted : ~ C122_names_statement.
Proof. intros S. apply (S bare 1 [(u "self", 2)] eq_refl); [repeat constructor; intros [] | reflexivity]. Qed.
Print Assumptions C122_names_refuted.
Theorem C122_names_partial : forall V (c : controller V) request context, c_processors c = [] -> ~ In (u "self") (map fst context) -> render_context c request context <> None.
Proof.
  intros V c request context E N. unfold render_context, get_context_data. rewrite E. cbn [process].
  assert (dmem (u "self") (ddel (u "request") context) = false) as ->.
  { destruct (dmem _ _) eqn:D; [|reflexivity]. apply dmem_iff in D. destruct D as (v & D). rewrite dget_ddel_other in D by discriminate.
    assert (X := proj2 (dget_None_keys (u "self") context) N). congruence. }
  assert (dmem (u "request") (ddel (u "request") context) = false) as ->.
  { destruct (dmem _ _) eqn:D; [|reflexivity]. apply dmem_iff in D. destruct D as (v & D). rewrite dget_ddel_same in D. discriminate. }
  discriminate.
Qed.
Print Assumptions C122_names_partial.

(** Forms: after a submission that is not valid the template sees what was submitted and the errors, and a GET shows
    the initial form, whatever the controller's processors give. *)
Theorem C122_invalid : forall V (c : controller V) initial no_errors request submitted (valid : V -> V + V) kwargs errors tps ctx,
  (forall x, c_more c x = form_more initial no_errors x) -> proper kwargs ->
  (forall p, In p tps -> proper (p request) /\ dget (u "form") (p request) = None /\ dget (u "errors") (p request) = None) ->
  valid submitted = inr errors -> form_post c request submitted valid kwargs = ShowsForm (Some ctx) ->
  dget (u "form") (template_context request tps ctx) = Some submitted /\ dget (u "errors") (template_context request tps ctx) = Some errors.
Proof.
  intros V c initial no_errors request submitted valid kwargs errors tps ctx M PK PT VA R. unfold form_post in R. rewrite VA in R. injection R as R.
  unfold form_invalid in R. destruct (get_context_data (plainly_more c) request kwargs) as [base|] eqn:E; [|discriminate].
  assert (PB : proper base).
  { unfold get_context_data in E. destruct (_ || _); [discriminate|]. cbn [plainly_more c_processors c_more c_csrf c_self c_csrf_name] in E.
    destruct (process _ _ _) as [x|] eqn:EP; [|discriminate]. injection E as <-. eapply proper_process; [|exact EP]. apply proper_dupdate.
    destruct (c_csrf c); [apply proper_dset|]; repeat constructor; intros []. }
  unfold render_context in R. set (data := ddel _ _) in R. destruct (get_context_data c request data) as [merged|] eqn:E2; [|discriminate]. injection R as <-.
  assert (PD : proper data) by (unfold data; apply proper_ddel, proper_dset, proper_dset, PB).
  assert (L : forall n, (forall p, In p tps -> dget n (p request) = None) -> latest n (map (fun p => p request) tps) = None).
  { intros n. clear -tps. induction tps as [|p tps IH]; [reflexivity|]. intros H. cbn [map latest]. rewrite IH by (intros q I; apply H; right; exact I). apply H. left. reflexivity. }
  rewrite !template_seen by (intros p I; apply PT, I). rewrite !dget_dupdate by exact PD. rewrite !L by (intros p I; apply PT, I).
  unfold data. rewrite !dget_ddel_other by discriminate. rewrite dget_dset_same. rewrite (dget_dset_other (u "form") (u "errors")), dget_dset_same by discriminate. auto.
Qed.
Print Assumptions C122_invalid.
Theorem C122_get : forall V (c : controller V) initial no_errors request kwargs tps ctx,
  (forall x, c_more c x = form_more initial no_errors x) -> proper kwargs ->
  (forall p, In p tps -> proper (p request) /\ dget (u "form") (p request) = None) ->
  form_get c request kwargs = Some ctx ->
  dget (u "form") (template_context request tps ctx) = Some initial /\ dget (u "errors") (template_context request tps ctx) <> None.
Proof.
  intros V c initial no_errors request kwargs tps ctx M PK PT R. unfold form_get in R.
  destruct (get_context_data c request kwargs) as [base|] eqn:E; [|discriminate].
  assert (B : proper base /\ dget (u "form") base = Some initial /\ dget (u "errors") base <> None).
  { unfold get_context_data in E. destruct (_ || _); [discriminate|]. 
    destruct (process _ _ _) as [x|] eqn:EP; [|discriminate]. injection E as <-. rewrite M.
    assert (PX : proper x). { eapply proper_process; [|exact EP]. apply proper_dupdate. destruct (c_csrf c); [apply proper_dset|]; repeat constructor; intros []. }
    unfold form_more. destruct (dget (u "errors") (dset (u "form") initial x)) eqn:D.
    - split; [apply proper_dset, PX|]. split; [apply dget_dset_same | congruence].
    - split; [apply proper_dset, proper_dset, PX|]. split; [rewrite dget_dset_other by discriminate; apply dget_dset_same | rewrite dget_dset_same; discriminate]. }
  destruct B as (PB & BF & BE).
  unfold render_context in R. set (data := ddel _ _) in R. destruct (get_context_data c request data) as [merged|] eqn:E2; [|discriminate]. injection R as <-.
  assert (PD : proper data) by (unfold data; apply proper_ddel, PB).
  assert (L : forall n, (forall p, In p tps -> dget n (p request) = None) -> latest n (map (fun p => p request) tps) = None).
  { intros n. clear -tps. induction tps as [|p tps IH]; [reflexivity|]. intros H. cbn [map latest]. rewrite IH by (intros q I; apply H; right; exact I). apply H. left. reflexivity. }
  rewrite !template_seen by (intros p I; apply PT, I). rewrite !dget_dupdate by exact PD. rewrite (L (u "form")) by (intros p I; apply PT, I).
  unfold data. rewrite !dget_ddel_other by discriminate. rewrite BF. split; [reflexivity|]. destruct (dget (u "errors") base); [|congruence]. destruct (latest _ _); discriminate.
Qed.
Print Assumptions C122_get.
Definition form_controller : controller nat := {| c_self := 0; c_csrf := None; c_csrf_name := u "csrf_token"; c_processors := [{| p_params := []; p_run := fun _ => Some [(u "form", 66)] |}]; c_more := form_more 10 11 |}.
Example C122_form_case : form_post form_controller 1 20 (fun _ => inr 21) [] = ShowsForm (Some [(u "request", 1); (u "form", 20); (u "errors", 21)]) /\
  form_get form_controller 1 [] = Some [(u "request", 1); (u "form", 10); (u "errors", 11)].
Proof. split; reflexivity. Qed.
