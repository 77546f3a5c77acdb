From Verif Require Import PyStr PyStrFacts Asgi HeaderModel HeaderSpec HeaderProofs PathNestProofs CorsModel CorsSpec.

Lemma wire_in order h n v : set_order order -> (In v (values n (wire order h)) <-> In v (values n h)).
Proof.
  intros O. destruct (O (map fst h)) as (_ & SE). unfold wire, multi_items. split.
  - intros H. apply values_keys_in in H. destruct H as (k & H & L). apply in_flat_map in H. destruct H as (k' & _ & H).
    apply in_map_iff in H. destruct H as (v' & E & H). injection E as -> ->. rewrite getall_values, L in H. exact H.
  - intros H. pose proof (values_keys_in n h v H) as (k & I & L). unfold values. apply in_map_iff. exists (k, v). split; [reflexivity|].
    apply filter_In. split; [|cbn; apply seqb_eq; exact L]. apply in_flat_map. exists k. split; [apply SE; apply in_map_iff; exists (k, v); auto|].
    apply in_map_iff. exists v. split; [reflexivity|]. rewrite getall_values, L. exact H.
Qed.

Lemma values_dset_in n k v d x : In x (values n (dset k v d)) -> (lower k = n /\ x = v) \/ In x (values n d).
Proof.
  intros H. apply values_keys_in in H. destruct H as (k' & H & L).
  induction d as [|(k2, v2) d IH]; cbn [dset] in H.
  - destruct H as [H|[]]. left. split; congruence.
  - destruct (seqb_spec k k2) as [->|N].
    + destruct H as [H|H]; [left; split; congruence|]. right. unfold values. apply in_map_iff. exists (k', x). split; [reflexivity|].
      apply filter_In. split; [right; exact H | cbn; apply seqb_eq; exact L].
    + destruct H as [H|H].
      * right. unfold values. apply in_map_iff. exists (k', x). split; [reflexivity|]. apply filter_In. split; [left; exact H | cbn; apply seqb_eq; exact L].
      * destruct (IH H) as [X|X]; [left; exact X|]. right. unfold values in *. cbn [filter fst]. destruct (seqb (lower k2) n); [right|]; exact X.
Qed.
Lemma values_dset_other n k v d : lower k <> n -> values n (dset k v d) = values n d.
Proof.
  intros L. induction d as [|(k2, v2) d IH]; cbn [dset].
  - unfold values. cbn [filter fst]. destruct (seqb_spec (lower k) n); [contradiction | reflexivity].
  - destruct (seqb_spec k k2) as [->|N]; unfold values in *; cbn [filter fst].
    + destruct (seqb_spec (lower k2) n); [contradiction | reflexivity].
    + destruct (seqb (lower k2) n); cbn [map]; rewrite IH; reflexivity.
Qed.
Lemma values_dset_has n k v d : lower k = n -> In v (values n (dset k v d)).
Proof.
  intros L. induction d as [|(k2, v2) d IH]; cbn [dset].
  - unfold values. cbn [filter fst]. destruct (seqb_spec (lower k) n); [left; reflexivity | contradiction].
  - destruct (seqb_spec k k2) as [->|N]; unfold values in *; cbn [filter fst].
    + destruct (seqb_spec (lower k2) n); [left; reflexivity | contradiction].
    + destruct (seqb (lower k2) n); [right|]; exact IH.
Qed.
(** Overwriting the only value. *)
Lemma values_dset_over n k v w d : lower k = n -> (d = [] \/ exists r, d = (k, w) :: r /\ values n r = []) -> values n (dset k v d) = [v].
Proof.
  intros L [->|(r & -> & R)]; cbn [dset].
  - unfold values. cbn [filter fst]. destruct (seqb_spec (lower k) n); [reflexivity | contradiction].
  - destruct (seqb_spec k k); [|contradiction]. unfold values in *. cbn [filter fst]. destruct (seqb_spec (lower k) n); [|contradiction].
    cbn [map snd]. f_equal. exact R.
Qed.

Lemma ne (a b : str) : seqb a b = false -> a <> b.
Proof. intros H E. subst. rewrite (proj2 (seqb_eq b b) eq_refl) in H. discriminate. Qed.
Ltac lit := apply ne; vm_compute; reflexivity.

Lemma acao_lower : lower acao = u "access-control-allow-origin". Proof. vm_compute. reflexivity. Qed.
Notation A := (u "access-control-allow-origin").
Notation V := (u "vary").

(** The dict of preflight headers holds an origin first or not at all. *)
Lemma dset_cons_other {B} k (v : B) e d : k <> fst e -> dset k v (e :: d) = e :: dset k v d.
Proof. intros H. destruct e as (k', x). cbn [dset fst] in *. destruct (seqb_spec k k'); [contradiction | reflexivity]. Qed.

Lemma star_first c : all_origins c = true -> exists r, preflight_headers c = (acao, u "*") :: r /\ values A r = [].
Proof.
  intros E. unfold preflight_headers. rewrite E. cbv zeta.
  set (P := fun d : dict str => exists r, d = (acao, u "*") :: r /\ values A r = []).
  assert (S : forall k v d, seqb k acao = false -> seqb (lower k) A = false -> P d -> P (dset k v d)).
  { intros k v d N1 N2 (r & -> & R). exists (dset k v r). split; [apply dset_cons_other; apply ne; exact N1|].
    rewrite values_dset_other by (apply ne; exact N2). exact R. }
  assert (P0 : P (dset acao (u "*") [])) by (exists []; split; reflexivity).
  apply S; [vm_compute; reflexivity.. |]. apply S; [vm_compute; reflexivity.. |].
  match goal with |- context [if explicit c then _ else ?d] => assert (P d) as P1; [|destruct (explicit c); [apply S; [vm_compute; reflexivity..|]|]; exact P1] end.
  assert (P (if c_credentials c then dset (u "Access-Control-Allow-Credentials") (u "true") (dset acao (u "*") []) else dset acao (u "*") [])) as P1.
  { destruct (c_credentials c); [apply S; [vm_compute; reflexivity..|]|]; exact P0. }
  set (d1 := if c_credentials c then _ else _) in *.
  assert (P (if c_private c then dset (u "Access-Control-Allow-Private-Network") (u "true") d1 else d1)) as P2.
  { destruct (c_private c); [apply S; [vm_compute; reflexivity..|]|]; exact P1. }
  set (d2 := if c_private c then _ else _) in *.
  destruct (all_headers c); [apply S; [vm_compute; reflexivity..| exact P2]|].
  destruct (header_names c); [exact P2 | apply S; [vm_compute; reflexivity..| exact P2]].
Qed.

Lemma star_none c : all_origins c = false -> values A (preflight_headers c) = [].
Proof.
  intros E. unfold preflight_headers. rewrite E. cbv zeta.
  rewrite !values_dset_other by lit.
  destruct (explicit c); rewrite ?values_dset_other by lit;
  (destruct (all_headers c); [|destruct (header_names c)]); rewrite ?values_dset_other by lit;
  destruct (c_private c); rewrite ?values_dset_other by lit; destruct (c_credentials c); rewrite ?values_dset_other by lit; reflexivity.
Qed.

Lemma pre_values c : values A (preflight_headers c) = if all_origins c then [u "*"] else [].
Proof.
  destruct (all_origins c) eqn:E; [|apply star_none; exact E]. destruct (star_first c E) as (r & -> & R).
  change ((acao, u "*") :: r) with ([(acao, u "*")] ++ r). rewrite values_app, R. vm_compute. reflexivity.
Qed.

Lemma pre_set c o : values A (dset acao o (preflight_headers c)) = [o].
Proof.
  destruct (all_origins c) eqn:E.
  - destruct (star_first c E) as (r & -> & R). apply (values_dset_over A acao o (u "*")); [exact acao_lower | right; exists r; auto].
  - assert (H : forall d, values A d = [] -> values A (dset acao o d) = [o]).
    { intros d. induction d as [|(k, x) d IH]; intros H; [vm_compute; reflexivity|]. unfold values in *. cbn [dset filter fst] in *.
      destruct (seqb_spec (lower k) A) as [L|L]; [discriminate|]. destruct (seqb_spec acao k) as [<-|]; [destruct (L acao_lower)|].
      cbn [filter fst]. destruct (seqb_spec (lower k) A); [contradiction|]. apply IH. exact H. }
    apply H. apply star_none. exact E.
Qed.

Lemma pre_vary c : values V (preflight_headers c) = if explicit c then [u "Origin"] else [].
Proof.
  unfold preflight_headers. cbv zeta.
  rewrite !values_dset_other by lit.
  match goal with |- context [if explicit c then dset _ _ ?d else _] => set (d1 := d); assert (H : forall e, In e d1 -> seqb (lower (fst e)) V = false) end.
  { intros e He. destruct (seqb_spec (lower (fst e)) V) as [L|]; [|reflexivity]. exfalso.
    assert (X : In (snd e) (values V d1)).
    { unfold values. apply in_map_iff. exists e. split; [reflexivity|]. apply filter_In. split; [exact He | apply seqb_eq; exact L]. }
    revert X. subst d1. clear He. enough (G : forall d, d = values V (if all_headers c then
         dset (u "Access-Control-Allow-Headers") (u "*")
           (if c_private c
            then dset (u "Access-Control-Allow-Private-Network") (u "true") (if c_credentials c then dset (u "Access-Control-Allow-Credentials") (u "true") (if all_origins c then dset acao (u "*") [] else []) else if all_origins c then dset acao (u "*") [] else [])
            else if c_credentials c then dset (u "Access-Control-Allow-Credentials") (u "true") (if all_origins c then dset acao (u "*") [] else []) else if all_origins c then dset acao (u "*") [] else [])
        else
         match header_names c with
         | [] =>
             if c_private c
             then dset (u "Access-Control-Allow-Private-Network") (u "true") (if c_credentials c then dset (u "Access-Control-Allow-Credentials") (u "true") (if all_origins c then dset acao (u "*") [] else []) else if all_origins c then dset acao (u "*") [] else [])
             else if c_credentials c then dset (u "Access-Control-Allow-Credentials") (u "true") (if all_origins c then dset acao (u "*") [] else []) else if all_origins c then dset acao (u "*") [] else []
         | s :: l =>
             dset (u "Access-Control-Allow-Headers") (join (u ", ") (s :: l))
               (if c_private c
                then dset (u "Access-Control-Allow-Private-Network") (u "true") (if c_credentials c then dset (u "Access-Control-Allow-Credentials") (u "true") (if all_origins c then dset acao (u "*") [] else []) else if all_origins c then dset acao (u "*") [] else [])
                else if c_credentials c then dset (u "Access-Control-Allow-Credentials") (u "true") (if all_origins c then dset acao (u "*") [] else []) else if all_origins c then dset acao (u "*") [] else [])
         end) -> d = []).
    - intros X. erewrite G in X by reflexivity. exact X.
    - intros d ->. destruct (all_headers c); [|destruct (header_names c)]; rewrite ?values_dset_other by lit;
      destruct (c_private c); rewrite ?values_dset_other by lit; destruct (c_credentials c); rewrite ?values_dset_other by lit;
      destruct (all_origins c); rewrite ?values_dset_other by lit; reflexivity. }
  assert (N : values V d1 = []).
  { unfold values. rewrite filter_all_false; [reflexivity | exact H]. }
  destruct (explicit c); [|exact N].
  clearbody d1. induction d1 as [|(k, x) d IH]; [vm_compute; reflexivity|]. unfold values in *. cbn [dset filter fst] in *.
  pose proof (H (k, x) (or_introl eq_refl)) as Hk. cbn [fst] in Hk. rewrite Hk in N.
  destruct (seqb_spec (u "Vary") k) as [<-|]; [vm_compute in Hk; discriminate|]. cbn [filter fst]. rewrite Hk. apply IH; [|exact N].
  intros e He. apply H. right. exact He.
Qed.

(** What a plain text answer carries. *)
Lemma plain_lines order st body d n v : set_order order -> n <> u "content-length" -> n <> u "content-type" ->
  In v (lines n (plain_text order st body d)) -> In v (values n d).
Proof.
  intros O N1 N2 H. unfold plain_text, respond, lines in H. cbn [flat_map] in H. rewrite app_nil_r in H. apply (proj1 (wire_in order _ n v O)) in H.
  apply values_keys_in in H. destruct H as (k & H & L). apply made_keys in H. destruct H as [H|(_ & [->| ->])].
  - unfold values. apply in_map_iff. exists (k, v). split; [reflexivity|]. apply filter_In. split; [exact H | cbn; apply seqb_eq; exact L].
  - destruct N1. symmetry. exact L.
  - destruct N2. symmetry. exact L.
Qed.
Lemma sd_keeps k v d e : In e d -> In e (setdefault k v d).
Proof. intros H. destruct (setdefault_app k v d) as [(_ & ->)|(_ & ->)]; [apply in_or_app; left|]; exact H. Qed.
Lemma plain_has order st body d n v : set_order order -> has_entity_header_status st = false ->
  In v (values n d) -> In v (lines n (plain_text order st body d)).
Proof.
  intros O N H. unfold plain_text, respond, lines. cbn [flat_map]. rewrite app_nil_r. apply (wire_in order _ n v O).
  apply values_keys_in in H. destruct H as (k & H & L). unfold values. apply in_map_iff. exists (k, v). split; [reflexivity|].
  apply filter_In. split; [|cbn; apply seqb_eq; exact L]. unfold make_headers. cbn [fst]. rewrite N.
  destruct (has_body_message st); [|exact H]. cbn zeta. destruct (get_content_type _ _); repeat apply sd_keeps; exact H.
Qed.

(** ** Origins *)
Lemma validate_allowed c o : validate_origin c o = true <-> allowed c o.
Proof.
  unfold validate_origin, allowed, all_origins. destruct (smem (u "*") (c_origins c)) eqn:E.
  - apply smem_In in E. tauto.
  - apply smem_not_In in E. destruct (c_regex c) as [re|].
    + destruct (re o) eqn:R.
      * split; [intros _; right; right; exists re; auto | reflexivity].
      * rewrite smem_In. split; [tauto|]. intros [X|[X|(re' & X & Y)]]; [contradiction | exact X | congruence].
    + rewrite smem_In. split; [tauto|]. intros [X|[X|(re' & X & Y)]]; [contradiction | exact X | discriminate].
Qed.
Lemma all_star c : all_origins c = true <-> In (u "*") (c_origins c).
Proof. apply smem_In. Qed.

Definition pre_dict (c : config) (o : str) (req : option str) : dict str :=
  let d0 := if validate_origin c o then (if explicit c then dset acao o (preflight_headers c) else preflight_headers c) else preflight_headers c in
  match req with Some r => if all_headers c then dset (u "Access-Control-Allow-Headers") r d0 else d0 | None => d0 end.
Definition pre_fail (c : config) (o m : str) (req : option str) : list str :=
  (if validate_origin c o then [] else [u "origin"]) ++ (if smem m (methods c) then [] else [u "method"]) ++
  match req with Some r => if all_headers c then [] else if headers_refused c r then [u "headers"] else [] | None => [] end.
Lemma preflight_eq order c o m req : preflight_response order c o m req =
  match pre_fail c o m req with
  | [] => plain_text order 200 (u "OK") (pre_dict c o req)
  | f => plain_text order 400 (u "Disallowed CORS " ++ join (u ", ") f) (pre_dict c o req)
  end.
Proof.
  unfold preflight_response, pre_fail, pre_dict. destruct (validate_origin c o), req as [r|]; try destruct (all_headers c); reflexivity.
Qed.

Lemma pre_dict_values c o req : values A (pre_dict c o req) = values A (if validate_origin c o then (if explicit c then dset acao o (preflight_headers c) else preflight_headers c) else preflight_headers c).
Proof. unfold pre_dict. destruct req as [r|]; [|reflexivity]. destruct (all_headers c); [apply values_dset_other; lit | reflexivity]. Qed.
Lemma pre_dict_vary c o req : values V (pre_dict c o req) = if explicit c then [u "Origin"] else [].
Proof.
  unfold pre_dict. destruct req as [r|]; [destruct (all_headers c); [rewrite values_dset_other by lit|]|];
  destruct (validate_origin c o); try (destruct (explicit c) eqn:E; [rewrite values_dset_other by lit|]); rewrite pre_vary, ?E; reflexivity.
Qed.

Lemma preflight_grant order c o m req v : set_order order -> In v (grants (preflight_response order c o m req)) ->
  (v = u "*" /\ all_origins c = true /\ explicit c = false) \/ (v = o /\ validate_origin c o = true /\ explicit c = true).
Proof.
  intros O H. rewrite preflight_eq in H.
  assert (X : In v (values A (pre_dict c o req))).
  { unfold grants in H. destruct (pre_fail c o m req); apply plain_lines in H; try exact H; try exact O; lit. }
  rewrite pre_dict_values in X. unfold explicit, validate_origin in *. destruct (all_origins c) eqn:E.
  - cbn [negb orb] in *. destruct (c_credentials c).
    + rewrite pre_set in X. destruct X as [<-|[]]. right. auto.
    + rewrite pre_values, E in X. destruct X as [<-|[]]. left. auto.
  - cbn [negb orb] in *. match type of X with context [if ?b then _ else _] => destruct b eqn:B end.
    + rewrite pre_set in X. destruct X as [<-|[]]. right. auto.
    + rewrite pre_values, E in X. destruct X.
Qed.

Lemma private_grant order c o w v : set_order order -> In v (grants (private_response order c o w)) ->
  (v = u "*" /\ all_origins c = true) \/ (v = o /\ validate_origin c o = true).
Proof.
  intros O H. unfold private_response, grants in H. destruct (validate_origin c o) eqn:E; cbn [app] in H.
  - destruct (seqb w (u "true") && negb (c_private c)); apply plain_lines in H; try exact O; try lit.
    + rewrite pre_values in H. destruct (all_origins c); [left; destruct H as [<-|[]]; auto | destruct H].
    + rewrite pre_set in H. destruct H as [<-|[]]. right. auto.
  - destruct (seqb w (u "true") && negb (c_private c)); apply plain_lines in H; try exact O; try lit;
    rewrite pre_values in H; (destruct (all_origins c); [left; destruct H as [<-|[]]; auto | destruct H]).
Qed.

(** ** Simple responses *)
Lemma hupdate_other n d : forall h, (forall e, In e d -> lower (fst e) <> n) -> values n (hupdate h d) = values n h.
Proof.
  unfold hupdate. induction d as [|e d IH]; intros h H; [reflexivity|]. cbn [fold_left]. rewrite IH by (intros e' He'; apply H; right; exact He').
  rewrite values_set. destruct (seqb_spec n (lower (fst e))) as [X|]; [|reflexivity]. destruct (H e (or_introl eq_refl)). congruence.
Qed.
Lemma simple_shape c : exists r, simple_headers c = (if all_origins c then [(acao, u "*")] else []) ++ r /\
  (forall e, In e r -> lower (fst e) <> A /\ lower (fst e) <> V).
Proof.
  unfold simple_headers. cbv zeta.
  set (P := fun d : dict str => exists r, d = (if all_origins c then [(acao, u "*")] else []) ++ r /\ (forall e, In e r -> lower (fst e) <> A /\ lower (fst e) <> V)).
  assert (P0 : P (if all_origins c then dset acao (u "*") [] else [])).
  { exists []. split; [destruct (all_origins c); reflexivity | intros e []]. }
  assert (S : forall k v d, seqb k acao = false -> seqb (lower k) A = false -> seqb (lower k) V = false -> P d -> P (dset k v d)).
  { intros k v d N1 N2 N3 (r & -> & R). exists (dset k v r). split.
    - destruct (all_origins c); [|reflexivity]. cbn [app]. apply dset_cons_other. apply ne. exact N1.
    - intros e He. assert (G : In e r \/ fst e = k).
      { clear -He. induction r as [|(k', x) r IH]; cbn [dset] in He; [destruct He as [<-|[]]; right; reflexivity|].
        destruct (seqb_spec k k') as [->|]; (destruct He as [He|He]; [|]); [right; subst e; reflexivity | left; right; exact He | left; left; exact He | destruct (IH He); [left; right; assumption | right; assumption]]. }
      destruct G as [G| ->]; [apply R; exact G | split; apply ne; assumption]. }
  set (d0 := if all_origins c then dset acao (u "*") [] else []) in *.
  assert (P (if c_credentials c then dset (u "Access-Control-Allow-Credentials") (u "true") d0 else d0)) as P1.
  { destruct (c_credentials c); [apply S; [vm_compute; reflexivity..|]|]; exact P0. }
  set (d1 := if c_credentials c then _ else _) in *.
  assert (P (match c_expose c with [] => d1 | e => dset (u "Access-Control-Expose-Headers") (join (u ", ") e) d1 end)) as P2.
  { destruct (c_expose c); [|apply S; [vm_compute; reflexivity..|]]; exact P1. }
  set (d2 := match c_expose c with [] => _ | _ => _ end) in *.
  destruct (c_private c); [apply S; [vm_compute; reflexivity..|]|]; exact P2.
Qed.
Lemma hupdate_acao c h : values A (hupdate h (simple_headers c)) = if all_origins c then [u "*"] else values A h.
Proof.
  destruct (simple_shape c) as (r & -> & R). unfold hupdate. rewrite fold_left_app. change (fold_left _ r ?x) with (hupdate x r).
  rewrite hupdate_other by (intros e He; apply (proj1 (R e He))).
  destruct (all_origins c); [|reflexivity]. cbn [fold_left]. rewrite values_set. vm_compute. reflexivity.
Qed.
Lemma vary_acao v h : values A (add_vary_header v h) = values A h.
Proof. unfold add_vary_header. rewrite values_set. destruct (seqb_spec A (lower (u "vary"))) as [X|]; [|reflexivity]. exfalso. revert X. lit. Qed.
Lemma explicit_acao h o : values A (set_explicit_origin h o) = [o].
Proof.
  unfold set_explicit_origin. set (h1 := add_vary_header (u "Origin") _).
  assert (E : values A h1 = [o]).
  { unfold h1. rewrite vary_acao, values_set, acao_lower. destruct (seqb_spec A A); [reflexivity | contradiction]. }
  destruct (hget _ h1) as [[|x r]|]; [exact E | rewrite vary_acao; exact E | exact E].
Qed.
Lemma vary_tokens w h : forall t, (t = w /\ ~ In 44%N w /\ strip w = w) \/ (exists x, In x (values V h) /\ hget (u "vary") h = Some x /\ In t (map strip (split_char 44 x))) ->
  exists x, values V (add_vary_header w h) = [x] /\ In t (map strip (split_char 44 x)).
Proof.
  intros t H. unfold add_vary_header. rewrite values_set. change (lower (u "vary")) with V.
  destruct (seqb_spec V V); [|contradiction]. eexists. split; [reflexivity|].
  destruct (hget (u "vary") h) as [x|] eqn:G.
  - change (join (u ", ") [x; w]) with (x ++ 44%N :: 32%N :: w). rewrite split_char_mid, map_app, tokens_pad by discriminate. apply in_or_app.
    destruct H as [(-> & F & S)|(x' & I & E & T)].
    + right. rewrite split_char_free by exact F. left. exact S.
    + left. injection E as <-. exact T.
  - destruct H as [(-> & F & S)|(x' & I & E & T)]; [|discriminate]. rewrite split_char_free by exact F. left. exact S.
Qed.
Lemma explicit_vary h o : exists x, values V (set_explicit_origin h o) = [x] /\ In (u "Origin") (map strip (split_char 44 x)).
Proof.
  unfold set_explicit_origin. set (h1 := add_vary_header (u "Origin") _).
  assert (E : exists x, values V h1 = [x] /\ In (u "Origin") (map strip (split_char 44 x))).
  { unfold h1. apply vary_tokens. left. split; [reflexivity|]. split; [apply cmem_not_In; vm_compute; reflexivity | vm_compute; reflexivity]. }
  destruct E as (x & E1 & E2).
  destruct (hget _ h1) as [[|y r]|]; [exists x; auto | | exists x; auto].
  apply vary_tokens. right. exists x. split; [rewrite E1; left; reflexivity|]. split; [|exact E2].
  unfold hget. rewrite getall_values. change (lower (u "vary")) with V. rewrite E1. reflexivity.
Qed.

Lemma simple_grant c req o h v : In v (values A (simple_send c req o h)) ->
  (v = u "*" /\ all_origins c = true /\ hcontains (u "cookie") req = false) \/ (v = o /\ validate_origin c o = true) \/
  (In v (values A h) /\ validate_origin c o = false).
Proof.
  unfold simple_send. intros H. assert (VA : all_origins c = true -> validate_origin c o = true) by (intros E; unfold validate_origin; rewrite E; reflexivity).
  destruct (all_origins c) eqn:E; cbn [andb negb] in H.
  - destruct (hcontains (u "cookie") req).
    + rewrite explicit_acao in H. destruct H as [<-|[]]. right; left. auto.
    + rewrite hupdate_acao, E in H. destruct H as [<-|[]]. left. auto.
  - destruct (validate_origin c o) eqn:B.
    + rewrite explicit_acao in H. destruct H as [<-|[]]. right; left. auto.
    + rewrite hupdate_acao, E in H. right; right. auto.
Qed.

Definition starts_free (n : str) (ms : list amsg) : Prop := lines n ms = [].
Lemma lines_map order c req o ms v : set_order order ->
  In v (grants (map (fun m => match m with AStart st h => AStart st (wire order (simple_send c req o h)) | b => b end) ms)) ->
  exists st h, In (AStart st h) ms /\ In v (values A (simple_send c req o h)).
Proof.
  intros O. unfold grants, lines. rewrite flat_map_concat_map, map_map, <- flat_map_concat_map. rewrite in_flat_map.
  intros ([st h|b m] & I & H); [|destruct H]. exists st, h. split; [exact I|]. apply (proj1 (wire_in order _ A v O)) in H. exact H.
Qed.
Lemma no_app_grant ms st h : grants ms = [] -> In (AStart st h) ms -> values A h = [].
Proof.
  intros H I. destruct (values A h) as [|x r] eqn:E; [reflexivity|]. exfalso.
  assert (X : In x (grants ms)) by (unfold grants, lines; apply in_flat_map; exists (AStart st h); split; [exact I | rewrite E; left; reflexivity]).
  rewrite H in X. destruct X.
Qed.

(** ** Preflight verdicts *)
Lemma lower_strip s : strip (lower s) = lower (strip s).
Proof.
  assert (SP : forall x, is_space (lower_c x) = is_space x).
  { intros x. unfold lower_c. destruct ((65 <=? x) && (x <=? 90))%N eqn:E; [|reflexivity]. apply andb_true_iff in E.
    destruct E as (E1 & E2). apply N.leb_le in E1, E2. unfold is_space.
    repeat match goal with |- context [(?a =? ?b)%N] => destruct (N.eqb_spec a b); try lia end;
    repeat match goal with |- context [(?a <=? ?b)%N] => destruct (N.leb_spec a b); try lia end; reflexivity. }
  unfold strip, strip_by, rstrip_by, lower.
  assert (L : forall l, lstrip_by is_space (map lower_c l) = map lower_c (lstrip_by is_space l)).
  { induction l as [|x l IH]; [reflexivity|]. cbn [lstrip_by map]. rewrite SP. destruct (is_space x); [exact IH | reflexivity]. }
  rewrite L, <- map_rev, L, <- map_rev. reflexivity.
Qed.

Lemma headers_allowed c req : sorts c -> (allows_headers c req <-> match req with Some r => all_headers c = true \/ headers_refused c r = false | None => True end).
Proof.
  intros S. unfold allows_headers. destruct req as [r|]; [|tauto].
  assert (E : headers_refused c r = false <-> forall h, In h (split_char 44 r) -> allows_name c (strip h)).
  { unfold headers_refused. split.
    - intros H h Hh. unfold allows_name. destruct (smem (strip (lower h)) (map lower (header_names c))) eqn:M.
      + apply smem_In in M. apply in_map_iff in M. destruct M as (a & La & Ia). exists a. split; [apply (proj1 (S _ a)) in Ia; exact Ia | rewrite La; apply lower_strip].
      + exfalso. assert (X : existsb (fun h => negb (smem (strip (lower h)) (map lower (header_names c)))) (split_char 44 r) = true).
        { apply existsb_exists. exists h. split; [exact Hh | rewrite M; reflexivity]. }
        congruence.
    - intros H. destruct (existsb _ _) eqn:X; [|reflexivity]. exfalso. apply existsb_exists in X. destruct X as (h & Hh & X).
      apply negb_true_iff, smem_not_In in X. apply X. destruct (H h Hh) as (a & Ia & La). rewrite lower_strip, <- La.
      apply in_map. apply S. exact Ia. }
  unfold all_headers. rewrite smem_In, E. tauto.
Qed.
Lemma method_allowed c m : smem m (methods c) = true <-> allows_method c m.
Proof.
  unfold methods. rewrite smem_In. destruct (c_methods c) as [|a r] eqn:E.
  - change (smem (u "*") [u "GET"]) with false. cbn iota. split.
    + intros [<-|[]]. apply am_none; [exact E | reflexivity].
    + intros [X|X Y|X Y]; [rewrite E in X; destruct X | rewrite E in Y; destruct Y | left; congruence].
  - destruct (smem (u "*") (a :: r)) eqn:B.
    + split; [intros H; apply am_all; [rewrite E; apply smem_In; exact B | exact H]|].
      intros [X Y|X Y|X Y]; [exact Y | destruct X; rewrite E; apply smem_In; exact B | congruence].
    + apply smem_not_In in B. split; [intros H; apply am_listed; rewrite E; assumption|].
      intros [X Y|X Y|X Y]; [rewrite E in X; contradiction | rewrite <- E; exact Y | congruence].
Qed.
Lemma fail_none c o m req : sorts c -> (pre_fail c o m req = [] <-> allowed c o /\ allows_method c m /\ allows_headers c req).
Proof.
  intros S. rewrite (headers_allowed c req S), <- method_allowed, <- validate_allowed. unfold pre_fail.
  destruct (validate_origin c o); [|split; [discriminate | intros (X & _); discriminate]].
  destruct (smem m (methods c)); [|split; [discriminate | intros (_ & X & _); discriminate]].
  destruct req as [r|]; [|tauto]. destruct (all_headers c); [tauto|].
  destruct (headers_refused c r); [split; [discriminate | intros (_ & _ & [X|X]); discriminate] | tauto].
Qed.

Lemma hget_has n req : (exists v, hget n req = Some v) <-> has (lower n) req.
Proof.
  unfold hget, has. rewrite getall_values. destruct (values (lower n) req) as [|v r]; cbn; [split; [intros (v & X); discriminate | contradiction]|].
  split; [discriminate | intros _; exists v; reflexivity].
Qed.
