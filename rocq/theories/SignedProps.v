(** C42: signed URLs. *)
From Verif Require Import PyStr PyStrFacts Utf8 UrlModel UrlSpec UrlProofs UrlProps PathNestProofs CookieProofs SignedModel SignedSpec SignedProofs.

(** The end of a lifetime, in millionths of a second. *)
Definition deadline (signed_at lifetime : Z) : Z := ((signed_at / 1000000 + lifetime) * 1000000)%Z.

(** ** Signed URLs are valid until they expire *)
Definition C42_valid_statement : Prop := forall ip_ok mac now lifetime a, tag mac -> good_address ip_ok a ->
  exists s, sign ip_ok mac now lifetime (address_text a) = Some s
    /\ forall t, verify ip_ok mac t s = if (t <=? deadline now lifetime)%Z then Yes else No.
Lemma lit_scalar (s : str) : forallb (fun c => c <? 128)%N s = true -> forall c, In c s -> scalar c.
Proof. intros F c I. left. assert (X := proj1 (forallb_forall _ _) F c I). apply N.ltb_lt in X. lia. Qed.
Lemma decz_ascii z : forallb (fun c => c <? 128)%N (decz z) = true.
Proof.
  assert (D : forall n, forallb (fun c => c <? 128)%N (dec n) = true).
  { intros n. apply forallb_forall. intros c I. assert (X := proj1 (forallb_forall _ _) (dec_digits n) c I). unfold is_digit in X. apply N.ltb_lt. lia. }
  destruct z; cbn [decz]; [apply D|apply D|]. cbn [forallb]. rewrite D. reflexivity.
Qed.
Lemma decz_nonnil z : decz z <> [].
Proof.
  intros E. assert (X := int_parse_decz z). rewrite E in X. discriminate X.
Qed.
Lemma ddel_absent {V} k (d : dict V) : ~ In k (dkeys d) -> ddel k d = d.
Proof.
  induction d as [|(a, b) d IH]; [reflexivity|]. intros N. cbn [ddel dkeys map fst] in *. destruct (seqb_spec k a) as [->|X]; [contradiction N; left; reflexivity|].
  rewrite IH; [reflexivity|]. intros I. apply N. right. exact I.
Qed.
Lemma ddel_app {V} k (d e : dict V) : ddel k (d ++ e) = ddel k d ++ ddel k e.
Proof. induction d as [|(a, b) d IH]; [reflexivity|]. cbn [app ddel]. destruct (seqb k a); [exact IH|]. cbn [app]. rewrite IH. reflexivity. Qed.
Lemma dset_keys {V} k (v : V) d x : In x (dkeys (dset k v d)) -> x = k \/ In x (dkeys d).
Proof.
  unfold dkeys. intros I. apply in_map_iff in I. destruct I as (e & <- & I). apply dset_in in I. destruct I as [->|I]; [left; reflexivity|]. right. apply in_map. exact I.
Qed.
Lemma NoDup_snoc {A} (l : list A) x : NoDup l -> ~ In x l -> NoDup (l ++ [x]).
Proof. intros H N. apply (NoDup_Add (a := x) (l := l) (l' := l ++ [x])); [|split; assumption]. rewrite <- (app_nil_r l) at 1. apply Add_app. Qed.
(** With "sig" not among the parameters: the signed URL is the same address with other parameters kept, and
    it is valid up to its deadline and not after it. *)
Theorem C42_valid_partial : forall ip_ok mac now lifetime a, tag mac -> good_address ip_ok a -> last_value (u "sig") a = None ->
  exists b, sign ip_ok mac now lifetime (address_text a) = Some (address_text b)
    /\ (forall t, verify ip_ok mac t (address_text b) = if (t <=? deadline now lifetime)%Z then Yes else No)
    /\ good_address ip_ok b /\ a_scheme b = a_scheme a /\ a_user b = a_user a /\ a_pass b = a_pass a /\ a_host b = a_host a /\ a_port b = a_port a
    /\ a_fragment b = a_fragment a /\ (a_path b = a_path a \/ a_path a = a_path b ++ u ";")
    /\ (forall n, n <> u "sig" -> n <> u "expires" -> last_value n b = last_value n a).
Proof.
  intros ip_ok mac now lifetime a TAG G NS. destruct (parse_address _ _ G) as (p & seg & PA & BS & GP & GJ & SP & PI & JI).
  set (d := dset (u "expires") (decz (now / 1000000 + lifetime)) (read a)).
  destruct (TAG (to_sign p d)) as [CN CU]. remember (mac (to_sign p d)) as code eqn:EM.
  destruct (read_facts a (g_query_text _ _ G)) as [RT RF].
  assert (DT : texts d). { apply dset_texts; [apply lit_scalar; reflexivity|apply lit_scalar, decz_ascii|exact RT]. }
  assert (DF : filled d). { intros k v I. apply dset_in in I. destruct I as [I|I]; [injection I as -> ->; apply decz_nonnil|exact (RF k v I)]. }
  assert (DN : NoDup (dkeys d)) by (apply NoDup_dset, read_nodup).
  assert (NSD : ~ In (u "sig") (dkeys d)).
  { intros I. apply dset_keys in I. destruct I as [I|I]; [discriminate I|]. rewrite last_read in NS. apply dget_None_keys in NS. exact (NS I). }
  assert (DNN : d <> []) by (unfold d; destruct (read a) as [|(k, v) r]; cbn [dset]; [discriminate|destruct (seqb _ k); discriminate]).
  set (full := d ++ [(u "sig", code)]).
  assert (QE : urlencode d ++ u "&sig=" ++ code = urlencode full).
  { unfold full. rewrite encode_snoc by exact DNN. change (quote_plus (u "sig")) with (u "sig"). rewrite (quote_tag code CU). reflexivity. }
  assert (FT : texts full). { intros k v I. apply in_app_or in I as [I|[I|[]]]; [exact (DT k v I)|]. injection I as <- <-. split; [apply lit_scalar; reflexivity|apply tag_scalar; exact CU]. }
  assert (FF : filled full). { intros k v I. apply in_app_or in I as [I|[I|[]]]; [exact (DF k v I)|]. injection I as <- <-. exact CN. }
  assert (FN : NoDup (dkeys full)). { unfold full, dkeys. rewrite map_app. apply NoDup_snoc; [exact DN|exact NSD]. }
  set (b := {| a_scheme := a_scheme a; a_user := a_user a; a_pass := a_pass a; a_host := a_host a; a_port := a_port a; a_path := joined p seg; a_query := urlencode full; a_fragment := a_fragment a |}).
  assert (GB : good_address ip_ok b).
  { split; cbn [a_scheme a_user a_pass a_host a_port a_path a_query a_fragment b].
    - exact (g_scheme _ _ G).
    - exact (g_authority _ _ G).
    - exact GJ.
    - intros c I. exact (g_path_text _ _ G c (JI c I)).
    - apply encode_good. exact FT.
    - intros c I. exact (encoded_scalar full FT c I).
    - exact (g_fragment _ _ G). }
  assert (RB : read b = full). { unfold read. cbn [a_query b]. rewrite filled_read by assumption. apply dupdate_nodup. exact FN. }
  destruct (http_scheme _ (g_scheme _ _ G)) as (SN & SM & SNE).
  exists b. split; [|split; [|split; [exact GB|]]].
  - unfold sign. rewrite PA. cbn [p_query p_path]. fold (read a). fold d. rewrite <- EM, QE. unfold urlunparse. cbn [p_scheme p_netloc p_path p_query p_fragment]. fold (joined p seg).
    rewrite unsplit_text; [reflexivity|exact SNE|exact (proj2 (authority_net _ _ _ _ _ (g_authority _ _ G)))|exact GJ].
  - intros t. unfold verify. destruct (parse_address _ _ GB) as (p' & seg' & PB & _ & _ & _ & _ & _ & _). rewrite PB.
    assert (PP : p' = p). { unfold urlparse, address_text in PB. rewrite split_text in PB; [|exact SN|exact (proj1 (authority_net _ _ _ _ _ (g_authority _ _ GB)))|exact (g_path _ _ GB)|exact (g_query _ _ GB)|exact (g_fragment _ _ GB)].
      cbn [p_scheme p_netloc p_path p_query p_fragment a_scheme a_path b] in PB. rewrite SM, SP in PB. congruence. }
    subst p'. cbn [p_query p_path a_query]. fold (read b). rewrite RB.
    assert (GS : dget (u "sig") full = Some code).
    { unfold full. rewrite dget_app. replace (dget (u "sig") d) with (@None str) by (symmetry; apply dget_None_keys; exact NSD). reflexivity. }
    rewrite GS.
    assert (DD : ddel (u "sig") full = d). { unfold full. rewrite ddel_app, ddel_absent by exact NSD. cbn [ddel]. rewrite (proj2 (seqb_eq _ _) eq_refl). apply app_nil_r. }
    rewrite DD. assert (GE : dget (u "expires") d = Some (decz (now / 1000000 + lifetime))) by apply dget_dset_same. rewrite GE, int_parse_decz.
    rewrite (tag_ascii code CU). cbn [negb]. assert (MC : seqb (mac (to_sign p d)) code = true) by (apply seqb_eq; symmetry; exact EM). rewrite MC.
    replace (match code with [] => No | _ :: _ => if (t >? (now / 1000000 + lifetime) * 1000000)%Z then No else Yes end) with (if (t >? (now / 1000000 + lifetime) * 1000000)%Z then No else Yes) by (clear - CN; destruct code; [contradiction CN; reflexivity|reflexivity]).
    unfold deadline. destruct (Z.leb_spec t ((now / 1000000 + lifetime) * 1000000)) as [L|L]; destruct (t >? (now / 1000000 + lifetime) * 1000000)%Z eqn:X; try reflexivity.
    + apply Z.gtb_lt in X. lia.
    + rewrite Z.gtb_ltb in X. apply Z.ltb_ge in X. lia.
  - cbn [a_scheme a_user a_pass a_host a_port a_path a_fragment b]. do 6 (split; [reflexivity|]). split.
    + destruct seg as [|c seg]; cbn [joined empty].
      * destruct BS as [[E _]|(x & E & _ & _)]; [left; exact E|].
        unfold urlparse, address_text in PA. rewrite split_text in PA; [|exact SN|exact (proj1 (authority_net _ _ _ _ _ (g_authority _ _ G)))|exact (g_path _ _ G)|exact (g_query _ _ G)|exact (g_fragment _ _ G)].
        cbn [p_scheme p_path] in PA. rewrite SM in PA. destruct (split_params (a_path a)) as (p1, s1) eqn:SPA. assert (p1 = p /\ s1 = []) by (split; congruence). destruct H as [-> ->].
        right. apply split_params_join in SPA; [|exact (proj1 (g_path _ _ G))]. destruct SPA as [SPA|SPA]; [|exact SPA].
        destruct SPA as [SPA _]. rewrite SPA in E. exfalso. assert (L := f_equal (@length N) E). rewrite !app_length in L. cbn in L. lia.
      * unfold urlparse, address_text in PA. rewrite split_text in PA; [|exact SN|exact (proj1 (authority_net _ _ _ _ _ (g_authority _ _ G)))|exact (g_path _ _ G)|exact (g_query _ _ G)|exact (g_fragment _ _ G)].
        cbn [p_scheme p_path] in PA. rewrite SM in PA. destruct (split_params (a_path a)) as (p1, s1) eqn:SPA. assert (p1 = p /\ s1 = c :: seg) by (split; congruence). destruct H as [-> ->].
        left. apply split_params_join in SPA; [|exact (proj1 (g_path _ _ G))]. destruct SPA as [SPA|SPA]; [discriminate (proj2 SPA)|]. symmetry. exact SPA.
    + intros n N1 N2. rewrite !last_read, RB. unfold full. rewrite dget_app. cbn [dget]. destruct (seqb_spec n (u "sig")) as [->|_]; [contradiction N1; reflexivity|].
      unfold d. rewrite dget_dset_other by exact N2. destruct (dget n (read a)); reflexivity.
Qed.
Print Assumptions C42_valid_partial.

Lemma refuted_address : forall ip_ok path query, good_path path -> plain_text path -> good_query query -> plain_text query ->
  good_address ip_ok {| a_scheme := u "http"; a_user := None; a_pass := None; a_host := u "h"; a_port := None; a_path := path; a_query := query; a_fragment := [] |}.
Proof.
  intros ip_ok path query P PT Q QT. split; cbn; [left; reflexivity| |exact P|exact PT|exact Q|exact QT|apply smooth_nil].
  split; [discriminate|discriminate| |discriminate]. apply gh_name; [discriminate| |apply smooth_lit; reflexivity]. intros c [<-|[]]. apply cmem_not_In. reflexivity.
Qed.
Lemma lit_path (s : str) : (s = [] \/ exists r, s = u "/" ++ r) -> forallb (fun c => negb (cmem c (u "?#"))) s = true -> forallb (fun c => negb (unsafe c)) s = true -> good_path s.
Proof. intros A B C. split; [exact A|]. split; [|apply smooth_lit; exact C]. intros c I. apply cmem_not_In. assert (X := proj1 (forallb_forall _ _) B c I). cbv beta in X. destruct (cmem c (u "?#")); [discriminate X|reflexivity]. Qed.
Lemma lit_query (s : str) : forallb (fun c => negb (cmem c (u "#"))) s = true -> forallb (fun c => negb (unsafe c)) s = true -> good_query s.
Proof. intros B C. split; [|apply smooth_lit; exact C]. intros c I. apply cmem_not_In. assert (X := proj1 (forallb_forall _ _) B c I). cbv beta in X. destruct (cmem c (u "#")); [discriminate X|reflexivity]. Qed.
Definition at_h (path query : str) : address := {| a_scheme := u "http"; a_user := None; a_pass := None; a_host := u "h"; a_port := None; a_path := path; a_query := query; a_fragment := [] |}.
Lemma at_h_good ip_ok path query : (path = [] \/ exists r, path = u "/" ++ r) ->
  forallb (fun c => negb (cmem c (u "?#"))) path = true -> forallb (fun c => negb (unsafe c)) path = true -> forallb (fun c => c <? 128)%N path = true ->
  forallb (fun c => negb (cmem c (u "#"))) query = true -> forallb (fun c => negb (unsafe c)) query = true -> forallb (fun c => c <? 128)%N query = true ->
  good_address ip_ok (at_h path query).
Proof. intros. apply refuted_address; [apply lit_path; assumption|intros c I; apply (lit_scalar path); assumption|apply lit_query; assumption|intros c I; apply (lit_scalar query); assumption]. Qed.
Example C42_valid_case : let a := at_h (u "/f;v=1") (u "x=%C3%A9&x=2") in
  good_address (fun _ => false) a /\ last_value (u "sig") a = None
  /\ sign (fun _ => false) (fun _ => u "tag") 5000001 60 (address_text a) = Some (u "http://h/f;v=1?x=2&expires=65&sig=tag").
Proof. split; [apply at_h_good; try reflexivity; right; eexists; reflexivity|]. split; vm_compute; reflexivity. Qed.

(** A code without collisions: every number in unary. *)
Definition unary (s : str) : str := 99%N :: flat_map (fun c => repeat 97%N (N.to_nat c) ++ [98%N]) s.
Lemma unary_tag : tag unary.
Proof.
  intros b. split; [discriminate|]. intros c [<-|I]; [reflexivity|]. apply in_flat_map in I. destruct I as (x & _ & I). apply in_app_or in I as [I|[<-|[]]]; [|reflexivity].
  apply repeat_spec in I. subst c. reflexivity.
Qed.
Lemma unary_free : no_collision unary.
Proof.
  assert (ONE : forall n m r s, repeat 97%N n ++ 98%N :: r = repeat 97%N m ++ 98%N :: s -> n = m /\ r = s).
  { induction n as [|n IH]; intros m r s E; destruct m as [|m]; cbn [repeat app] in E; try discriminate E.
    - injection E as E. auto.
    - injection E as E. destruct (IH m r s E). auto. }
  intros a b E. unfold unary in E. injection E as E. revert b E. induction a as [|x a IH]; intros [|y b] E; cbn [flat_map] in E.
  - reflexivity.
  - exfalso. destruct (N.to_nat y); discriminate E.
  - exfalso. destruct (N.to_nat x); discriminate E.
  - rewrite <- !app_assoc in E. cbn [app] in E. apply ONE in E. destruct E as [E1 E2]. apply N2Nat.inj in E1. rewrite E1, (IH b E2). reflexivity.
Qed.
(** A URL that already has a parameter "sig" is signed with it and verified without it. *)
Theorem C42_valid_refuted : ~ C42_valid_statement.
Proof.
  intros H. specialize (H (fun _ => false) unary 0%Z 60%Z (at_h (u "/") (u "sig=1")) unary_tag).
  destruct H as (s & E & V); [apply at_h_good; try reflexivity; right; exists []; reflexivity|].
  specialize (V 0%Z). revert V. replace s with (match sign (fun _ => false) unary 0 60 (address_text (at_h (u "/") (u "sig=1"))) with Some x => x | None => [] end) by (rewrite E; reflexivity).
  clear E s. vm_compute. discriminate.
Qed.
Print Assumptions C42_valid_refuted.

(** ** Changed URLs are refused *)
(** Two URLs with the same signature, both accepted, have the same path and pairs. *)
Definition C42_tamper_statement : Prop := forall ip_ok mac t t' a b, tag mac -> no_collision mac -> good_address ip_ok a -> good_address ip_ok b ->
  verify ip_ok mac t (address_text a) = Yes -> verify ip_ok mac t' (address_text b) = Yes -> last_value (u "sig") a = last_value (u "sig") b ->
  a_path a = a_path b /\ signed_pairs a = signed_pairs b.
(** Pairs whose name comes again, pairs without a value and the parameters of the last segment are not covered. *)
Theorem C42_tamper_refuted : ~ C42_tamper_statement.
Proof.
  intros H.
  set (code := unary (to_sign (u "/") [(u "a", u "1"); (u "expires", u "5")])).
  set (a := at_h (u "/") (u "a=1&expires=5&sig=" ++ code)). set (b := at_h (u "/") (u "a=2&a=1&expires=5&sig=" ++ code)).
  assert (GA : good_address (fun _ => false) a) by (apply at_h_good; [right; exists []; reflexivity|vm_compute; reflexivity..]).
  assert (GB : good_address (fun _ => false) b) by (apply at_h_good; [right; exists []; reflexivity|vm_compute; reflexivity..]).
  specialize (H (fun _ => false) unary 0%Z 0%Z a b unary_tag unary_free GA GB). assert (VA : verify (fun _ => false) unary 0 (address_text a) = Yes) by (vm_compute; reflexivity).
  assert (VB : verify (fun _ => false) unary 0 (address_text b) = Yes) by (vm_compute; reflexivity).
  specialize (H VA VB). destruct H as [_ H]; [vm_compute; reflexivity|]. assert (L := f_equal (@length (str * str)) H). clear - L. vm_compute in L. discriminate L.
Qed.
Print Assumptions C42_tamper_refuted.
Lemma verified ip_ok mac t a : good_address ip_ok a -> verify ip_ok mac t (address_text a) = Yes -> exists p sig,
  before_semicolon (a_path a) p /\ (forall c, In c p -> In c (a_path a)) /\ last_value (u "sig") a = Some sig /\ mac (to_sign p (ddel (u "sig") (read a))) = sig.
Proof.
  intros G V. destruct (parse_address _ _ G) as (p & seg & PA & BS & _ & _ & _ & PI & _). unfold verify in V. rewrite PA in V. cbn [p_query p_path] in V. fold (read a) in V.
  destruct (dget (u "sig") (read a)) as [sig|] eqn:S; [|discriminate V]. destruct sig as [|c sig]; [discriminate V|].
  destruct (int_parse _); [|discriminate V]. destruct (_ >? _)%Z; [discriminate V|]. destruct (negb _); [discriminate V|]. destruct (seqb (mac _) _) eqn:E; [|discriminate V].
  apply seqb_eq in E. exists p, (c :: sig). rewrite last_read. auto.
Qed.
Lemma before_unique path p q : before_semicolon path p -> before_semicolon path q -> p = q.
Proof.
  intros [[-> A]|(b & E & B & A)] [[-> C]|(d & F & D & C)].
  - reflexivity.
  - exfalso. apply A. exists q, d. auto.
  - exfalso. apply C. exists p, b. auto.
  - rewrite E in F. assert (X : forall (p q : str) (b d : str), p ++ 59%N :: b = q ++ 59%N :: d -> p = q \/ (exists y, p = q ++ 59%N :: y /\ incl y d) \/ exists y, q = p ++ 59%N :: y /\ incl y b).
    { clear. induction p as [|c p IH]; intros [|e q] b d E; cbn [app] in E.
      - left. reflexivity.
      - right. right. injection E as E1 E2. subst e. exists q. split; [reflexivity|]. rewrite E2. apply incl_appl, incl_refl.
      - right. left. injection E as E1 E2. subst c. exists p. split; [reflexivity|]. rewrite <- E2. apply incl_appl, incl_refl.
      - injection E as E1 E2. subst e. destruct (IH q b d E2) as [->|[(y & -> & Y)|(y & -> & Y)]]; [left; reflexivity|right; left; exists y; auto|right; right; exists y; auto]. }
    destruct (X p q b d F) as [Y|[(y & -> & Y)|(y & -> & Y)]]; [exact Y| |].
    + exfalso. apply A. exists q, y. split; [reflexivity|]. intros I. exact (D (Y _ I)).
    + exfalso. apply C. exists p, y. split; [reflexivity|]. intros I. exact (B (Y _ I)).
Qed.
(** What is covered: the path up to the parameters of its last segment, and the last value of every name. *)
Theorem C42_tamper_partial : forall ip_ok mac t t' a b, no_collision mac -> good_address ip_ok a -> good_address ip_ok b ->
  verify ip_ok mac t (address_text a) = Yes -> verify ip_ok mac t' (address_text b) = Yes -> last_value (u "sig") a = last_value (u "sig") b ->
  (exists p, before_semicolon (a_path a) p /\ before_semicolon (a_path b) p) /\ (forall n, n <> u "sig" -> last_value n a = last_value n b).
Proof.
  intros ip_ok mac t t' a b NC GA GB VA VB S. destruct (verified _ _ _ _ GA VA) as (p & s & BP & PI & SA & MA). destruct (verified _ _ _ _ GB VB) as (q & s' & BQ & QI & SB & MB).
  assert (SS : s = s') by congruence. assert (E := NC _ _ (eq_trans MA (eq_trans SS (eq_sym MB)))).
  apply to_sign_inj in E.
  - destruct E as [-> E]. split; [exists q; auto|]. intros n N. rewrite !last_read. rewrite <- (dget_ddel_other n (u "sig") (read a)) by exact N. rewrite E. apply dget_ddel_other. exact N.
  - intros c I. exact (g_path_text _ _ GA c (PI c I)).
  - intros c I. exact (g_path_text _ _ GB c (QI c I)).
  - apply ddel_texts. exact (proj1 (read_facts a (g_query_text _ _ GA))).
  - apply ddel_texts. exact (proj1 (read_facts b (g_query_text _ _ GB))).
  - intros I. apply PI in I. destruct (g_path _ _ GA) as (_ & F & _). apply (F _ I). left. reflexivity.
  - intros I. apply QI in I. destruct (g_path _ _ GB) as (_ & F & _). apply (F _ I). left. reflexivity.
Qed.
Print Assumptions C42_tamper_partial.
(** With distinct names, no blank values and no ";" the whole path and every pair are covered. *)
Definition simple (a : address) : Prop := NoDup (map fst (pairs a)) /\ (forall k v, In (k, v) (pairs a) -> v <> []) /\ ~ In 59%N (a_path a).
Lemma simple_read a : simple a -> read a = pairs a.
Proof.
  intros (ND & F & _). unfold read. rewrite read_parse. fold (pairs a). replace (filter _ (pairs a)) with (pairs a); [apply dupdate_nodup; exact ND|].
  clear ND. induction (pairs a) as [|(k, v) l IH]; [reflexivity|]. cbn [filter snd]. destruct v as [|c v]; [contradiction (F k [] (or_introl eq_refl)); reflexivity|]. cbn [empty negb]. rewrite <- IH; [reflexivity|].
  intros x y I. exact (F x y (or_intror I)).
Qed.
Lemma ddel_filter {V} k (d : dict V) : ddel k d = filter (fun e => negb (seqb (fst e) k)) d.
Proof. induction d as [|(a, b) d IH]; [reflexivity|]. cbn [ddel filter fst]. rewrite seqb_sym. destruct (seqb a k); cbn [negb]; rewrite IH; reflexivity. Qed.
Theorem C42_tamper_simple_partial : forall ip_ok mac t t' a b, no_collision mac -> good_address ip_ok a -> good_address ip_ok b -> simple a -> simple b ->
  verify ip_ok mac t (address_text a) = Yes -> verify ip_ok mac t' (address_text b) = Yes -> last_value (u "sig") a = last_value (u "sig") b ->
  a_path a = a_path b /\ signed_pairs a = signed_pairs b.
Proof.
  intros ip_ok mac t t' a b NC GA GB WA WB VA VB S. destruct (verified _ _ _ _ GA VA) as (p & s & BP & PI & SA & MA). destruct (verified _ _ _ _ GB VB) as (q & s' & BQ & QI & SB & MB).
  assert (SS : s = s') by congruence. assert (E := NC _ _ (eq_trans MA (eq_trans SS (eq_sym MB)))).
  assert (W : forall x y, simple x -> before_semicolon (a_path x) y -> y = a_path x).
  { intros x y (_ & _ & N) [[-> _]|(z & X & _)]; [reflexivity|]. exfalso. apply N. rewrite X. apply in_or_app. right. left. reflexivity. }
  apply to_sign_inj in E.
  - destruct E as [E1 E2]. rewrite (W a p WA BP), (W b q WB BQ) in E1. split; [exact E1|]. rewrite !simple_read in E2 by assumption. rewrite !ddel_filter in E2. exact E2.
  - intros c I. exact (g_path_text _ _ GA c (PI c I)).
  - intros c I. exact (g_path_text _ _ GB c (QI c I)).
  - apply ddel_texts. exact (proj1 (read_facts a (g_query_text _ _ GA))).
  - apply ddel_texts. exact (proj1 (read_facts b (g_query_text _ _ GB))).
  - intros I. apply PI in I. destruct (g_path _ _ GA) as (_ & F & _). apply (F _ I). left. reflexivity.
  - intros I. apply QI in I. destruct (g_path _ _ GB) as (_ & F & _). apply (F _ I). left. reflexivity.
Qed.
Print Assumptions C42_tamper_simple_partial.
Example C42_tamper_case : let a := at_h (u "/") (u "a=1&expires=5&sig=" ++ unary (to_sign (u "/") [(u "a", u "1"); (u "expires", u "5")])) in
  verify (fun _ => false) unary 0 (address_text a) = Yes /\ good_address (fun _ => false) a /\ simple a
  /\ verify (fun _ => false) unary 0 (address_text (at_h (u "/") (u "a=2&" ++ skipn 4 (a_query a)))) = No.
Proof.
  intros a. split; [vm_compute; reflexivity|]. split; [apply at_h_good; [right; exists []; reflexivity|vm_compute; reflexivity..]|]. split; [|vm_compute; reflexivity].
  assert (P : exists code, pairs a = [(u "a", u "1"); (u "expires", u "5"); (u "sig", code)] /\ code <> []).
  { exists (unary (to_sign (u "/") [(u "a", u "1"); (u "expires", u "5")])). split; [vm_compute; reflexivity|discriminate]. }
  destruct P as (code & P & CN). split; [|split].
  - rewrite P. cbn [map fst]. repeat constructor; cbn; intros X; repeat destruct X as [X|X]; discriminate || destruct X.
  - rewrite P. intros k v [I|[I|[I|[]]]]; injection I as <- <-; [discriminate..|exact CN].
  - intros [X|[]]; discriminate X.
Qed.
