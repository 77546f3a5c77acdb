(** Property theorems for containers of named values, query strings, cookies and forms: C330-C337. *)
From Coq Require Import Permutation Sorting.Sorted.
From Verif Require Import PyStr PyStrFacts Utf8 HeaderModel HeaderSpec UrlModel UrlSpec UrlProofs CookieModel CookieSpec CookieProofs HinModel HinSpec HinProofs CollModel CollSpec CollProofs.

(** An order for sets, for the examples: the elements where they first occur. *)
Fixpoint firsts (l : list str) : list str := match l with [] => [] | x :: r => x :: filter (fun y => negb (seqb y x)) (firsts r) end.
Lemma firsts_order : set_order firsts.
Proof.
  intros l. induction l as [|x l (ND & IH)]; cbn [firsts]; [split; [constructor | tauto]|]. split.
  - constructor; [rewrite filter_In, seqb_refl; intros (_ & H); discriminate | apply NoDup_filter; exact ND].
  - intros y. cbn [In]. rewrite filter_In, IH, negb_true_iff. split; [intros [H|(H & _)]; auto|]. intros [H|H]; [left; exact H|].
    destruct (seqb y x) eqn:E; [left; symmetry; apply seqb_eq; exact E | right; split; [exact H | reflexivity]].
Qed.

(** ** C330: a cookie object *)
Definition C330_statement : Prop := forall date k jar, usable k -> (forall z, attribute_text (Some (date z))) ->
  exists line, to_header date [] k = Some line /\ client_store jar line = wanted k jar.

(** The line of a cookie whose lifetime is not zero puts it into the jar of a client, or takes it out
    if its lifetime is over. *)
Theorem C330_stored_partial : forall date k jar, usable k -> (forall z, attribute_text (Some (date z))) -> k_max_age k <> Some 0%Z ->
  exists line, to_header date [] k = Some line /\ client_store jar line = wanted k jar.
Proof.
  intros date k jar (U & P & D & S0) DT M. destruct (usable_legal _ U) as (L & R). unfold to_header. rewrite L, R. cbn [negb orb].
  eexists. split; [reflexivity|]. cbn [app].
  assert (T : forall o, attribute_text o -> text_ok o) by (intros o A t Ht; destruct (A t Ht); split; [apply strip_solid; assumption | assumption]).
  rewrite store_line; [|exact L | apply T; exact D | | apply T; exact P | apply T; exact S0].
  - unfold wanted, morsel, text_of. cbn. destruct (k_max_age k) as [z|]; [|reflexivity]. destruct (Z.eqb_spec z 0); [subst; congruence | reflexivity].
  - apply T. cbn [morsel c_expires]. destruct (k_expires k) as [z|]; [apply DT | intros t X; discriminate X].
Qed.
Print Assumptions C330_stored_partial.

(** It is the line [set_cookie] would add for the same arguments. *)
Theorem C330_like_set_cookie_partial : forall date k h line, k_max_age k <> Some 0%Z ->
  (forall s, k_samesite k = Some s -> In s [u "strict"; u "lax"; u "none"]) ->
  (to_header date [] k = Some line <->
   set_cookie {| c_key := k_key k; c_value := text_of k; c_path := k_path k; c_domain := k_domain k;
     c_secure := match k_secure k with Some true => true | _ => false end; c_max_age := k_max_age k;
     c_expires := option_map date (k_expires k); c_httponly := match k_httponly k with Some true => true | _ => false end;
     c_samesite := k_samesite k |} h = Some (h ++ [(u "set-cookie", line)])).
Proof.
  intros date k h line M SS.
  match goal with |- context [set_cookie ?c h] => assert (E : morsel date k = c) end.
  { unfold morsel, text_of. f_equal.
    - destruct (k_secure k) as [[|]|]; reflexivity.
    - destruct (k_max_age k) as [z|]; [|reflexivity]. destruct (Z.eqb_spec z 0); [subst; congruence | reflexivity].
    - destruct (k_httponly k) as [[|]|]; reflexivity. }
  rewrite <- E. unfold to_header, set_cookie. cbn [morsel c_key c_samesite]. destruct (_ || _); [split; discriminate|]. cbn [app].
  assert (H : forall x : str, Some x = Some line <-> Some (hadd (u "set-cookie") x h) = Some (h ++ [(u "set-cookie", line)])).
  { intros x. unfold hadd. split; intros H; [injection H as ->; reflexivity|]. injection H as H. apply app_inv_head in H. injection H as ->. reflexivity. }
  destruct (k_samesite k) as [s|]; [|apply H]. specialize (SS s eq_refl).
  assert (X : smem (lower s) [u "strict"; u "lax"; u "none"] = true) by (destruct SS as [<-|[<-|[<-|[]]]]; reflexivity).
  rewrite X. apply H.
Qed.
Print Assumptions C330_like_set_cookie_partial.

(** The lifetime zero, which should end the cookie at once, is not written: the cookie stays. *)
Theorem C330_refuted : ~ C330_statement.
Proof.
  intros H.
  destruct (H (fun _ => []) {| k_key := u "token"; k_value := Some (u "x"); k_max_age := Some 0%Z; k_expires := None; k_path := Some (u "/");
    k_domain := None; k_secure := None; k_httponly := None; k_samesite := Some (u "lax") |} []) as (line & E & S0).
  - refine (conj _ (conj _ (conj _ _))); cbn.
    + refine (conj _ (conj _ _)); [discriminate | reflexivity|]. intros I. cbn in I. decompose [or] I; try discriminate; assumption.
    + intros t X. injection X as <-. split; [reflexivity|]. cbn. intros [X|[]]. discriminate X.
    + intros t X. discriminate X.
    + intros t X. injection X as <-. split; [reflexivity|]. cbn. intros [X|[X|[X|[]]]]; discriminate X.
  - intros z t X. injection X as <-. split; [reflexivity | intros []].
  - vm_compute in E. injection E as <-. vm_compute in S0. discriminate S0.
Qed.
Print Assumptions C330_refuted.
Example C330_case : to_header (fun _ => u "Thu, 01 Jan 1970 00:00:05 GMT") (u "Set-Cookie:")
  {| k_key := u "token"; k_value := Some (u "a b"); k_max_age := Some 60%Z; k_expires := Some 5%Z; k_path := Some (u "/");
     k_domain := None; k_secure := Some true; k_httponly := Some false; k_samesite := Some (u "strict") |}
  = Some (u "Set-Cookie: token=""a b""; expires=Thu, 01 Jan 1970 00:00:05 GMT; Max-Age=60; Path=/; SameSite=strict; Secure").
Proof. vm_compute. reflexivity. Qed.

(** ** C331: reading a query string *)
Definition C331_statement : Prop := forall b, exists l, query_of_bytes b = Good l.
(** A query string can be read exactly when it is UTF-8, ... *)
Theorem C331_readable_partial : forall b, (exists l, query_of_bytes b = Good l) <-> utf8 b.
Proof.
  intros b. unfold query_of_bytes. split.
  - intros (l & H). destruct (decode_strict b) as [t|e] eqn:E; [|discriminate]. exists t. apply decode_strict_says. exact E.
  - intros (t & H). apply decode_strict_says in H. rewrite H. eexists. reflexivity.
Qed.
Print Assumptions C331_readable_partial.
(** ... and one that a client encoded is read back as the pairs it encoded. *)
Theorem C331_encoded_partial : forall l, texts l -> query_of_bytes (urlencode l) = Good l.
Proof.
  intros l T. unfold query_of_bytes. assert (E : decode_strict (urlencode l) = Good (urlencode l)).
  { apply decode_strict_says. apply plain_says, encode_ascii. exact T. }
  rewrite E, (parse_encode l T). reflexivity.
Qed.
Print Assumptions C331_encoded_partial.
Theorem C331_refuted : ~ C331_statement.
Proof. intros H. destruct (H [113; 61; 233]%N) as (l & E). vm_compute in E. discriminate E. Qed.
Print Assumptions C331_refuted.
Example C331_case : query_of_bytes (u "q=caf%C3%A9&q=&n=1+2") = Good [(u "q", u "caf" ++ [233%N]); (u "q", []); (u "n", u "1 2")].
Proof. vm_compute. reflexivity. Qed.

(** ** C332: writing parameters back *)
Definition C332_statement : Prop := forall order l k vs, set_order order -> texts l ->
  holds k l vs -> holds k (query_of_text (query_text order l)) vs.
(** The text of the parameters is read back to equal parameters: each name has the same values,
    sorted, ... *)
Theorem C332_same_partial : forall order l, set_order order -> texts l ->
  let l' := query_of_text (query_text order l) in
  Permutation l' l /\ forall k vs vs', holds k l vs -> holds k l' vs' -> Permutation vs vs' /\ StronglySorted (fun a b => str_leb a b = true) vs'.
Proof.
  intros order l O T l'.
  assert (TS : texts (sorted (mitems order l))).
  { apply (texts_perm l); [|exact T]. rewrite sorted_perm. symmetry. apply items_perm. exact O. }
  assert (E : l' = sorted (mitems order l)) by (apply parse_encode; exact TS).
  assert (P : Permutation l' l) by (rewrite E, sorted_perm; apply items_perm; exact O).
  split; [exact P|]. intros k vs vs' H H'. apply holds_getall in H, H'. subst vs vs'. split.
  - apply getall_perm. symmetry. exact P.
  - rewrite E. apply sorted_values, sorted_sorted.
Qed.
Print Assumptions C332_same_partial.
(** ... so a name with one value, or with sorted values, reads as before. *)
Theorem C332_kept_partial : forall order l k vs, set_order order -> texts l -> holds k l vs ->
  StronglySorted (fun a b => str_leb a b = true) vs -> holds k (query_of_text (query_text order l)) vs.
Proof.
  intros order l k vs O T H S0. destruct (C332_same_partial order l O T) as (_ & X).
  destruct (X k vs (mgetall k (query_of_text (query_text order l))) H) as (P & S1); [apply holds_getall; reflexivity|].
  apply holds_getall. apply texts_unique; assumption.
Qed.
Print Assumptions C332_kept_partial.
(** Equal parameters have the same text, whatever order the sets have. *)
Theorem C332_canonical_partial : forall order order' a b, set_order order -> set_order order' ->
  Permutation a b -> query_text order a = query_text order' b.
Proof.
  intros order order' a b O O' P. unfold query_text. f_equal. apply sorted_eq. rewrite (items_perm order a O), (items_perm order' b O'). exact P.
Qed.
Print Assumptions C332_canonical_partial.
Theorem C332_refuted : ~ C332_statement.
Proof.
  intros H. specialize (H firsts [(u "s", u "b"); (u "s", u "a")] (u "s") [u "b"; u "a"] firsts_order).
  apply holds_getall in H.
  - vm_compute in H. discriminate H.
  - intros k v [X|[X|[]]]; injection X as <- <-; split; intros c I; vm_compute in I; destruct I as [<-|[]]; vm_compute; tauto.
  - apply holds_getall. reflexivity.
Qed.
Print Assumptions C332_refuted.
Example C332_case : query_text firsts [(u "z", u "1"); (u "a", u "x y"); (u "z", u "0")] = u "a=x+y&z=0&z=1".
Proof. vm_compute. reflexivity. Qed.

(** ** C333: equality of containers *)
(** Two containers are equal exactly when they hold the same pairs the same number of times. *)
Theorem C333 : forall order order' a b, set_order order -> set_order order' -> (multi_eq order order' a b = true <-> Permutation a b).
Proof.
  intros order order' a b O O'. unfold multi_eq. rewrite pairs_eqb_eq, sorted_eq, (items_perm order a O), (items_perm order' b O'). reflexivity.
Qed.
Print Assumptions C333.
Example C333_case : multi_eq firsts firsts [(u "a", u "1"); (u "b", u "2"); (u "a", u "3")] [(u "b", u "2"); (u "a", u "3"); (u "a", u "1")] = true
  /\ multi_eq firsts firsts [(u "a", u "1"); (u "a", u "1")] [(u "a", u "1")] = false.
Proof. split; vm_compute; reflexivity. Qed.

(** ** C334: equal containers read alike *)
Definition C334_statement : Prop := forall order order' a b k, set_order order -> set_order order' ->
  multi_eq order order' a b = true -> mget k a = mget k b.
Theorem C334_refuted : ~ C334_statement.
Proof.
  intros H. specialize (H firsts firsts [(u "a", u "1"); (u "a", u "2")] [(u "a", u "2"); (u "a", u "1")] (u "a") firsts_order firsts_order eq_refl).
  discriminate H.
Qed.
Print Assumptions C334_refuted.
(** They hold the same values under every name, and a name with one value reads alike. *)
Theorem C334_values_partial : forall order order' a b k vs vs', set_order order -> set_order order' ->
  multi_eq order order' a b = true -> holds k a vs -> holds k b vs' -> Permutation vs vs' /\ ((length vs <= 1)%nat -> mget k a = mget k b).
Proof.
  intros order order' a b k vs vs' O O' E H H'. apply (C333 order order' a b O O') in E. apply holds_getall in H, H'.
  pose proof (getall_perm k a b E) as P. rewrite <- H, <- H' in P. split; [exact P|]. intros L. unfold mget. rewrite <- H, <- H'. clear H H'.
  destruct vs as [|v [|w vs]]; [apply Permutation_nil in P; subst; reflexivity | apply Permutation_length_1_inv in P; subst; reflexivity | cbn in L; lia].
Qed.
Print Assumptions C334_values_partial.
(** Two forms with two files under one name cannot even be compared: sorting them raises. *)
Theorem C334_files_refuted : forall order k m n, set_order order -> m <> n ->
  sorted_two (mitems order [(k, FFile m); (k, FFile n)]) = Some None.
Proof.
  intros order k m n O NE.
  assert (E : order [k; k] = [k]).
  { destruct (O [k; k]) as (ND & I). destruct (order [k; k]) as [|a [|b r]] eqn:E.
    - exfalso. apply (I k). left. reflexivity.
    - assert (X : In a [k; k]) by (apply I; left; reflexivity). destruct X as [<-|[<-|[]]]; reflexivity.
    - exfalso. assert (X : In a [k; k]) by (apply I; left; reflexivity). assert (Y : In b [k; k]) by (apply I; right; left; reflexivity).
      inversion ND as [|? ? NI _]; subst. apply NI. left. cbn in X, Y. intuition congruence. }
  unfold mitems. cbn [map fst]. rewrite E. unfold mgetall. cbn [flat_map filter fst]. rewrite !seqb_refl. cbn [map snd app sorted_two].
  unfold entry_ltb. cbn [fst snd]. rewrite seqb_refl. cbn [value_eqb value_ltb]. destruct (Nat.eqb_spec n m); [subst; contradiction | reflexivity].
Qed.
Print Assumptions C334_files_refuted.

(** ** C335: lists, dictionaries and copies *)
(** [getlist], [dict()] and the copies in both directions give every name its values in order;
    [dict()] has each name once, and no other. *)
Theorem C335 : forall V order (l : list (str * V)) k vs, set_order order -> holds k l vs ->
  mgetlist order k l = vs /\ holds k (mutablecopy order l) vs /\ holds k (to_immutable l) vs
  /\ NoDup (map fst (as_dict order l)) /\ dget k (as_dict order l) = (match vs with [] => None | _ => Some vs end)
  /\ Permutation (mutablecopy order l) l.
Proof.
  intros V order l k vs O H. pose proof H as H0. apply holds_getall in H. refine (conj _ (conj _ (conj H0 (conj _ (conj _ _))))).
  - rewrite H. apply items_getall. exact O.
  - apply holds_getall. rewrite H. symmetry. apply items_getall. exact O.
  - unfold as_dict. rewrite map_map, map_id. apply O.
  - assert (G : forall ks, dget k (map (fun k => (k, mgetall k l)) ks) = if smem k ks then Some (mgetall k l) else None).
    { induction ks as [|x ks IH]; [reflexivity|]. cbn [map dget]. unfold smem. cbn [existsb]. fold (smem k ks). destruct (seqb k x) eqn:E; [|exact IH]. apply seqb_eq in E. subst x. reflexivity. }
    unfold as_dict. rewrite G, H. destruct (smem k (order (map fst l))) eqn:M.
    + apply smem_In, O, in_map_iff in M. destruct M as ((a, v) & X & I). cbn in X. subst a.
      assert (X : In v (mgetall k l)) by (apply in_map_iff; exists (k, v); split; [reflexivity | apply filter_In; split; [exact I | apply seqb_refl]]).
      destruct (mgetall k l); [destruct X | reflexivity].
    + destruct (mgetall k l) as [|v r] eqn:E; [reflexivity|]. exfalso.
      assert (X : In v (mgetall k l)) by (rewrite E; left; reflexivity). apply in_map_iff in X. destruct X as ((a, w) & X & I). apply filter_In in I. destruct I as (I & Q). apply seqb_eq in Q. cbn in Q. subst a.
      assert (Y : In k (order (map fst l))) by (apply O, (in_map fst _ _ I)). apply smem_In in Y. congruence.
  - apply items_perm. exact O.
Qed.
Print Assumptions C335.
Example C335_case : as_dict firsts [(u "a", 1); (u "b", 2); (u "a", 3)] = [(u "a", [1; 3]); (u "b", [2])]
  /\ holds (u "a") [(u "a", 1); (u "b", 2); (u "a", 3)] [1; 3].
Proof. split; [vm_compute; reflexivity | apply holds_getall; reflexivity]. Qed.

(** ** C336: the dictionary without duplicates *)
Definition C336_statement : Prop := forall V (l : list (str * V)) k, dget k (dump l) = mget k l.
(** Every name is there once, with its last value ... *)
Theorem C336_last_partial : forall V (l : list (str * V)) k vs, holds k l vs ->
  NoDup (map fst (dump l)) /\ dget k (dump l) = hd_error (rev vs).
Proof.
  intros V l k vs H. apply holds_getall in H. subst vs. unfold dump. split.
  - assert (G : forall (e : list (str * V)) d, NoDup (map fst d) -> NoDup (map fst (dupdate d e))).
    { induction e as [|(a, v) e IH]; intros d ND; [exact ND|]. apply (IH (dset a v d)).
      clear IH. induction d as [|(x, y) d IHd]; cbn [dset map fst]; [repeat constructor; intros []|]. inversion ND as [|? ? NI ND']; subst. destruct (seqb a x) eqn:E.
      - apply seqb_eq in E. subst. cbn [map fst]. constructor; assumption.
      - cbn [map fst]. constructor; [|apply IHd; exact ND']. intros I. apply NI. assert (D : In x (map fst (dset a v d)) -> In x (map fst d) \/ x = a).
        { clear. induction d as [|(p, q) d IH]; cbn [dset map fst]; [intros [X|[]]; auto|]. destruct (seqb a p) eqn:E; cbn [map fst In]; [apply seqb_eq in E; subst; tauto|]. intros [X|X]; [auto|]. destruct (IH X); auto. }
        destruct (D I) as [X|X]; [exact X|]. subst. rewrite seqb_refl in E. discriminate. }
    apply G. constructor.
  - rewrite dget_dupdate_rev. unfold mgetall. rewrite <- map_rev. 
    assert (G : forall (r : list (str * V)), dget k r = hd_error (map snd (filter (fun e => seqb (fst e) k) r))).
    { induction r as [|(a, v) r IH]; cbn [dget filter fst]; [reflexivity|]. rewrite (seqb_sym' k a). destruct (seqb a k); [reflexivity | exact IH]. }
    assert (F : forall (p : str * V -> bool) r, filter p (rev r) = rev (filter p r)).
    { intros p. induction r as [|e r IH]; [reflexivity|]. cbn [rev filter]. rewrite filter_app, IH. cbn [filter]. destruct (p e); [reflexivity | apply app_nil_r]. }
    rewrite G, F. reflexivity.
Qed.
Print Assumptions C336_last_partial.
(** ... while reading the container gives the first. *)
Theorem C336_refuted : ~ C336_statement.
Proof. intros H. specialize (H str [(u "a", u "1"); (u "a", u "2")] (u "a")). vm_compute in H. discriminate H. Qed.
Print Assumptions C336_refuted.
Example C336_case : dump [(u "a", 1); (u "b", 2); (u "a", 3)] = [(u "a", 3); (u "b", 2)].
Proof. vm_compute. reflexivity. Qed.

(** ** C337: closing a form *)
Definition C337_statement : Prop := forall order raises l n, set_order order ->
  is_file l n -> raises n = false -> In n (fst (form_close order raises l)).
(** If no file fails to close, all of them are closed, and nothing else. *)
Theorem C337_closed_partial : forall order raises l, set_order order -> (forall n, is_file l n -> raises n = false) ->
  snd (form_close order raises l) = true /\ forall n, In n (fst (form_close order raises l)) <-> is_file l n.
Proof.
  intros order raises l O R. pose proof (items_perm order l O) as P. unfold form_close. rewrite close_some.
  - cbn [fst snd]. split; [reflexivity|]. intros n. rewrite in_flat_map. split.
    + intros ((k, [t|m]) & I & X); [destruct X|]. destruct X as [<-|[]]. exists k. apply (Permutation_in _ P). exact I.
    + intros (k & I). exists (k, FFile n). split; [apply (Permutation_in _ (Permutation_sym P)); exact I | left; reflexivity].
  - apply Forall_forall. intros (k, [t|m]) I; cbn [snd]; [exact Logic.I|]. apply R. exists k. apply (Permutation_in _ P). exact I.
Qed.
Print Assumptions C337_closed_partial.
(** One that fails leaves those after it open. *)
Theorem C337_refuted : ~ C337_statement.
Proof.
  intros H. specialize (H firsts (fun n => Nat.eqb n 1) [(u "a", FFile 1); (u "b", FFile 2)] 2 firsts_order).
  vm_compute in H. apply H; [exists (u "b"); right; left; reflexivity | reflexivity].
Qed.
Print Assumptions C337_refuted.
Example C337_case : form_close firsts (fun _ => false) [(u "a", FFile 1); (u "t", FText (u "x")); (u "a", FFile 2)] = ([1; 2], true).
Proof. vm_compute. reflexivity. Qed.
