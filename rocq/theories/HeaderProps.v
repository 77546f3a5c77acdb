(** C25, C54, C55, C56: header containers and the headers of plain responses. *)
From Verif Require Import PyStr PyStrFacts Asgi HeaderModel HeaderSpec HeaderProofs.

(** An order for sets that keeps the first occurrences, for the examples. *)
Fixpoint dedup (l : list str) : list str :=
  match l with [] => [] | x :: r => x :: filter (fun y => negb (seqb x y)) (dedup r) end.
Lemma dedup_order : set_order dedup.
Proof.
  intros l. induction l as [|x l (ND & SE)]; cbn [dedup]; [split; [constructor | tauto]|]. split.
  - constructor; [rewrite filter_In, seqb_refl; cbn; intuition discriminate | apply NoDup_filter; exact ND].
  - intros y. cbn [In]. rewrite filter_In, SE. destruct (seqb_spec x y); cbn; intuition congruence.
Qed.

(** *** C25 *)
(** Every history of operations: reading by any capitalisation gives the values of the abstract map,
    and the operations give the abstract map's results. *)
Theorem C25_reads : forall ops k,
  hgetall k (fst (hrun [] ops)) = fst (arun empty ops) (lower k) /\
  hget k (fst (hrun [] ops)) = hd_error (fst (arun empty ops) (lower k)) /\
  (hcontains k (fst (hrun [] ops)) = true <-> fst (arun empty ops) (lower k) <> []) /\
  snd (hrun [] ops) = snd (arun empty ops).
Proof.
  intros ops k. destruct (run_agrees ops [] empty) as (A & E); [intros n; reflexivity|].
  unfold hget. rewrite contains_values, getall_values, A. repeat split; try assumption.
  - destruct (fst (arun empty ops) (lower k)); [discriminate | intros _; discriminate].
  - destruct (fst (arun empty ops) (lower k)); [congruence | reflexivity].
Qed.
Print Assumptions C25_reads.

(** The lines given to the server should be the values of the map. *)
Definition C25_wire_statement : Prop := forall order ops n, set_order order ->
  values n (wire order (fst (hrun [] ops))) = fst (arun empty ops) n.
(** They are not: two spellings of a name make every value appear twice. *)
Definition two_spellings : list hop := [HAdd (u "Set-Cookie") (u "a=1"); HAdd (u "set-cookie") (u "b=2")].
Theorem C25_wire_refuted : ~ C25_wire_statement.
Proof. intros H. specialize (H dedup two_spellings (u "set-cookie") dedup_order). vm_compute in H. discriminate H. Qed.
Print Assumptions C25_wire_refuted.

(** They are when the program spells the name in one way. *)
Theorem C25_wire_partial : forall order ops n, set_order order -> one_spelling ops n ->
  values n (wire order (fst (hrun [] ops))) = fst (arun empty ops) n.
Proof.
  intros order ops n O U. destruct (run_agrees ops [] empty) as (A & _); [intros m; reflexivity|]. rewrite <- A.
  apply wire_values; [exact O|]. intros k k' H H' L L'.
  destruct (run_keys ops [] k H) as [[]|(o & I1 & ->)]. destruct (run_keys ops [] k' H') as [[]|(o' & I2 & ->)].
  apply U; assumption.
Qed.
Print Assumptions C25_wire_partial.
Example C25_wire_example : one_spelling [HAdd (u "Set-Cookie") (u "a=1"); HAdd (u "x-a") (u "0"); HAdd (u "Set-Cookie") (u "b=2")] (u "set-cookie").
Proof. intros o o' [<-|[<-|[<-|[]]]] [<-|[<-|[<-|[]]]] L L'; try reflexivity; vm_compute in L, L'; discriminate. Qed.

(** [getlist] and [poplist] should read like the map; they look for the spelling, and [poplist]
    takes out only one of the values it returns. *)
Definition C25_getlist_statement : Prop := forall order ops k, set_order order ->
  getlist order k (fst (hrun [] ops)) = fst (arun empty ops) (lower k).
Theorem C25_getlist_refuted : ~ C25_getlist_statement.
Proof. intros H. specialize (H dedup [HAdd (u "Cookie") (u "a=1")] (u "cookie") dedup_order). vm_compute in H. discriminate H. Qed.
Print Assumptions C25_getlist_refuted.

Theorem C25_getlist_partial : forall order ops k, set_order order ->
  (forall o, In o ops -> lower (op_key o) = lower k -> op_key o = k) ->
  getlist order k (fst (hrun [] ops)) = fst (arun empty ops) (lower k).
Proof.
  intros order ops k O U. destruct (run_agrees ops [] empty) as (A & _); [intros m; reflexivity|]. rewrite <- A.
  assert (UK : forall k', In k' (map fst (fst (hrun [] ops))) -> lower k' = lower k -> k' = k).
  { intros k' H L. destruct (run_keys ops [] k' H) as [[]|(o & I1 & ->)]. apply U; assumption. }
  destruct (smem k (map fst (fst (hrun [] ops)))) eqn:E.
  - apply getlist_values; [exact O | apply smem_In; exact E | exact UK].
  - apply smem_not_In in E.
    rewrite (values_nil (lower k)) by (intros k' H L; apply E; rewrite <- (UK k' H L); exact H).
    unfold getlist. rewrite filter_all_false; [reflexivity|]. intros (k', v) H. cbn [fst].
    apply seqb_neq. intros ->. apply E. unfold multi_items in H. apply in_flat_map in H. destruct H as (k2 & Hk2 & H).
    apply in_map_iff in H. destruct H as (v2 & X & _). injection X as -> _. apply (O _). exact Hk2.
Qed.
Print Assumptions C25_getlist_partial.
Example C25_getlist_example : forall o, In o [HAdd (u "cookie") (u "a=1"); HSet (u "host") (u "h"); HAdd (u "cookie") (u "b=2")] ->
  lower (op_key o) = lower (u "cookie") -> op_key o = u "cookie".
Proof. intros o [<-|[<-|[<-|[]]]] L; try reflexivity; vm_compute in L; discriminate. Qed.

Definition C25_poplist_statement : Prop := forall order h k vs h', set_order order ->
  poplist order k h = Some (vs, h') -> vs = hgetall k h /\ hgetall k h' = [].
Theorem C25_poplist_refuted : ~ C25_poplist_statement.
Proof.
  intros H. specialize (H dedup [(u "a", u "1"); (u "a", u "2")] (u "a") [u "1"; u "2"] [(u "a", u "2")] dedup_order eq_refl).
  destruct H as (_ & H). discriminate H.
Qed.
Print Assumptions C25_poplist_refuted.

(** *** C54 *)
(** The full claim: a response that may have a body announces its length, once. *)
Definition C54_statement : Prop := forall order st body charset media given, set_order order -> may_have_body st ->
  values (u "content-length") (wire order (fst (make_headers st body charset media given))) = [dec (N.of_nat (length body))].
Theorem C54_refuted : ~ C54_statement.
Proof.
  intros H. specialize (H dedup 200%Z (u "hello") (u "utf-8") None [(u "Content-Length", u "5")] dedup_order ltac:(repeat split; lia)).
  vm_compute in H. discriminate H.
Qed.
Print Assumptions C54_refuted.
(** The caller's dict keeps the length of the first response made with it. *)
Theorem C54_shared_headers_refuted : exists given, dget (u "content-length") given = None /\
  let '(_, given') := make_headers 200 (u "hello") (u "utf-8") None given in
  values (u "content-length") (wire dedup (fst (make_headers 200 (u "longer body") (u "utf-8") None given'))) = [u "5"].
Proof. exists [(u "x-a", u "1")]. vm_compute. split; reflexivity. Qed.
Print Assumptions C54_shared_headers_refuted.

(** What holds: when the caller's headers hold no length under any spelling, the response is one
    start and one body, and announces the length of that body exactly once. *)
Theorem C54_length_partial : forall order st body charset media given, set_order order -> may_have_body st ->
  (forall k, In k (dkeys given) -> lower k <> u "content-length") ->
  exists hs, respond order st (fst (make_headers st body charset media given)) body = [AStart st hs; ABody body false] /\
    values (u "content-length") hs = [dec (N.of_nat (length body))].
Proof.
  intros order st body charset media given O B0 F. assert (B := body_allowed st B0). eexists. split; [reflexivity|].
  rewrite wire_values; [apply made_length; assumption | exact O|].
  assert (U : forall k, In k (map fst (fst (make_headers st body charset media given))) -> lower k = u "content-length" -> k = u "content-length").
  { intros k H L. apply in_map_iff in H. destruct H as ((k', v) & E & H). cbn in E. subst k'.
    destruct (made_keys _ _ _ _ _ _ _ H) as [H1|(_ & [H1|H1])].
    - exfalso. apply (F k); [|exact L]. apply in_map_iff. exists (k, v). split; [reflexivity | exact H1].
    - exact H1.
    - subst k. vm_compute in L. discriminate L. }
  intros k k' H H' L L'. rewrite (U k H L), (U k' H' L'). reflexivity.
Qed.
Print Assumptions C54_length_partial.
Example C54_example : may_have_body 200 /\ (forall k, In k (dkeys [(u "X-A", u "1"); (u "Content-Type", u "text/html")]) -> lower k <> u "content-length").
Proof. split; [repeat split; lia|]. intros k [<-|[<-|[]]]; vm_compute; discriminate. Qed.

(** A response without a body should carry none; it is sent whatever the status. *)
Definition C54_bodyless_statement : Prop := forall order st h body, ~ may_have_body st -> abytes (respond order st h body) = [].
Theorem C54_bodyless_refuted : ~ C54_bodyless_statement.
Proof. intros H. specialize (H dedup 204%Z [] (u "x") ltac:(intros (_ & X & _); congruence)). vm_compute in H. discriminate H. Qed.
Print Assumptions C54_bodyless_refuted.

(** *** C55 *)
(** The tokens of all Vary lines. *)
Definition vary_tokens (h : headers) : list str := flat_map (fun v => map strip (split_char 44 v)) (hgetall (u "vary") h).
Definition C55_statement : Prop := forall h v,
  vary_tokens (add_vary_header v h) = vary_tokens h ++ map strip (split_char 44 v).
Theorem C55_refuted : ~ C55_statement.
Proof.
  intros H. specialize (H [(u "vary", u "Cookie"); (u "vary", u "Origin")] (u "Accept-Encoding")). vm_compute in H. discriminate H.
Qed.
Print Assumptions C55_refuted.
Theorem C55_vary_partial : forall h v, length (hgetall (u "vary") h) <= 1 ->
  vary_tokens (add_vary_header v h) = vary_tokens h ++ map strip (split_char 44 v) /\
  (forall k, lower k <> u "vary" -> hgetall k (add_vary_header v h) = hgetall k h).
Proof.
  intros h v L. split.
  - unfold vary_tokens, add_vary_header, hget. rewrite !getall_values in *. change (lower (u "vary")) with (u "vary") in *.
    rewrite values_set. change (seqb (u "vary") (lower (u "vary"))) with true. cbv iota.
    destruct (values (u "vary") h) as [|x [|y r]]; [| |cbn in L; lia]; cbn [hd_error flat_map]; rewrite ?app_nil_r; [reflexivity|].
    cbn [join]. change (u ", ") with [44%N; 32%N]. cbn [app]. rewrite split_char_mid, map_app. f_equal. apply tokens_pad. discriminate.
  - intros k N. rewrite !getall_values. unfold add_vary_header. rewrite values_set.
    assert (seqb (lower k) (lower (u "vary")) = false) as -> by (apply seqb_neq; exact N). reflexivity.
Qed.
Print Assumptions C55_vary_partial.
Example C55_example : length (hgetall (u "vary") [(u "Vary", u "Cookie, Origin"); (u "x-a", u "1")]) = 1.
Proof. reflexivity. Qed.

(** *** C56 *)
(** A 304 carries no entity header but Content-Location and Expires, whatever the program gives. *)
Theorem C56_not_modified : forall order body charset media given k v, set_order order ->
  In (k, v) (wire order (fst (make_headers 304 body charset media given))) ->
  (~ In (lower k) rfc_entity \/ lower k = u "content-location" \/ lower k = u "expires") /\ In v (values (lower k) given).
Proof.
  intros order body charset media given k v O H. unfold wire, multi_items in H. apply in_flat_map in H. destruct H as (k' & Hk & H).
  apply in_map_iff in H. destruct H as (v' & E & Hv). injection E as -> ->. rewrite getall_values in Hv.
  apply (proj1 (proj2 (O _) k)) in Hk. apply in_map_iff in Hk. destruct Hk as ((k2, v2) & E & Hk). cbn in E. subst k2.
  change (fst (make_headers 304 body charset media given)) with (remove_entity_headers given) in *. split.
  - unfold remove_entity_headers in Hk. apply filter_In in Hk. destruct Hk as (_ & Hk). cbn [fst] in Hk. apply orb_true_iff in Hk.
    destruct Hk as [Hk|Hk]; [left; apply not_entity; apply negb_true_iff; exact Hk|]. right. apply smem_In in Hk. destruct Hk as [Hk|[Hk|[]]]; auto.
  - apply values_keys_in in Hv. destruct Hv as (k2 & Hv & L). unfold remove_entity_headers in Hv. apply filter_In in Hv. destruct Hv as (Hv & _).
    unfold values. apply in_map_iff. exists (k2, v). split; [reflexivity|]. apply filter_In. split; [exact Hv | apply seqb_eq; exact L].
Qed.
Print Assumptions C56_not_modified.
(** Headers that describe no entity are kept. *)
Theorem C56_kept : forall order body charset media given n, set_order order ->
  ~ In n rfc_entity -> n <> u "extension-header" ->
  (forall k k', In k (dkeys given) -> In k' (dkeys given) -> lower k = n -> lower k' = n -> k = k') ->
  values n (wire order (fst (make_headers 304 body charset media given))) = values n given.
Proof.
  intros order body charset media given n O E0 E1 U. assert (E := entity_rfc n E0 E1). change (fst (make_headers 304 body charset media given)) with (remove_entity_headers given).
  assert (I : forall k, In k (map fst (remove_entity_headers given)) -> In k (dkeys given)).
  { intros k H. unfold remove_entity_headers, dkeys in *. rewrite in_map_iff in *. destruct H as (e & X & H). apply filter_In in H. exists e. tauto. }
  rewrite wire_values; [|exact O | intros k k' H H'; apply U; apply I; assumption].
  unfold values, remove_entity_headers. rewrite filter_filter. f_equal. apply filter_ext. intros e.
  destruct (seqb_spec (lower (fst e)) n) as [L|]; [|reflexivity]. unfold is_entity_header. rewrite L, E. reflexivity.
Qed.
Print Assumptions C56_kept.
Example C56_example : In (u "etag", u "x") (wire dedup (fst (make_headers 304 (u "b") (u "utf-8") (Some (u "text/html")) [(u "etag", u "x"); (u "Content-Type", u "t"); (u "Expires", u "e")])))
  /\ In (u "Expires", u "e") (wire dedup (fst (make_headers 304 (u "b") (u "utf-8") (Some (u "text/html")) [(u "etag", u "x"); (u "Content-Type", u "t"); (u "Expires", u "e")]))).
Proof. vm_compute. auto. Qed.

(** *** C313 *)
Lemma made_type st body charset media given :
  (forall k, In k (dkeys given) -> lower k <> u "content-type") -> has_body_message st = true ->
  values (u "content-type") (fst (make_headers st body charset media given)) = match get_content_type charset media with Some t => [t] | None => [] end.
Proof.
  intros F B. unfold make_headers. cbn [fst]. rewrite B.
  set (g := if has_entity_header_status st then remove_entity_headers given else given).
  assert (G : forall k, In k (dkeys g) -> lower k <> u "content-type").
  { intros k Hk. apply F. unfold g in Hk. destruct (has_entity_header_status st); [|exact Hk]. unfold dkeys, remove_entity_headers in *.
    rewrite in_map_iff in *. destruct Hk as (e & E & Hk). apply filter_In in Hk. exists e. tauto. }
  set (h := setdefault (u "content-length") (dec (N.of_nat (length body))) g).
  assert (I : forall k, In k (dkeys h) -> lower k <> u "content-type").
  { intros k. unfold h. destruct (setdefault_app (u "content-length") (dec (N.of_nat (length body))) g) as [(_ & ->)|(_ & ->)]; [|apply G].
    unfold dkeys. rewrite map_app, in_app_iff. intros [H|[H|[]]]; [apply G; exact H|]. cbn [fst] in H. subst k. discriminate. }
  assert (V : values (u "content-type") h = []) by (apply values_nil; exact I).
  destruct (get_content_type charset media) as [t|]; [|exact V].
  destruct (setdefault_app (u "content-type") t h) as [(_ & ->)|(X & _)].
  - rewrite values_app, V. reflexivity.
  - exfalso. apply X. apply dget_none. intros J. apply (I _ J). reflexivity.
Qed.
(** A response that may have a body and whose headers name no content type gets the one of its media type, once: with the charset after
    the types of text and as it is otherwise, and none without a media type. *)
Theorem C313 : forall order st body charset media given, set_order order -> may_have_body st ->
  (forall k, In k (dkeys given) -> lower k <> u "content-type") ->
  let sent := values (u "content-type") (wire order (fst (make_headers st body charset media given))) in
  (forall sub, media = Some (u "text/" ++ sub) -> sent = [u "text/" ++ sub ++ u "; charset=" ++ charset])
  /\ (forall m, media = Some m -> (forall sub, m <> u "text/" ++ sub) -> sent = [m])
  /\ (media = None -> sent = []).
Proof.
  intros order st body charset media given O B0 F. assert (B := body_allowed st B0). cbv zeta.
  rewrite wire_values, made_type; [|exact F|exact B|exact O|].
  - refine (conj _ (conj _ _)).
    + intros sub ->. unfold get_content_type. assert (X : prefixb (u "text/") (u "text/" ++ sub) = true) by (apply prefixb_iff; exists sub; reflexivity).
      rewrite X. rewrite <- app_assoc. reflexivity.
    + intros m -> NT. unfold get_content_type. destruct (prefixb (u "text/") m) eqn:X; [|reflexivity]. apply prefixb_iff in X as (sub & ->). contradiction (NT sub). reflexivity.
    + intros ->. reflexivity.
  - assert (U : forall k, In k (map fst (fst (make_headers st body charset media given))) -> lower k = u "content-type" -> k = u "content-type").
    { intros k H L. apply in_map_iff in H. destruct H as ((k', v) & E & H). cbn in E. subst k'.
      destruct (made_keys _ _ _ _ _ _ _ H) as [H1|(_ & [H1|H1])].
      - exfalso. apply (F k); [|exact L]. apply in_map_iff. exists (k, v). split; [reflexivity | exact H1].
      - subst k. vm_compute in L. discriminate L.
      - exact H1. }
    intros k k' H H' L L'. rewrite (U k H L), (U k' H' L'). reflexivity.
Qed.
Print Assumptions C313.
Example C313_case : may_have_body 200 /\ (forall k, In k (dkeys [(u "X-A", u "1"); (u "etag", u "x")]) -> lower k <> u "content-type")
  /\ values (u "content-type") (wire dedup (fst (make_headers 200 (u "b") (u "utf-8") (Some (u "application/json")) [(u "X-A", u "1"); (u "etag", u "x")]))) = [u "application/json"].
Proof. split; [repeat split; lia|]. split; [intros k [<-|[<-|[]]]; vm_compute; discriminate|vm_compute; reflexivity]. Qed.
