(** Theorems about responses whose content is awaited. *)
From Coq Require Import List NArith ZArith Bool Lia.
From Verif Require Import PyStr PyStrFacts Asgi HeaderModel HeaderSpec HeaderProofs HeaderProps AwModel.
Import ListNotations.

(** The names of a list of headers are written in lower case. *)
Definition small (h : headers) : Prop := forall k, In k (map fst h) -> lower k = k.

Lemma dget_values k (d : dict str) v : dget k d = Some v -> lower k = k -> values k d <> [].
Proof.
  intros H L E. apply dget_In in H. assert (I : In v (values k d)).
  { unfold values. apply in_map_iff. exists (k, v). split; [reflexivity|]. apply filter_In. split; [exact H|].
    cbn [fst]. rewrite L. apply seqb_refl. }
  rewrite E in I. destruct I.
Qed.

Lemma sd_values n k v (d : dict str) : small d -> lower k = k ->
  values n (setdefault k v d) = if seqb n k then match values k d with [] => [v] | x => x end else values n d.
Proof.
  intros S L. unfold setdefault. destruct (dget k d) as [x|] eqn:E.
  - pose proof (dget_values _ _ _ E L) as NE. destruct (seqb_spec n k) as [-> | _]; [|reflexivity].
    destruct (values k d); [contradiction | reflexivity].
  - apply dget_none in E. rewrite (dset_new k v d E). rewrite values_app, values_one. cbn [fst snd]. rewrite L, (seqb_sym k n).
    destruct (seqb_spec n k) as [-> | _]; [|apply app_nil_r].
    rewrite values_nil; [reflexivity|]. intros k' I Q. apply E. rewrite (S k' I) in Q. subst k'. exact I.
Qed.

Lemma sd_small k v (d : dict str) : small d -> lower k = k -> small (setdefault k v d).
Proof.
  intros S L. unfold setdefault. destruct (dget k d) as [x|] eqn:E; [exact S|]. apply dget_none in E. rewrite (dset_new k v d E).
  intros k' I. rewrite map_app in I. apply in_app_or in I. destruct I as [I | [<- | []]]; [now apply S | exact L].
Qed.

Lemma set_small k v h : small h -> lower k = k -> small (hset k v h).
Proof.
  intros S L k' I. destruct (step_keys h (HSet k v) k') as [H | H]; [exact I | now apply S | now subst k'].
Qed.

(** The headers that are kept of those given. *)
Definition kept (st : Z) (given : dict str) : headers := if has_entity_header_status st then remove_entity_headers given else given.
Lemma kept_in st given e : In e (kept st given) -> In e given.
Proof. unfold kept, remove_entity_headers. destruct (has_entity_header_status st); [|auto]. intro H. now apply filter_In in H. Qed.
Lemma kept_small st given : small given -> small (kept st given).
Proof.
  intros S k I. apply S. apply in_map_iff in I. destruct I as [e [<- I]]. apply in_map. now apply kept_in in I.
Qed.

Lemma cl_small : lower (u "content-length") = u "content-length". Proof. reflexivity. Qed.
Lemma ct_small : lower (u "content-type") = u "content-type". Proof. reflexivity. Qed.
Lemma cl_ct : seqb (u "content-length") (u "content-type") = false. Proof. reflexivity. Qed.

Section Same.
  Variable magic : str -> str.
  Variable charset : str.
  Variable w : deduce.

  Lemma fh_none st body m given : has_body_message st = false -> first_headers charset w st body m given = kept st given.
  Proof. intro B. unfold first_headers. rewrite B. reflexivity. Qed.
  Lemma fh_now st m given b : has_body_message st = true ->
    first_headers charset w st (Some b) m given =
    let h := setdefault (u "content-length") (dec (N.of_nat (length b))) (kept st given) in
    match get_content_type charset m with Some t => setdefault (u "content-type") t h | None => h end.
  Proof. intro B. unfold first_headers. rewrite B. destruct w; reflexivity. Qed.
  Lemma fh_found st m given : has_body_message st = true -> finds w m = true -> first_headers charset w st None m given = kept st given.
  Proof. intros B F. unfold first_headers. rewrite B. destruct w, m; try discriminate F; reflexivity. Qed.
  Lemma fh_given st m given : has_body_message st = true -> finds w m = false ->
    first_headers charset w st None m given =
    match get_content_type charset m with Some t => setdefault (u "content-type") t (kept st given) | None => kept st given end.
  Proof. intros B F. unfold first_headers. rewrite B. destruct w, m; try discriminate F; reflexivity. Qed.

  Lemma headers_same st media given b :
    small given ->
    (finds w media = true -> has_body_message st = true /\ ~ In (u "content-type") (map fst given)) ->
    let now := make magic charset w st media given (Some b) in
    let later := resolve magic charset w (make magic charset w st media given None) b in
    small (r_headers now) /\ small (r_headers later) /\ r_media now = r_media later /\
    forall n, values n (r_headers now) = values n (r_headers later).
  Proof.
    intros S F. cbv zeta. unfold make, resolve. cbn [r_status r_media r_headers r_body].
    pose proof (kept_small st given S) as K.
    destruct (finds w media) eqn:FW.
    - destruct (F eq_refl) as [B NC].
      assert (G : exists t, get_content_type charset (Some (find_media magic b media)) = Some t).
      { unfold get_content_type. destruct (prefixb _ _); eauto. }
      destruct G as [t G]. cbn [r_media r_headers r_status]. rewrite (fh_now st _ given b B), (fh_found st media given B FW), G, B.
      rewrite contains_values, cl_small.
      assert (NCK : values (u "content-type") (kept st given) = []).
      { apply values_nil. intros k I Q. rewrite (K k I) in Q. subst k. apply NC.
        apply in_map_iff in I. destruct I as [e [E I]]. rewrite <- E. apply in_map. now apply kept_in in I. }
      pose proof (sd_small (u "content-length") (dec (N.of_nat (length b))) _ K cl_small) as K1.
      refine (conj _ (conj _ (conj eq_refl _))).
      + apply sd_small; [exact K1 | reflexivity].
      + apply set_small; [|reflexivity]. destruct (true && _); [apply set_small; [exact K | reflexivity] | exact K].
      + intro n. rewrite (sd_values n _ _ _ K1 ct_small), values_set, ct_small.
        rewrite (sd_values _ _ _ _ K cl_small). rewrite (seqb_sym (u "content-type")), cl_ct, NCK.
        destruct (seqb n (u "content-type")); [reflexivity|].
        rewrite (sd_values _ _ _ _ K cl_small).
        destruct (values (u "content-length") (kept st given)) as [|x r] eqn:V; cbn [negb andb].
        * rewrite values_set, cl_small. reflexivity.
        * destruct (seqb_spec n (u "content-length")) as [-> | _]; [now rewrite V | reflexivity].
    - cbn [r_media r_headers r_status]. destruct (has_body_message st) eqn:B; cbn [andb].
      2:{ rewrite !(fh_none st _ _ given B). exact (conj K (conj K (conj eq_refl (fun _ => eq_refl)))). }
      clear F. pose proof (sd_small (u "content-length") (dec (N.of_nat (length b))) _ K cl_small) as K1.
      rewrite (fh_now st _ given b B), (fh_given st media given B FW).
      rewrite contains_values, cl_small.
      destruct (get_content_type charset media) as [t|].
      + pose proof (sd_small (u "content-type") t _ K ct_small) as K2.
        refine (conj _ (conj _ (conj eq_refl _))).
        * apply sd_small; [exact K1 | reflexivity].
        * destruct (negb _); [apply set_small; [exact K2 | reflexivity] | exact K2].
        * intro n. rewrite (sd_values n _ _ _ K1 ct_small).
          rewrite (sd_values (u "content-type") _ _ _ K cl_small), (seqb_sym (u "content-type")), cl_ct.
          rewrite (sd_values n _ _ _ K cl_small).
          rewrite (sd_values (u "content-length") _ _ _ K ct_small), cl_ct.
          destruct (values (u "content-length") (kept st given)) as [|x r] eqn:V; cbn [negb].
          -- rewrite values_set, cl_small, (sd_values n _ _ _ K ct_small).
             destruct (seqb_spec n (u "content-type")) as [-> | _]; [|reflexivity]. rewrite (seqb_sym (u "content-type")), cl_ct. reflexivity.
          -- rewrite (sd_values n _ _ _ K ct_small). destruct (seqb n (u "content-type")); [reflexivity|].
             destruct (seqb_spec n (u "content-length")) as [-> | _]; [now rewrite V | reflexivity].
      + refine (conj K1 (conj _ (conj eq_refl _))).
        * destruct (negb _); [apply set_small; [exact K | reflexivity] | exact K].
        * intro n. rewrite (sd_values n _ _ _ K cl_small).
          destruct (values (u "content-length") (kept st given)) as [|x r] eqn:V; cbn [negb].
          -- rewrite values_set, cl_small. reflexivity.
          -- destruct (seqb_spec n (u "content-length")) as [-> | _]; [now rewrite V | reflexivity].
  Qed.
End Same.

Lemma resolve_status magic charset w r b : r_status (resolve magic charset w r b) = r_status r.
Proof. unfold resolve. destruct (finds w (r_media r)); reflexivity. Qed.

(** C345: awaited content is sent as the same content given at once would be: the same status, body, and values under every
    name of a header. *)
Theorem C345_same : forall magic charset w order st media given b, set_order order ->
  (forall k, In k (map fst given) -> lower k = k) ->
  (w = Force \/ (w = IfNone /\ media = None) -> may_have_body st /\ ~ In (u "content-type") (map fst given)) ->
  exists h h',
    snd (call magic charset w order (make magic charset w st media given (Some b)) None) = [AStart st h; ABody b false] /\
    snd (call magic charset w order (make magic charset w st media given None) (Some b)) = [AStart st h'; ABody b false] /\
    forall n, values n h = values n h'.
Proof.
  intros magic charset w order st media given b O S F.
  destruct (headers_same magic charset w st media given b S) as [S1 [S2 [_ E]]].
  { intro H. destruct F as [B NC]; [|split; [now apply body_allowed | exact NC]].
    destruct w; [discriminate H | | now left]. destruct media; [discriminate H | right; auto]. }
  exists (wire order (r_headers (make magic charset w st media given (Some b)))),
    (wire order (r_headers (resolve magic charset w (make magic charset w st media given None) b))).
  split; [reflexivity|]. split.
  - unfold call. cbn [make r_body snd]. unfold respond. now rewrite resolve_status.
  - assert (W : forall h n, small h -> values n (wire order h) = values n h).
    { intros h n Sh. apply wire_values; [exact O|]. intros k k' I I' L L'. rewrite <- (Sh k I), <- (Sh k' I'). congruence. }
    intro n. rewrite !W by assumption. apply E.
Qed.
Print Assumptions C345_same.

(** C345, the length. *)
Theorem C345_length : forall magic charset w order st media given b, set_order order -> may_have_body st ->
  (forall k, In k (map fst given) -> lower k = k) -> ~ In (u "content-length") (map fst given) ->
  exists h, snd (call magic charset w order (make magic charset w st media given None) (Some b)) = [AStart st h; ABody b false] /\
    values (u "content-length") h = [dec (N.of_nat (length b))].
Proof.
  intros magic charset w order st media given b O B S NC.
  pose proof (body_allowed st B) as BM.
  pose proof (kept_small st given S) as K.
  set (h0 := first_headers charset w st None media given).
  assert (H0 : small h0 /\ values (u "content-length") h0 = []).
  { unfold h0, first_headers. rewrite BM. fold (kept st given).
    assert (V : values (u "content-length") (kept st given) = []).
    { apply values_nil. intros k I Q. rewrite (K k I) in Q. subst k. apply NC.
      apply in_map_iff in I. destruct I as [e [E I]]. rewrite <- E. apply in_map. now apply kept_in in I. }
    cbv zeta. destruct w; [| | now split]; (destruct (get_content_type charset media) as [t|]; [|now split]);
      (split; [now apply sd_small | rewrite (sd_values _ _ _ _ K ct_small), cl_ct; exact V]). }
  destruct H0 as [S0 V0]. 
  exists (wire order (r_headers (resolve magic charset w {| r_status := st; r_media := media; r_headers := h0; r_body := None |} b))).
  unfold call, make. cbn [r_body snd]. unfold respond. fold h0. split.
  - now rewrite resolve_status.
  - assert (H : small (r_headers (resolve magic charset w {| r_status := st; r_media := media; r_headers := h0; r_body := None |} b)) /\
      values (u "content-length") (r_headers (resolve magic charset w {| r_status := st; r_media := media; r_headers := h0; r_body := None |} b))
        = [dec (N.of_nat (length b))]).
    { unfold resolve. cbn [r_status r_media r_headers r_body]. rewrite BM, contains_values, cl_small, V0. cbn [negb andb].
      assert (S1 : small (hset (u "content-length") (dec (N.of_nat (length b))) h0)) by now apply set_small.
      assert (V1 : values (u "content-length") (hset (u "content-length") (dec (N.of_nat (length b))) h0) = [dec (N.of_nat (length b))])
        by (rewrite values_set, cl_small, seqb_refl; reflexivity).
      destruct (finds w media); cbn [r_headers]; [|now split].
      destruct (get_content_type charset (Some (find_media magic b media))); [|now split].
      split; [now apply set_small | rewrite values_set, ct_small, cl_ct; exact V1]. }
    destruct H as [S1 V1]. rewrite wire_values; [exact V1 | exact O |].
    intros k k' I I' L L'. rewrite <- (S1 k I), <- (S1 k' I'). congruence.
Qed.
Print Assumptions C345_length.

Example C345_case :
  (forall k, In k (map fst [(u "x-a", u "1"); (u "etag", u "2")]) -> lower k = k) /\ set_order dedup /\ may_have_body 201 /\
  snd (call (fun _ => u "text/html") (u "utf-8") Force dedup
         (make (fun _ => u "text/html") (u "utf-8") Force 201 (Some (u "text/plain")) [(u "x-a", u "1")] None) (Some (u "<p>")))
    = [AStart 201 [(u "x-a", u "1"); (u "content-length", u "3"); (u "content-type", u "text/html; charset=utf-8")]; ABody (u "<p>") false].
Proof.
  refine (conj _ (conj dedup_order (conj _ eq_refl))).
  - intros k [<- | [<- | []]]; reflexivity.
  - unfold may_have_body. lia.
Qed.

(** C346: a content type among the headers given is the one that is sent. *)
Definition kept_type (w : deduce) (st : Z) (media : option str) (given : dict str) (now : bool) (b t : str) : Prop :=
  forall magic charset order, set_order order ->
    exists h, snd (call magic charset w order (make magic charset w st media given (if now then Some b else None)) (Some b))
                = [AStart st h; ABody b false] /\ values (u "content-type") h = [t].
Definition C346_statement : Prop := forall w st media given now b t,
  st <> 304%Z -> st <> 412%Z -> NoDup (map fst given) -> (forall k, In k (map fst given) -> lower k = k) ->
  In (u "content-type", t) given -> kept_type w st media given now b t.

Theorem C346_refuted : ~ C346_statement.
Proof.
  intro H. specialize (H IfNone 200%Z None [(u "content-type", u "text/csv")] false (u "a,b") (u "text/csv")).
  destruct (H ltac:(discriminate) ltac:(discriminate)) with (magic := fun _ : str => u "text/plain") (charset := u "utf-8") (order := dedup)
    as [h [E V]].
  - repeat constructor. intros [].
  - intros k [<- | []]. reflexivity.
  - now left.
  - apply dedup_order.
  - vm_compute in E. injection E as <-. vm_compute in V. discriminate V.
Qed.
Print Assumptions C346_refuted.

Lemma values_one_key (d : headers) k v : NoDup (map fst d) -> small d -> In (k, v) d -> values k d = [v].
Proof.
  unfold values. induction d as [|[k' v'] d IH]; intros ND S I; [destruct I|]. cbn [map fst] in ND. inversion ND as [|? ? NI ND']; subst.
  assert (S' : small d) by (intros x J; apply S; now right). cbn [filter fst].
  rewrite (S k') by now left. destruct I as [E | I].
  - injection E as -> ->. rewrite seqb_refl. cbn [map snd]. f_equal. apply (values_nil k d). intros x J Q. rewrite (S' x J) in Q. now subst x.
  - destruct (seqb_spec k' k) as [-> | _].
    + exfalso. apply NI. apply in_map_iff. now exists (k, v).
    + now apply IH.
Qed.

Theorem C346_partial : forall w st media given now b t,
  st <> 304%Z -> st <> 412%Z -> NoDup (map fst given) -> (forall k, In k (map fst given) -> lower k = k) ->
  In (u "content-type", t) given ->
  now = true \/ w = Never \/ (w = IfNone /\ media <> None) -> kept_type w st media given now b t.
Proof.
  intros w st media given now b t N1 N2 ND S I C magic charset order O.
  assert (KE : has_entity_header_status st = false).
  { unfold has_entity_header_status. now rewrite (proj2 (Z.eqb_neq _ _) N1), (proj2 (Z.eqb_neq _ _) N2). }
  pose proof (values_one_key _ _ _ ND S I) as V.
  assert (SD : forall k v (d : headers), small d -> lower k = k -> values (u "content-type") d = [t] ->
    small (setdefault k v d) /\ values (u "content-type") (setdefault k v d) = [t]).
  { intros k v d Sd L Vd. split; [now apply sd_small|]. rewrite (sd_values _ _ _ _ Sd L).
    destruct (seqb_spec (u "content-type") k) as [<- | _]; [now rewrite Vd | exact Vd]. }
  assert (G : forall m body, small (first_headers charset w st body m given) /\
    values (u "content-type") (first_headers charset w st body m given) = [t]).
  { intros m body. unfold first_headers. rewrite KE. cbv iota. destruct (has_body_message st); [|now split]. cbv zeta.
    assert (H1 : small (match body with Some b0 => setdefault (u "content-length") (dec (N.of_nat (length b0))) given | None => given end) /\
      values (u "content-type") (match body with Some b0 => setdefault (u "content-length") (dec (N.of_nat (length b0))) given | None => given end) = [t]).
    { destruct body; [apply SD; auto | now split]. }
    destruct H1 as [S1 V1].
    destruct w; [ | | destruct body; [|now split] ]; (destruct (get_content_type charset m); [apply SD; auto | now split]). }
  assert (W : forall h, small h -> values (u "content-type") h = [t] -> values (u "content-type") (wire order h) = [t]).
  { intros h Sh Vh. rewrite wire_values; [exact Vh | exact O |]. intros k k' J J' L L'. rewrite <- (Sh k J), <- (Sh k' J'). congruence. }
  destruct now.
  - unfold call, make. cbn [r_body snd r_status r_headers]. eexists. split; [reflexivity|]. now apply W; apply G.
  - assert (FW : finds w media = false).
    { destruct C as [C | [-> | [-> C]]]; [discriminate | reflexivity |]. destruct media; [reflexivity | now contradiction C]. }
    unfold call, make, resolve. cbn [r_body snd r_status r_headers r_media]. rewrite FW. cbn [r_status r_headers].
    eexists. split; [reflexivity|]. destruct (G media None) as [S1 V1].
    destruct (has_body_message st && _); [|now apply W].
    apply W; [now apply set_small |]. rewrite values_set, cl_small, (seqb_sym (u "content-type")), cl_ct. exact V1.
Qed.
Print Assumptions C346_partial.

Example C346_case :
  let given := [(u "content-type", u "text/csv")] in
  NoDup (map fst given) /\ (forall k, In k (map fst given) -> lower k = k) /\ In (u "content-type", u "text/csv") given /\
  snd (call (fun _ => u "text/html") (u "utf-8") Force dedup (make (fun _ => u "text/html") (u "utf-8") Force 200 None given (Some (u "a"))) None)
    = [AStart 200 [(u "content-type", u "text/csv"); (u "content-length", u "1")]; ABody (u "a") false].
Proof.
  cbv zeta. refine (conj _ (conj _ (conj _ eq_refl))).
  - repeat constructor. intros [].
  - intros k [<- | []]. reflexivity.
  - now left.
Qed.

(** C347: a response that is called again sends the same again, whatever awaiting would give then; while awaiting fails,
    nothing is sent. *)
Theorem C347_again : forall magic charset w order st media given content fails b later,
  (forall a, In a fails -> a = None) ->
  let r := make magic charset w st media given content in
  exists h body,
    calls magic charset w order r (match content with Some _ => [] | None => fails end ++ Some b :: later)
      = map (fun _ => []) (match content with Some _ => [] | None => fails end)
        ++ map (fun _ => [AStart st h; ABody body false]) (Some b :: later) /\
    body = match content with Some c => c | None => b end.
Proof.
  intros magic charset w order st media given content fails b later F. cbv zeta.
  assert (A : forall r c, r_body r = Some c ->
    forall l, calls magic charset w order r l = map (fun _ => [AStart (r_status r) (wire order (r_headers r)); ABody c false]) l).
  { intros r c E l. induction l as [|a l IH]; [reflexivity|]. cbn [calls map]. unfold call. rewrite E. now rewrite IH. }
  destruct content as [c|].
  - eexists _, c. split; [|reflexivity]. cbn [app map]. rewrite (A _ c) by reflexivity. reflexivity.
  - set (r := make magic charset w st media given None).
    exists (wire order (r_headers (resolve magic charset w r b))), b. split; [|reflexivity].
    induction fails as [|a fails IH].
    + cbn [app map calls]. unfold call. change (r_body r) with (@None str). cbv iota beta zeta.
      assert (E : r_body (resolve magic charset w r b) = Some b /\ r_status (resolve magic charset w r b) = st).
      { unfold resolve. destruct (finds w (r_media r)); split; reflexivity. }
      destruct E as [E1 E2]. rewrite (A _ b E1), E2. reflexivity.
    + rewrite (F a) by now left. cbn [app map calls]. unfold call. change (r_body r) with (@None str). cbv iota beta.
      f_equal. apply IH. intros x I. apply F. now right.
Qed.
Print Assumptions C347_again.

Example C347_case :
  let r := make (fun _ => u "") (u "utf-8") Never 200 None [] None in
  calls (fun _ => u "") (u "utf-8") Never dedup r [None; Some (u "ab"); None; Some (u "c")] =
    [[]; [AStart 200 [(u "content-length", u "2")]; ABody (u "ab") false];
     [AStart 200 [(u "content-length", u "2")]; ABody (u "ab") false]; [AStart 200 [(u "content-length", u "2")]; ABody (u "ab") false]].
Proof. reflexivity. Qed.
