From Verif Require Import PyStr PyStrFacts Asgi HeaderModel HeaderSpec.

Lemma same_name_spec a b : same_name a b = true <-> lower a = lower b.
Proof. apply seqb_eq. Qed.

Lemma getall_values k h : hgetall k h = values (lower k) h.
Proof. reflexivity. Qed.

Lemma filter_filter {A} (f g : A -> bool) l : filter f (filter g l) = filter (fun x => f x && g x) l.
Proof. induction l as [|x l IH]; [reflexivity|]. cbn. destruct (g x) eqn:G; cbn; rewrite ?andb_true_r, ?andb_false_r, IH; reflexivity. Qed.

Lemma values_app n a b : values n (a ++ b) = values n a ++ values n b.
Proof. unfold values. rewrite filter_app, map_app. reflexivity. Qed.

Lemma values_one n e : values n [e] = if seqb (lower (fst e)) n then [snd e] else [].
Proof. unfold values. cbn [filter]. destruct (seqb (lower (fst e)) n); reflexivity. Qed.

Lemma values_add n k v h : values n (hadd k v h) = if seqb n (lower k) then values n h ++ [v] else values n h.
Proof.
  unfold hadd. rewrite values_app. unfold values at 2. cbn [filter fst]. rewrite (seqb_sym n).
  destruct (seqb (lower k) n); [reflexivity | apply app_nil_r].
Qed.

Lemma values_del n k h : values n (hdel k h) = if seqb n (lower k) then [] else values n h.
Proof.
  unfold hdel, values. rewrite filter_filter. unfold same_name.
  destruct (seqb_spec n (lower k)) as [->|Hn].
  - rewrite (filter_ext _ (fun _ => false)); [|intros x; apply andb_negb_r]. induction h; [reflexivity | assumption].
  - f_equal. apply filter_ext. intros x. destruct (seqb_spec (lower (fst x)) n) as [E|]; [|reflexivity].
    cbn. apply negb_true_iff, seqb_neq. congruence.
Qed.

Lemma values_set n k v h : values n (hset k v h) = if seqb n (lower k) then [v] else values n h.
Proof.
  induction h as [|e h IH].
  - unfold values. cbn [hset filter fst]. rewrite (seqb_sym n). destruct (seqb (lower k) n); reflexivity.
  - cbn [hset]. unfold same_name at 1. destruct (seqb_spec (lower (fst e)) (lower k)) as [E|E].
    + pose proof (values_del n k h) as D. unfold hdel in D.
      change ((k, v) :: filter (fun e0 => negb (same_name (fst e0) k)) h) with ([(k, v)] ++ filter (fun e0 => negb (same_name (fst e0) k)) h).
      change (e :: h) with ([e] ++ h). rewrite !values_app, D, !values_one. cbn [fst snd].
      rewrite E, (seqb_sym n). destruct (seqb (lower k) n); reflexivity.
    + change (e :: hset k v h) with ([e] ++ hset k v h). change (e :: h) with ([e] ++ h). rewrite !values_app, IH.
      destruct (seqb_spec n (lower k)) as [->|]; [|reflexivity].
      rewrite values_one. destruct (seqb_spec (lower (fst e)) (lower k)); [contradiction | reflexivity].
Qed.

Lemma values_pop n k h : values n (hpop k h) = if seqb n (lower k) then tl (values n h) else values n h.
Proof.
  induction h as [|e h IH]; [cbn; destruct (seqb n (lower k)); reflexivity|].
  assert (V : values n (e :: h) = values n [e] ++ values n h) by (rewrite <- values_app; reflexivity).
  rewrite V, values_one. cbn [hpop]. unfold same_name at 1.
  destruct (seqb_spec (lower (fst e)) (lower k)) as [E|E].
  - rewrite E, (seqb_sym n). destruct (seqb (lower k) n); reflexivity.
  - change (e :: hpop k h) with ([e] ++ hpop k h). rewrite values_app, values_one, IH.
    destruct (seqb_spec n (lower k)) as [->|]; [|reflexivity].
    destruct (seqb_spec (lower (fst e)) (lower k)); [contradiction | reflexivity].
Qed.

Lemma contains_values k h : hcontains k h = match values (lower k) h with [] => false | _ => true end.
Proof.
  unfold hcontains, values. induction h as [|e h IH]; [reflexivity|]. cbn [existsb filter].
  unfold same_name at 1. destruct (seqb (lower (fst e)) (lower k)); [reflexivity | exact IH].
Qed.

Definition agrees (h : headers) (m : amap) : Prop := forall n, values n h = m n.

Lemma step_agrees h m o : agrees h m -> agrees (fst (hstep h o)) (fst (astep m o)) /\ snd (hstep h o) = snd (astep m o).
Proof.
  intros A. destruct o as [k v|k v|k|k v|k]; cbn [hstep astep].
  - split; [|reflexivity]. intros n. cbn [fst]. rewrite values_add. unfold aput. rewrite !A. destruct (seqb_spec n (lower k)) as [->|]; reflexivity.
  - split; [|reflexivity]. intros n. cbn [fst]. rewrite values_set. unfold aput. rewrite !A. reflexivity.
  - rewrite contains_values, A. destruct (m (lower k)) eqn:E; [split; [exact A | reflexivity]|].
    split; [|reflexivity]. intros n. cbn [fst]. rewrite values_del. unfold aput. rewrite !A. reflexivity.
  - unfold hget. rewrite getall_values, A. destruct (m (lower k)) as [|x r] eqn:E; cbn [hd_error]; [|split; [exact A | reflexivity]].
    split; [|reflexivity]. intros n. cbn [fst]. rewrite values_add. unfold aput. rewrite !A.
    destruct (seqb_spec n (lower k)) as [->|]; [rewrite E|]; reflexivity.
  - unfold hget. rewrite getall_values, A. destruct (m (lower k)) as [|x r] eqn:E; cbn [hd_error]; [split; [exact A | reflexivity]|].
    split; [|reflexivity]. intros n. cbn [fst]. rewrite values_pop. unfold aput. rewrite !A.
    destruct (seqb_spec n (lower k)) as [->|]; [rewrite E|]; reflexivity.
Qed.

Lemma run_agrees ops : forall h m, agrees h m -> agrees (fst (hrun h ops)) (fst (arun m ops)) /\ snd (hrun h ops) = snd (arun m ops).
Proof.
  induction ops as [|o ops IH]; intros h m A; [split; [exact A | reflexivity]|].
  cbn [hrun arun]. destruct (step_agrees h m o A) as (A1 & E1).
  destruct (hstep h o) as (h1, x1). destruct (astep m o) as (m1, y1). cbn [fst snd] in *.
  destruct (IH h1 m1 A1) as (A2 & E2). destruct (hrun h1 ops) as (h2, xs). destruct (arun m1 ops) as (m2, ys). cbn [fst snd] in *.
  split; [exact A2 | congruence].
Qed.

(** Names in the container come from the operations. *)
Lemma step_keys h o k : In k (map fst (fst (hstep h o))) -> In k (map fst h) \/ k = op_key o.
Proof.
  assert (FI : forall f, In k (map fst (filter f h)) -> In k (map fst h)).
  { intros f. rewrite !in_map_iff. intros (e & <- & H). apply filter_In in H. exists e. tauto. }
  destruct o as [k' v|k' v|k'|k' v|k']; cbn [hstep op_key].
  - cbn [fst]. unfold hadd. rewrite map_app, in_app_iff. cbn. intuition.
  - cbn [fst]. clear FI. induction h as [|e h IH]; cbn [hset].
    + cbn. intuition.
    + destruct (same_name (fst e) k').
      * cbn [map In fst]. intros [H|H]; [right; congruence|]. left. right. rewrite in_map_iff in *. destruct H as (x & <- & H). apply filter_In in H. exists x. tauto.
      * cbn [map In]. intros [H|H]; [left; left; exact H|]. destruct (IH H); [left; right; assumption | right; assumption].
  - destruct (hcontains k' h); cbn [fst]; [intros H; left; exact (FI _ H) | auto].
  - destruct (hget k' h); cbn [fst]; [auto|]. unfold hadd. rewrite map_app, in_app_iff. cbn. intuition.
  - destruct (hget k' h); cbn [fst]; [|auto]. intros H. left. revert H. clear. induction h as [|e h IH]; cbn [hpop]; [auto|].
    destruct (same_name (fst e) k'); cbn [map In]; [intros H; right; exact H|]. intros [H|H]; [left; exact H | right; apply IH; exact H].
Qed.

Lemma run_keys ops : forall h k, In k (map fst (fst (hrun h ops))) -> In k (map fst h) \/ exists o, In o ops /\ k = op_key o.
Proof.
  induction ops as [|o ops IH]; intros h k; [left; assumption|]. cbn [hrun].
  destruct (hstep h o) as (h1, x1) eqn:E. specialize (IH h1 k). destruct (hrun h1 ops) as (h2, xs). cbn [fst] in *.
  intros H. destruct (IH H) as [H1|(o' & H1 & H2)].
  - pose proof (step_keys h o k) as Q. rewrite E in Q. destruct (Q H1) as [Q1|Q1]; [left; exact Q1|]. right. exists o. split; [left; reflexivity | exact Q1].
  - right. exists o'. split; [right; exact H1 | exact H2].
Qed.

(** ** On the wire *)
Lemma values_pairs n k vs : values n (map (pair k) vs) = if seqb (lower k) n then vs else [].
Proof.
  unfold values. induction vs as [|v vs IH]; cbn [map filter fst]; [destruct (seqb _ _); reflexivity|].
  destruct (seqb (lower k) n); cbn [map snd]; [f_equal|]; exact IH.
Qed.

Lemma values_flat n k0 h ks : NoDup ks -> (forall k, In k ks -> lower k = n -> k = k0) -> lower k0 = n ->
  values n (flat_map (fun k => map (pair k) (hgetall k h)) ks) = if smem k0 ks then values n h else [].
Proof.
  intros ND U L. induction ks as [|k ks IH]; [reflexivity|]. inversion ND as [|? ? N1 N2]; subst.
  cbn [flat_map]. rewrite values_app, values_pairs, IH by (exact N2 || (intros ? ? ?; apply U; [right; assumption | assumption])).
  cbn [smem existsb]. destruct (seqb_spec (lower k) (lower k0)) as [E|E].
  - assert (k = k0) as -> by (apply U; [left; reflexivity | exact E]). rewrite seqb_refl. cbn [orb].
    assert (smem k0 ks = false) as -> by (apply smem_not_In; exact N1). rewrite app_nil_r. rewrite getall_values. reflexivity.
  - assert (seqb k0 k = false) as -> by (apply seqb_neq; congruence). reflexivity.
Qed.

Lemma values_nil n h : (forall k, In k (map fst h) -> lower k <> n) -> values n h = [].
Proof.
  unfold values. induction h as [|e h IH]; intros H; [reflexivity|]. cbn [filter].
  destruct (seqb_spec (lower (fst e)) n) as [E|]; [exfalso; exact (H (fst e) (or_introl eq_refl) E)|].
  apply IH. intros k Hk. apply H. right. exact Hk.
Qed.

Lemma wire_values order h n : set_order order ->
  (forall k k', In k (map fst h) -> In k' (map fst h) -> lower k = n -> lower k' = n -> k = k') ->
  values n (wire order h) = values n h.
Proof.
  intros O U. destruct (O (map fst h)) as (ND & SE). unfold wire, multi_items.
  destruct (existsb (fun k => seqb (lower k) n) (map fst h)) eqn:E.
  - apply existsb_exists in E. destruct E as (k0 & I0 & L). apply seqb_eq in L.
    rewrite (values_flat n k0).
    + assert (smem k0 (order (map fst h)) = true) as -> by (apply smem_In, SE; exact I0). reflexivity.
    + exact ND.
    + intros k Hk Lk. apply U; try assumption. apply SE. exact Hk.
    + exact L.
  - assert (F : forall k, In k (map fst h) -> lower k <> n).
    { intros k Hk Lk. assert (X : existsb (fun k => seqb (lower k) n) (map fst h) = true) by (apply existsb_exists; exists k; split; [exact Hk | apply seqb_eq; exact Lk]). congruence. }
    rewrite (values_nil n h F). apply values_nil. intros k Hk. apply F. apply SE.
    rewrite in_map_iff in Hk. destruct Hk as (e & <- & He). apply in_flat_map in He. destruct He as (k' & Hk' & He).
    apply in_map_iff in He. destruct He as (v & <- & _). exact Hk'.
Qed.

Lemma getlist_values order h k : set_order order -> In k (map fst h) ->
  (forall k', In k' (map fst h) -> lower k' = lower k -> k' = k) ->
  getlist order k h = values (lower k) h.
Proof.
  intros O I U. rewrite <- (wire_values order h (lower k) O).
  - unfold getlist, values, wire. f_equal. apply filter_ext_in. intros (k', v) He. cbn [fst].
    destruct (seqb_spec k' k) as [->|N]; [symmetry; apply seqb_refl|]. symmetry. apply seqb_neq. intros L. apply N. apply U; [|exact L].
    unfold multi_items in He. apply in_flat_map in He. destruct He as (k2 & Hk2 & He). apply in_map_iff in He. destruct He as (v2 & E & _).
    injection E as -> _. apply O. exact Hk2.
  - intros a b Ha Hb La Lb. rewrite (U a Ha La), (U b Hb Lb). reflexivity.
Qed.

(** ** Dicts given by callers *)
Lemma dget_In {V} k (d : dict V) v : dget k d = Some v -> In (k, v) d.
Proof.
  induction d as [|(k', v') d IH]; cbn; [discriminate|]. destruct (seqb_spec k k') as [->|]; [intros H; left; congruence | intros H; right; exact (IH H)].
Qed.
Lemma dget_none {V} k (d : dict V) : dget k d = None <-> ~ In k (dkeys d).
Proof.
  induction d as [|(k', v') d IH]; cbn; [tauto|]. destruct (seqb_spec k k') as [->|N].
  - split; [discriminate | intros H; exfalso; apply H; left; reflexivity].
  - rewrite IH. split; [intros H [X|X]; [congruence | tauto] | tauto].
Qed.
Lemma dset_new {V} k (v : V) d : ~ In k (dkeys d) -> dset k v d = d ++ [(k, v)].
Proof.
  induction d as [|(k', v') d IH]; intros H; [reflexivity|]. cbn [dset app dkeys map fst] in *.
  destruct (seqb_spec k k') as [->|]; [exfalso; apply H; left; reflexivity|].
  rewrite IH by (intros X; apply H; right; exact X). reflexivity.
Qed.
Lemma setdefault_app k v d : (dget k d = None /\ setdefault k v d = d ++ [(k, v)]) \/ (dget k d <> None /\ setdefault k v d = d).
Proof.
  unfold setdefault. destruct (dget k d) eqn:E; [right; split; [discriminate | reflexivity]|].
  left. split; [reflexivity|]. apply dset_new. apply dget_none. exact E.
Qed.

Lemma split_char_mid c a b : split_char c (a ++ c :: b) = split_char c a ++ split_char c b.
Proof.
  induction a as [|x a IH]; cbn [app split_char].
  - rewrite N.eqb_refl. reflexivity.
  - destruct (N.eqb x c); [rewrite IH; reflexivity|]. rewrite IH.
    destruct (split_char c a) eqn:E; [destruct (split_char_nonnil c a E) | reflexivity].
Qed.

Lemma tokens_pad c v : c <> 32%N -> map strip (split_char c (32%N :: v)) = map strip (split_char c v).
Proof.
  intros H. cbn [split_char]. destruct (N.eqb_spec 32 c); [congruence|].
  destruct (split_char c v) as [|w ws] eqn:E; [destruct (split_char_nonnil c v E)|]. reflexivity.
Qed.

Lemma values_keys_in n (d : dict str) v : In v (values n d) -> exists k, In (k, v) d /\ lower k = n.
Proof.
  unfold values. rewrite in_map_iff. intros ((k, x) & E & H). apply filter_In in H. destruct H as (H1 & H2). cbn in *. subst x.
  exists k. split; [exact H1 | apply seqb_eq; exact H2].
Qed.

Lemma made_keys st body charset media given k v :
  In (k, v) (fst (make_headers st body charset media given)) -> In (k, v) given \/ (has_body_message st = true /\ (k = u "content-length" \/ k = u "content-type")).
Proof.
  assert (SD : forall a b d, In (k, v) (setdefault a b d) -> In (k, v) d \/ k = a).
  { intros a b d. destruct (setdefault_app a b d) as [(_ & ->)|(_ & ->)]; [|auto]. rewrite in_app_iff. cbn. intros [H|[H|[]]]; [auto | right; congruence]. }
  assert (R : In (k, v) (if has_entity_header_status st then remove_entity_headers given else given) -> In (k, v) given).
  { destruct (has_entity_header_status st); [|auto]. unfold remove_entity_headers. intros H. apply filter_In in H. tauto. }
  unfold make_headers. cbn [fst]. destruct (has_body_message st); [|intros H; left; exact (R H)].
  assert (S1 : In (k, v) (setdefault (u "content-length") (dec (N.of_nat (length body))) (if has_entity_header_status st then remove_entity_headers given else given)) -> In (k, v) given \/ k = u "content-length").
  { intros H. destruct (SD _ _ _ H) as [H1|H1]; [left; exact (R H1) | right; exact H1]. }
  destruct (get_content_type charset media) as [t|].
  - intros H. destruct (SD _ _ _ H) as [H1|H1]; [|right; auto]. destruct (S1 H1) as [H2|H2]; [left; exact H2 | right; auto].
  - intros H. destruct (S1 H) as [H2|H2]; [left; exact H2 | right; auto].
Qed.

Lemma made_length st body charset media given :
  (forall k, In k (dkeys given) -> lower k <> u "content-length") -> has_body_message st = true ->
  values (u "content-length") (fst (make_headers st body charset media given)) = [dec (N.of_nat (length body))].
Proof.
  intros F B. unfold make_headers. cbn [fst]. rewrite B.
  set (g := if has_entity_header_status st then remove_entity_headers given else given).
  assert (G : forall k, In k (dkeys g) -> lower k <> u "content-length").
  { intros k Hk. apply F. unfold g in Hk. destruct (has_entity_header_status st); [|exact Hk]. unfold dkeys, remove_entity_headers in *.
    rewrite in_map_iff in *. destruct Hk as (e & E & Hk). apply filter_In in Hk. exists e. tauto. }
  assert (G0 : values (u "content-length") g = []) by (apply values_nil; exact G).
  assert (S1 : setdefault (u "content-length") (dec (N.of_nat (length body))) g = g ++ [(u "content-length", dec (N.of_nat (length body)))]).
  { destruct (setdefault_app (u "content-length") (dec (N.of_nat (length body))) g) as [(_ & ->)|(X & _)]; [reflexivity|].
    exfalso. apply X. apply dget_none. intros I. apply (G _ I). reflexivity. }
  rewrite S1.
  assert (V : values (u "content-length") (g ++ [(u "content-length", dec (N.of_nat (length body)))]) = [dec (N.of_nat (length body))]).
  { rewrite values_app, G0. reflexivity. }
  destruct (get_content_type charset media) as [t|]; [|exact V].
  destruct (setdefault_app (u "content-type") t (g ++ [(u "content-length", dec (N.of_nat (length body)))])) as [(_ & ->)|(_ & ->)]; [|exact V].
  rewrite values_app, V. reflexivity.
Qed.

Lemma filter_all_false {A} (f : A -> bool) l : (forall x, In x l -> f x = false) -> filter f l = [].
Proof. induction l as [|x l IH]; intros H; [reflexivity|]. cbn. rewrite (H x (or_introl eq_refl)). apply IH. intros y Hy. apply H. right. exact Hy. Qed.

Lemma body_allowed st : may_have_body st -> has_body_message st = true.
Proof.
  intros (R & A & B). unfold has_body_message.
  destruct (Z.eqb_spec st 204), (Z.eqb_spec st 304); try contradiction. cbn [orb negb andb].
  apply negb_true_iff, andb_false_iff. right. apply Z.ltb_ge. lia.
Qed.
Lemma not_entity k : is_entity_header k = false -> ~ In (lower k) rfc_entity.
Proof.
  intros H X. apply smem_not_In in H. apply H. unfold rfc_entity, entity_headers in *. cbn [In] in *. tauto.
Qed.
Lemma entity_rfc n : ~ In n rfc_entity -> n <> u "extension-header" -> smem n entity_headers = false.
Proof.
  intros H E. apply smem_not_In. intros X. apply H. unfold rfc_entity, entity_headers in *. cbn [In] in *.
  repeat (destruct X as [X|X]; [solve [tauto | congruence]|]). contradiction.
Qed.
