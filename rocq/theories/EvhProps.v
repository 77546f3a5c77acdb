(** C377-C379: the headers of an event stream. *)
From Coq Require Import ZArith Lia.
From Verif Require Import PyStr PyStrFacts Asgi HeaderModel HeaderSpec HeaderProofs HeaderProps AnnProps AbtProps EvhModel.

Lemma keys_update {V} (l : dict V) : forall d x, In x (dkeys (dupdate d l)) -> In x (dkeys d) \/ In x (dkeys l).
Proof.
  assert (K : forall k (v : V) d x, In x (dkeys (dset k v d)) -> In x (dkeys d) \/ x = k).
  { intros k v d x. induction d as [|(k', v') r IH]; cbn [dset]; [intros [E|[]]; right; symmetry; exact E|].
    destruct (seqb k k'); cbn [dkeys map fst]; [intros H; left; exact H|]. intros [E|I]; [left; left; exact E|]. destruct (IH I); [left; right; assumption|right; assumption]. }
  induction l as [|(k, v) r IH]; intros d x; cbn [dupdate fold_left fst snd]; [auto|]. intros I. destruct (IH _ _ I) as [J|J]; [|right; right; exact J].
  destruct (K _ _ _ _ J) as [L| ->]; [left; exact L|right; left; reflexivity].
Qed.
Lemma keys_del {V} k (d : dict V) x : In x (dkeys (ddel k d)) -> In x (dkeys d) /\ x <> k.
Proof.
  induction d as [|(k', v) r IH]; cbn [ddel]; [intros []|]. destruct (seqb k k') eqn:E; cbn [dkeys map fst].
  - intros I. destruct (IH I). split; [right; assumption|assumption].
  - intros [<-|I]; [|destruct (IH I); split; [right; assumption|assumption]]. split; [left; reflexivity|]. intros ->. rewrite seqb_refl in E. discriminate E.
Qed.
Lemma keys_set k v h x : In x (map fst (hset k v h)) -> In x (map fst h) /\ lower x <> lower k \/ x = k.
Proof.
  induction h as [|e r IH]; cbn [hset]; [intros [E|[]]; auto|]. destruct (same_name (fst e) k) eqn:E; cbn [map fst].
  - intros [<-|I]; [auto|]. left. apply in_map_iff in I as (y & <- & I). apply filter_In in I as (I & N). split; [right; apply in_map; exact I|].
    intros X. apply same_name_spec in X. rewrite X in N. discriminate N.
  - intros [<-|I]; [left; split; [left; reflexivity|]; intros X; apply same_name_spec in X; congruence|]. destruct (IH I) as [[A B]|A]; [left; split; [right; exact A|exact B]|auto].
Qed.
Lemma in_set k v h a b : lower a <> lower k -> In (a, b) h -> In (a, b) (hset k v h).
Proof.
  intros N. induction h as [|e r IH]; cbn [hset]; [intros []|]. destruct (same_name (fst e) k) eqn:E.
  - intros [->|I]; [apply same_name_spec in E; contradiction|]. right. apply filter_In. split; [exact I|]. cbn [fst]. destruct (same_name a k) eqn:F; [apply same_name_spec in F; contradiction|reflexivity].
  - intros [->|I]; [left; reflexivity|right; apply IH; exact I].
Qed.
Lemma in_set_self k v h : In (k, v) (hset k v h).
Proof. induction h as [|e r IH]; cbn [hset]; [left; reflexivity|]. destruct (same_name (fst e) k); [left; reflexivity|right; exact IH]. Qed.
Lemma in_pop k h a b : lower a <> lower k -> In (a, b) h -> In (a, b) (hpop k h).
Proof.
  intros N. induction h as [|e r IH]; cbn [hpop]; [intros []|]. destruct (same_name (fst e) k) eqn:E.
  - intros [->|I]; [apply same_name_spec in E; contradiction|exact I].
  - intros [->|I]; [left; reflexivity|right; apply IH; exact I].
Qed.
Lemma keys_pop k h x : In x (map fst (hpop k h)) -> In x (map fst h).
Proof.
  induction h as [|e r IH]; cbn [hpop]; [intros []|]. destruct (same_name (fst e) k); cbn [map]; [intros I; right; exact I|].
  intros [E|I]; [left; exact E|right; apply IH; exact I].
Qed.

(** ** C377 *)
(** An event stream is sent with exactly one content type, [text/event-stream], whatever the caller gives. *)
Theorem C377_type : forall order st charset media given, set_order order ->
  values (u "content-type") (event_lines order st charset media given) = [u "text/event-stream"].
Proof.
  intros order st charset media given O. unfold event_lines. rewrite wire_values; [|exact O|].
  - unfold event_headers. rewrite values_pop, values_set. reflexivity.
  - assert (K : forall k, In k (map fst (event_headers st charset media given)) -> lower k = u "content-type" -> k = u "content-type").
    { intros k I E. unfold event_headers in I. apply keys_pop, keys_set in I as [[_ N]|I]; [|exact I]. contradiction N. }
    intros k k' I I' E E'. rewrite (K k I E), (K k' I' E'). reflexivity.
Qed.
Print Assumptions C377_type.
Example C377_case :
  event_lines dedup 200 (u "utf-8") (Some (u "text/event-stream")) [(u "Content-Type", u "text/plain"); (u "X-A", u "1"); (u "cache-control", u "no-store"); (u "content-length", u "5")]
  = [(u "cache-control", u "no-store"); (u "connection", u "keep-alive"); (u "content-type", u "text/event-stream"); (u "x-accel-buffering", u "no");
     (u "transfer-encoding", u "chunked"); (u "X-A", u "1")].
Proof. vm_compute. reflexivity. Qed.

(** ** C378 *)
(** An event stream is sent without a content length. *)
Definition C378_statement : Prop := forall order st charset media given, set_order order -> NoDup (dkeys given) ->
  values (u "content-length") (event_lines order st charset media given) = [].
Theorem C378_length_partial : forall order st charset media given, set_order order ->
  (forall k, In k (dkeys given) -> lower k = u "content-length" -> k = u "content-length") ->
  values (u "content-length") (event_lines order st charset media given) = [].
Proof.
  intros order st charset media given O G. unfold event_lines.
  set (d := ddel (u "content-length") (dupdate stream_defaults given)).
  assert (D : forall k, In k (dkeys d) -> lower k <> u "content-length").
  { intros k I E. apply keys_del in I as (I & N). apply keys_update in I as [I|I]; [|exact (N (G k I E))].
    cbn [stream_defaults dkeys map fst] in I. repeat (destruct I as [<-|I]; [vm_compute in E; discriminate E|]). destruct I. }
  rewrite wire_values; [|exact O|].
  - unfold event_headers. fold d. rewrite values_pop, values_set.
    replace (seqb (u "content-length") (lower (u "content-length"))) with true by (vm_compute; reflexivity).
    replace (seqb (u "content-length") (lower (u "content-type"))) with false by (vm_compute; reflexivity).
    destruct (has_body_message st) eqn:B.
    + rewrite (made_length st [] charset media d D B). reflexivity.
    + rewrite values_nil; [reflexivity|]. intros k I. apply in_map_iff in I as ((a, b) & <- & I). apply made_keys in I as [I|(X & _)]; [|congruence].
      apply D. apply in_map_iff. exists (a, b). auto.
  - assert (K : forall k, In k (map fst (event_headers st charset media given)) -> lower k = u "content-length" -> k = u "content-length").
    { intros k I E. unfold event_headers in I. fold d in I. apply keys_pop, keys_set in I as [[I _]|I]; [|rewrite I in E; vm_compute in E; discriminate E].
      apply in_map_iff in I as ((a, b) & <- & I). cbn [fst] in *. apply made_keys in I as [I|(_ & [X|X])]; [|exact X|rewrite X in E; vm_compute in E; discriminate E].
      destruct (D a); [apply in_map_iff; exists (a, b); auto|exact E]. }
    intros k k' I I' E E'. rewrite (K k I E), (K k' I' E'). reflexivity.
Qed.
Print Assumptions C378_length_partial.
(** With [Content-Length] in another case, the response says that its body is empty. *)
Theorem C378_refuted : ~ C378_statement.
Proof.
  intros H. specialize (H dedup 200%Z (u "utf-8") (Some (u "text/event-stream")) [(u "Content-Length", u "5")] dedup_order).
  assert (N : NoDup (dkeys [(u "Content-Length", u "5")])) by (constructor; [intros []|constructor]). specialize (H N). vm_compute in H. discriminate H.
Qed.
Print Assumptions C378_refuted.
Example C378_case :
  values (u "content-length") (event_lines dedup 200 (u "utf-8") (Some (u "text/event-stream")) [(u "content-length", u "5")]) = []
  /\ values (u "content-length") (event_lines dedup 200 (u "utf-8") (Some (u "text/event-stream")) [(u "Content-Length", u "5")]) = [u "0"].
Proof. vm_compute. auto. Qed.

(** ** C379 *)
(** The other headers of the caller are sent, and so is each default whose name the caller does not give. *)
Theorem C379_kept : forall order st charset media given k v, set_order order -> NoDup (dkeys given) ->
  st <> 304%Z -> st <> 412%Z -> lower k <> u "content-type" -> lower k <> u "content-length" ->
  In (k, v) given
  \/ ~ In k (dkeys given) /\ In (k, v) [(u "cache-control", u "no-cache"); (u "connection", u "keep-alive"); (u "x-accel-buffering", u "no"); (u "transfer-encoding", u "chunked")] ->
  In (k, v) (event_lines order st charset media given).
Proof.
  intros order st charset media given k v O N S1 S2 T L H. unfold event_lines, event_headers. apply wire_has; [exact O|]. apply in_pop; [exact L|]. apply in_set; [exact T|]. apply made_has; [exact S1|exact S2|].
  apply HeaderProofs.dget_In. rewrite PyStrFacts.dget_ddel_other by (intros ->; apply L; vm_compute; reflexivity). rewrite AnnProps.dget_dupdate by exact N.
  assert (U : forall d : dict str, NoDup (dkeys d) -> In (k, v) d -> dget k d = Some v).
  { clear. induction d as [|(a, b) r IH]; cbn [dkeys map fst]; intros ND; [intros []|]. inversion ND as [|? ? NI NR]; subst. cbn [dget]. intros [E|I].
    - injection E as -> ->. rewrite seqb_refl. reflexivity.
    - destruct (seqb k a) eqn:E; [|apply IH; assumption]. apply seqb_eq in E. subst a. destruct NI. apply in_map_iff. exists (k, v). auto. }
  destruct H as [I|(NI & I)].
  - rewrite (U given N I). reflexivity.
  - assert (X : dget k given = None) by (apply dget_none; exact NI). rewrite X.
    repeat (destruct I as [I|I]; [injection I as <- <-; vm_compute; reflexivity|]). destruct I.
Qed.
Print Assumptions C379_kept.
Example C379_case :
  In (u "cache-control", u "no-store") (event_lines dedup 200 (u "utf-8") (Some (u "text/event-stream")) [(u "cache-control", u "no-store")])
  /\ ~ In (u "cache-control", u "no-cache") (event_lines dedup 200 (u "utf-8") (Some (u "text/event-stream")) [(u "cache-control", u "no-store")])
  /\ In (u "x-accel-buffering", u "no") (event_lines dedup 200 (u "utf-8") (Some (u "text/event-stream")) [(u "cache-control", u "no-store")]).
Proof. split; [|split]; [vm_compute; auto 10| |vm_compute; auto 10]. vm_compute. intros H. repeat (destruct H as [H|H]; [discriminate H|]). exact H. Qed.
