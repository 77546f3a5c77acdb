(** C325 to C329: making header containers, giving them on, searching them and reading them as attributes. *)
From Verif Require Import PyStr PyStrFacts Utf8 Asgi HeaderModel HeaderSpec HeaderProofs HeaderProps HinModel HinSpec HinProofs.
From Coq Require Import Lia Permutation.

(** ** C325: the headers of a request *)
Lemma enc_dec b : utf8 b -> utf8_enc (utf8_dec b) = b.
Proof. intros (t & C & ->). now rewrite dec_enc. Qed.
Lemma plain_says n : plain_name n -> utf8 n.
Proof. intros P. exists n. now apply ascii_utf8, plain_ascii. Qed.
Lemma request_made ps : (forall n v, In (n, v) ps -> plain_name n /\ utf8 v) ->
  make (request ps) = Good (map (fun p => (fst p, utf8_dec (snd p))) ps).
Proof.
  intros H. unfold request. cbn [make]. rewrite from_pairs_good.
  - f_equal. apply map_ext_in. intros [n v] I. cbn. rewrite dec_ascii; [reflexivity|]. apply plain_ascii. now apply (H n v).
  - intros n v I. destruct (H n v I). split; [now apply plain_says|assumption].
Qed.
Lemma lines_map n (f : str * str -> str * str) l : (forall e, In e l -> fst (f e) = fst e) -> lines_under n (map f l) = map f (lines_under n l).
Proof.
  unfold lines_under. induction l as [|e l IH]; intros H; [reflexivity|]. cbn [map filter]. rewrite (H e (or_introl eq_refl)).
  rewrite IH by (intros; apply H; now right). now destruct (seqb (fst e) n).
Qed.
Lemma lines_items order h n : set_order order -> (forall k v, In (k, v) h -> lower k = k) -> lines_under n (multi_items order h) = lines_under n h.
Proof.
  intros O L. destruct (O (map fst h)) as [ND IN]. unfold multi_items.
  assert (LK : forall k, In k (map fst h) -> lower k = k) by (intros k I; apply in_map_iff in I as ((k', v) & <- & I); now apply (L k' v)).
  rewrite lines_flat; [|exact ND|intros k I; apply LK; now apply IN].
  destruct (in_dec _ _ _) as [I|N].
  - apply getall_plain; [exact L|]. now apply LK, IN.
  - symmetry. unfold lines_under. apply filter_all_false. intros [k v] I. cbn. destruct (seqb_spec k n) as [->|]; [|reflexivity].
    exfalso. apply N, IN, in_map_iff. now exists (n, v).
Qed.
Lemma items_In order h k v : set_order order -> In (k, v) (multi_items order h) -> In k (map fst h) /\ exists k', In (k', v) h /\ lower k' = lower k.
Proof.
  intros O I. unfold multi_items in I. apply in_flat_map in I as (k0 & K & I). apply in_map_iff in I as (v0 & E & I). injection E as -> ->.
  split; [now apply O|]. unfold hgetall in I. apply in_map_iff in I as ((k', v') & E & I). cbn in E. subst v'. apply filter_In in I as [I S].
  exists k'. split; [exact I|]. now apply same_name_spec.
Qed.

(** What is given on, to another application or server, has the same lines, under each name in the same order. *)
Theorem C325_given_on : forall order ps, set_order order -> (forall n v, In (n, v) ps -> plain_name n /\ utf8 v) ->
  exists h out, make (request ps) = Good h /\ to_wire order h = Good out /\ same_lines out ps.
Proof.
  intros order ps O H. set (h := map (fun p => (fst p, utf8_dec (snd p))) ps).
  assert (HK : forall k v, In (k, v) h -> plain_name k /\ characters v).
  { intros k v I. apply in_map_iff in I as ((n, w) & E & I). injection E as <- <-. split; [now apply (H n w)|]. intros c. apply dec_scalar. }
  assert (MK : forall k v, In (k, v) (multi_items order h) -> plain_name k /\ characters v).
  { intros k v I. destruct (items_In _ _ _ _ O I) as [K (k' & I' & _)]. split; [|now apply (HK k' v)].
    apply in_map_iff in K as ((k2, v2) & <- & K). now apply (HK k2 v2). }
  exists h. eexists. split; [now apply request_made|]. split.
  - unfold to_wire. apply encode_items_good. intros k v I. destruct (MK k v I) as [P C]. split; [|exact C].
    intros c J. left. destruct (P c J). lia.
  - intros n. rewrite lines_map by (intros [k v] I; cbn; apply enc_ascii, plain_ascii; now apply (MK k v)).
    rewrite lines_items; [|exact O|intros k v I; apply lower_plain; now apply (HK k v)].
    unfold h. rewrite lines_map by reflexivity. rewrite map_map. rewrite <- (map_id (lines_under n ps)) at 2. apply map_ext_in.
    intros [k v] I. apply filter_In in I as [I _]. destruct (H k v I) as [P U]. cbn. now rewrite enc_ascii, enc_dec by (try apply plain_ascii; assumption).
Qed.
Print Assumptions C325_given_on.

(** No line more and no line less. *)
Theorem C325_count : forall a b, same_lines a b -> Permutation a b.
Proof.
  intros a. induction a as [|[k v] a IH]; intros b S.
  - destruct b as [|[k v] b]; [constructor|]. specialize (S k). cbn in S. rewrite seqb_refl in S. discriminate S.
  - pose proof (S k) as SK. cbn in SK. rewrite seqb_refl in SK.
    assert (F : forall l x r, lines_under k l = x :: r -> exists l1 l2, l = l1 ++ x :: l2 /\ lines_under k l1 = [] /\ lines_under k l2 = r).
    { clear. induction l as [|e l IH]; intros x r E; cbn in E; [discriminate|]. destruct (seqb (fst e) k) eqn:K.
      - injection E as -> <-. exists [], l. auto.
      - destruct (IH _ _ E) as (l1 & l2 & -> & L1 & L2). exists (e :: l1), l2. split; [reflexivity|]. split; [cbn; now rewrite K|exact L2]. }
    destruct (F b (k, v) (lines_under k a)) as (b1 & b2 & -> & L1 & L2); [now symmetry|].
    apply Permutation_cons_app. apply IH. intros n. specialize (S n). unfold lines_under in *. rewrite filter_app in *. cbn in S.
    destruct (seqb_spec k n) as [KN|NE]; [|exact S]. rewrite <- KN, L1. cbn [app]. now symmetry.
Qed.
Print Assumptions C325_count.

(** Reading a header in any capitalisation gives the texts of the values under its name, in order. *)
Theorem C325_read : forall ps, (forall n v, In (n, v) ps -> plain_name n /\ utf8 v) -> exists h, make (request ps) = Good h /\
  forall k, Forall2 says (map snd (lines_under (lower k) ps)) (hgetall k h).
Proof.
  intros ps H. eexists. split; [now apply request_made|]. intros k. unfold hgetall, lines_under.
  induction ps as [|[n v] ps IH]; [constructor|]. cbn [map filter fst snd]. destruct (H n v (or_introl eq_refl)) as [P U].
  assert (T := IH (fun n' v' I => H n' v' (or_intror I))).
  replace (same_name n k) with (seqb n (lower k)) by (unfold same_name; now rewrite (lower_plain n P)).
  destruct (seqb n (lower k)); cbn [map snd]; [|exact T]. constructor; [|exact T]. split; [intros c; apply dec_scalar|now rewrite enc_dec].
Qed.
Print Assumptions C325_read.

(** Cookies, two values of one name and a value with an accent. *)
Definition sample_request : list (str * str) :=
  [(u "accept", u "text/html"); (u "x-city", u "Orl" ++ [195; 169]%N ++ u "ans"); (u "accept", u "image/png")].
Lemma plain_ok n : forallb (fun c => (c <? 128)%N && negb ((65 <=? c) && (c <=? 90))%N) n = true -> plain_name n.
Proof.
  intros F c I. rewrite forallb_forall in F. specialize (F c I). apply andb_true_iff in F as [A B]. apply N.ltb_lt in A. split; [exact A|].
  intros [L1 L2]. apply N.leb_le in L1, L2. rewrite L1, L2 in B. discriminate B.
Qed.
Lemma utf8_ok b : seqb (utf8_enc (utf8_dec b)) b = true -> utf8 b.
Proof. intros E. apply seqb_eq in E. exists (utf8_dec b). split; [intros c; apply dec_scalar|now symmetry]. Qed.
Example C325_case : (forall n v, In (n, v) sample_request -> plain_name n /\ utf8 v) /\
  exists h, make (request sample_request) = Good h /\ hgetall (u "X-City") h = [u "Orl" ++ [233%N] ++ u "ans"] /\
  to_wire dedup h = Good [(u "accept", u "text/html"); (u "accept", u "image/png"); (u "x-city", u "Orl" ++ [195; 169]%N ++ u "ans")].
Proof.
  split.
  - intros n v [E|[E|[E|[]]]]; injection E as <- <-; (split; [now apply plain_ok|now apply utf8_ok]).
  - eexists. split; [reflexivity|]. split; reflexivity.
Qed.

(** ** C326: the headers of any request can be read *)
Definition C326_statement : Prop := forall ps, (forall n v, In (n, v) ps -> plain_name n) -> exists h, make (request ps) = Good h.
(** HTTP allows other bytes in values: a value in Latin-1 makes all headers of the request unreadable. *)
Definition latin : list (str * str) := [(u "host", u "a.example"); (u "x-name", u "Ren" ++ [233%N])].
Theorem C326_refuted : ~ C326_statement.
Proof.
  intros H. destruct (H latin) as [h E]; [intros n v [X|[X|[]]]; injection X as <- <-; now apply plain_ok|]. vm_compute in E. discriminate E.
Qed.
Print Assumptions C326_refuted.
(** They can be read exactly if all names and values are UTF-8; otherwise it is a UnicodeDecodeError. *)
Theorem C326_partial : forall ps,
  ((exists h, make (request ps) = Good h) <-> forall n v, In (n, v) ps -> utf8 n /\ utf8 v) /\
  (forall f, make (request ps) = Bad f -> f = UnicodeDecodeError).
Proof.
  intros ps. unfold request. cbn [make].
  assert (D : (forall n v, In (n, v) ps -> utf8 n /\ utf8 v) \/ exists n v, In (n, v) ps /\ ~ (utf8 n /\ utf8 v)).
  { induction ps as [|[n v] ps [G|(n' & v' & I & N)]]; [left; intros n v []| |right; exists n', v'; split; [now right|exact N]].
    destruct (utf8_dec_b n) as [U|U]; [destruct (utf8_dec_b v) as [V|V]|].
    - left. intros n' v' [E|I]; [injection E as <- <-; auto|auto].
    - right. exists n, v. split; [now left|tauto].
    - right. exists n, v. split; [now left|tauto]. }
  destruct D as [G|(n & v & I & N)].
  - rewrite from_pairs_good by exact G. split; [split; [auto|intros _; eexists; reflexivity]|discriminate].
  - rewrite (from_pairs_bad ps n v I N). split; [split; [intros [h E]; discriminate E|intros G; exfalso; exact (N (G n v I))]|].
    intros f E. now injection E.
Qed.
Print Assumptions C326_partial.

(** ** C327: headers from mappings *)
Definition C327_statement : Prop := forall l, make (SMapping l) = Good l.
(** A mapping that is no dict is read by its keys: most raise, and one of two letters becomes another header. *)
Theorem C327_refuted : ~ C327_statement /\ make (SMapping [(u "te", u "trailers")]) = Good [(u "t", u "e")] /\
  make (SMapping [(u "host", u "a.example")]) = Bad ValueError.
Proof. split; [|split; reflexivity]. intros H. specialize (H [(u "te", u "trailers")]). discriminate H. Qed.
Print Assumptions C327_refuted.
(** From a dict come exactly the lines it asks for; a value may be a list.  Missing: other mappings. *)
Lemma dict_values_iff key xs : forall h, dict_values key xs = Good h <-> exists vs, Forall2 reads xs vs /\ h = map (fun v => (key, v)) vs.
Proof.
  induction xs as [|x xs IH]; intros h; cbn [dict_values].
  - split; [intros E; injection E as <-; exists []; auto|intros (vs & F & ->); inversion F; reflexivity].
  - split.
    + destruct (as_text x) as [v|] eqn:X; cbn [rbind]; [|discriminate]. destruct (dict_values key xs) as [r|] eqn:R; cbn [rbind]; [|discriminate].
      intros E. injection E as <-. destruct (proj1 (IH r) eq_refl) as (vs & F & ->). exists (v :: vs). split; [constructor; [now apply as_text_reads|exact F]|reflexivity].
    + intros (vs & F & ->). inversion F as [|? v ? vs' RX FX]; subst. rewrite (proj2 (as_text_reads x v) RX). cbn [rbind].
      rewrite (proj2 (IH (map (fun v => (key, v)) vs'))) by eauto. reflexivity.
Qed.
Theorem C327_dict_partial : forall l h, make (SDict l) = Good h <-> asks l h.
Proof.
  cbn [make]. induction l as [|[k i] l IH]; intros h; cbn [from_dict].
  - split; [intros E; injection E as <-; constructor|intros A; inversion A; reflexivity].
  - split.
    + destruct (as_text k) as [key|] eqn:K; cbn [rbind]; [|discriminate]. apply as_text_reads in K.
      destruct i as [x|xs|]; [| |discriminate].
      * cbn [dict_values]. destruct (as_text x) as [v|] eqn:X; cbn [rbind]; [|discriminate]. apply as_text_reads in X.
        destruct (from_dict l) as [r|] eqn:R; cbn [rbind]; [|discriminate]. intros E. injection E as <-. constructor; [exact K|exact X|now apply IH].
      * destruct (dict_values key xs) as [a|] eqn:D; cbn [rbind]; [|discriminate]. apply dict_values_iff in D as (vs & F & ->).
        destruct (from_dict l) as [r|] eqn:R; cbn [rbind]; [|discriminate]. intros E. injection E as <-. constructor; [exact K|exact F|now apply IH].
    + intros A. inversion A as [|? key x v ? h' RK RX A'|? key xs vs ? h' RK F A']; subst; rewrite (proj2 (as_text_reads k key) RK); cbn [rbind].
      * rewrite (proj2 (dict_values_iff key [x] [(key, v)])); [|exists [v]; auto]. cbn [rbind]. now rewrite (proj2 (IH h') A').
      * rewrite (proj2 (dict_values_iff key xs (map (fun v => (key, v)) vs))) by eauto. cbn [rbind]. now rewrite (proj2 (IH h') A').
Qed.
Print Assumptions C327_dict_partial.
Example C327_case : make (SDict [(Text (u "Vary"), Many [Text (u "Accept"); Bytes (u "Origin")]); (Bytes (u "x-a"), One (Text (u "1")))]) =
  Good [(u "Vary", u "Accept"); (u "Vary", u "Origin"); (u "x-a", u "1")].
Proof. reflexivity. Qed.

(** ** C328: what is in a header container *)
Theorem C328 : forall h,
  (forall x k, reads x k -> contains (QText x) h = true <-> exists n v, In (n, v) h /\ lower n = lower k) /\
  (forall x k y v, reads x k -> reads y v -> contains (QPair x y) h = true <-> exists n, In (n, v) h /\ lower n = lower k) /\
  contains QOther h = false.
Proof.
  intros h. split; [|split; [|reflexivity]].
  - intros x k R. cbn. rewrite (loose_reads x k R). unfold hcontains. rewrite existsb_exists. split.
    + intros ((n & v) & I & S). exists n, v. split; [exact I|]. now apply same_name_spec.
    + intros (n & v & I & S). exists (n, v). split; [exact I|]. now apply same_name_spec.
  - intros x k y v RX RY. cbn. rewrite (loose_reads x k RX), (loose_reads y v RY), existsb_exists. unfold hgetall. split.
    + intros (v' & I & S). apply seqb_eq in S. subst v'. apply in_map_iff in I as ((n & w) & E & I). cbn in E. subst w. apply filter_In in I as [I S].
      exists n. split; [exact I|]. now apply same_name_spec.
    + intros (n & I & S). exists v. split; [|apply seqb_refl]. apply in_map_iff. exists (n, v). split; [reflexivity|]. apply filter_In. split; [exact I|].
      now apply same_name_spec.
Qed.
Print Assumptions C328.
(** Bytes that are no UTF-8 are in no container of texts. *)
Theorem C328_raw : forall h b, (forall n v, In (n, v) h -> characters n) -> (forall c, In c b -> (c < 256)%N) -> ~ utf8 b ->
  contains (QText (Bytes b)) h = false.
Proof.
  intros h b T B N. cbn. unfold hcontains. destruct (existsb _ h) eqn:E; [|reflexivity]. exfalso. apply N. exists (decode_escape b).
  apply existsb_exists in E as ((n & v) & I & S). apply same_name_spec in S. cbn in S.
  assert (C : characters (decode_escape b)).
  { assert (CL : characters (lower (decode_escape b))).
    { rewrite <- S. intros c J. apply in_map_iff in J as (c0 & <- & J). apply (T n v I) in J. unfold lower_c, scalar in *.
      destruct ((65 <=? c0) && (c0 <=? 90))%N eqn:Q; [|exact J]. apply andb_true_iff in Q as [Q1 Q2]. apply N.leb_le in Q1, Q2. lia. }
    intros c J. assert (K : scalar (lower_c c)) by (apply CL, in_map, J). unfold lower_c in K.
    destruct ((65 <=? c) && (c <=? 90))%N eqn:Q; [|exact K]. apply andb_true_iff in Q as [Q1 Q2]. apply N.leb_le in Q1, Q2. left. lia. }
  split; [exact C|]. symmetry. now apply escape_exact.
Qed.
Print Assumptions C328_raw.
(** Every line that iterating gives is in the container. *)
Theorem C328_iterated : forall order h out k v, set_order order -> (forall n w, In (n, w) h -> characters n /\ characters w) ->
  to_wire order h = Good out -> In (k, v) out -> contains (QPair (Bytes k) (Bytes v)) h = true.
Proof.
  intros order h out k v O T E I.
  assert (MK : forall n w, In (n, w) (multi_items order h) -> characters n /\ characters w).
  { intros n w J. destruct (items_In _ _ _ _ O J) as [K (n' & J' & _)]. split; [|now apply (T n' w)].
    apply in_map_iff in K as ((n2 & w2) & <- & K). now apply (T n2 w2). }
  unfold to_wire in E. rewrite encode_items_good in E by exact MK. injection E as <-. apply in_map_iff in I as ((n & w) & E & J). injection E as <- <-.
  destruct (MK n w J) as [CN CW]. destruct (items_In _ _ _ _ O J) as [_ (n' & J' & L)].
  destruct (C328 h) as (_ & P & _). apply (P _ n _ w); [split; auto|split; auto|]. exists n'. auto.
Qed.
Print Assumptions C328_iterated.
Example C328_case : let h := [(u "Accept", u "a"); (u "accept", u "b")] in
  contains (QText (Bytes (u "ACCEPT"))) h = true /\ contains (QPair (Bytes (u "accept")) (Text (u "a"))) h = true /\
  contains (QPair (Bytes (u "accept")) (Text (u "A"))) h = false /\ contains (QText (Bytes [233%N])) h = false /\ ~ utf8 [233%N].
Proof.
  cbn zeta. split; [reflexivity|]. split; [reflexivity|]. split; [reflexivity|]. split; [reflexivity|].
  intros [t H]. apply decode_strict_says in H. discriminate H.
Qed.

(** ** C329: headers as attributes *)
(** A header read as an attribute, with underscores for the hyphens and any number of them at the end, is the values of
    its name in order, with commas between. *)
Theorem C329 : forall h n c j, ~ In 95%N (n ++ [c]) -> c <> 45%N ->
  attribute (map (fun x => if N.eqb x 45 then 95%N else x) (n ++ [c]) ++ repeat 95%N j) h =
  join (u ",") (map snd (filter (fun e => seqb (lower (fst e)) (lower (n ++ [c]))) h)).
Proof.
  intros h n c j U C. unfold attribute. f_equal. rewrite rstrip_by_app by (clear; induction j; [reflexivity|exact IHj]).
  set (f := fun x => if N.eqb x 45 then 95%N else x). set (g := fun x => if N.eqb x 95 then 45%N else x).
  assert (ST : rstrip_by (N.eqb 95) (map f (n ++ [c])) = map f (n ++ [c])).
  { unfold rstrip_by. rewrite map_app, rev_app_distr. cbn [map rev app lstrip_by].
    replace (N.eqb 95 (f c)) with false; [cbn [rev]; now rewrite rev_involutive|].
    symmetry. apply N.eqb_neq. unfold f. destruct (N.eqb_spec c 45); [contradiction|]. intros <-. apply U, in_or_app. right. now left. }
  rewrite ST, map_map.
  assert (ID : map (fun x => g (f x)) (n ++ [c]) = n ++ [c]).
  { rewrite <- (map_id (n ++ [c])) at 2. apply map_ext_in. intros x I. unfold f, g. destruct (N.eqb_spec x 45) as [->|N1]; [reflexivity|].
    destruct (N.eqb_spec x 95) as [->|]; [contradiction|reflexivity]. }
  rewrite ID. reflexivity.
Qed.
Print Assumptions C329.
Example C329_case : attribute (u "x_forwarded_for") [(u "X-Forwarded-For", u "1.2.3.4"); (u "host", u "a"); (u "x-forwarded-for", u "5.6.7.8")] = u "1.2.3.4,5.6.7.8"
  /\ attribute (u "from_") [(u "From", u "me@h")] = u "me@h" /\ attribute (u "via") [] = [].
Proof. split; [reflexivity|]. split; reflexivity. Qed.
