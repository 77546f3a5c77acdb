From Verif Require Import PyStr PyStrFacts Asgi HeaderModel HeaderSpec HeaderProofs CorsProofs GzipModel GzipSpec.

Lemma wire_one order h n v : set_order order -> values n h = [v] -> values n (wire order h) = [v].
Proof.
  intros O E. rewrite wire_values; [exact E|exact O|].
  intros k k' I I' L L'. apply in_map_iff in I. destruct I as (e & <- & I). apply in_map_iff in I'. destruct I' as (e' & <- & I').
  assert (F : length (filter (fun e => seqb (lower (fst e)) n) h) = 1) by (unfold values in E; rewrite <- (map_length snd), E; reflexivity).
  assert (J : In e (filter (fun e => seqb (lower (fst e)) n) h)) by (apply filter_In; split; [exact I|apply seqb_eq; exact L]).
  assert (J' : In e' (filter (fun e => seqb (lower (fst e)) n) h)) by (apply filter_In; split; [exact I'|apply seqb_eq; exact L']).
  destruct (filter (fun e => seqb (lower (fst e)) n) h) as [|a [|b r]]; [discriminate F| |discriminate F].
  destruct J as [<-|[]], J' as [<-|[]]. reflexivity.
Qed.
Lemma wire_same order h n : set_order order -> same_lines n h (wire order h).
Proof. intros O v. apply wire_in. exact O. Qed.
Lemma same_trans n a b c : same_lines n a b -> same_lines n b c -> same_lines n a c.
Proof. intros H1 H2 v. rewrite (H2 v). apply H1. Qed.
Lemma same_eq n a b : values n b = values n a -> same_lines n a b.
Proof. intros E v. rewrite E. tauto. Qed.

Lemma set_other n k v h : n <> lower k -> values n (hset k v h) = values n h.
Proof. intros H. rewrite values_set. destruct (seqb_spec n (lower k)); [contradiction|reflexivity]. Qed.
Lemma set_own n k v h : n = lower k -> values n (hset k v h) = [v].
Proof. intros ->. rewrite values_set. rewrite (proj2 (seqb_eq _ _) eq_refl). reflexivity. Qed.
Lemma vary_other n v h : n <> u "vary" -> values n (add_vary_header v h) = values n h.
Proof. intros H. unfold add_vary_header. apply set_other. exact H. Qed.
Lemma vary_added v h : ~ In 44%N v -> strip v = v ->
  exists x, values (u "vary") (add_vary_header v h) = [x] /\ In v (map strip (split_char 44 x))
    /\ (length (values (u "vary") h) <= 1 -> incl (vary_list h) (map strip (split_char 44 x))).
Proof.
  intros F S. unfold add_vary_header. rewrite set_own by reflexivity. eexists. split; [reflexivity|].
  unfold hget. rewrite getall_values. change (lower (u "vary")) with (u "vary"). unfold vary_list.
  destruct (values (u "vary") h) as [|x r]; cbn [hd_error].
  - split; [|intros _ y []]. rewrite split_char_free by exact F. left. exact S.
  - cbn [join]. change (u ", ") with [44%N; 32%N]. cbn [app]. rewrite split_char_mid, map_app, tokens_pad by discriminate. split.
    + apply in_or_app. right. rewrite split_char_free by exact F. left. exact S.
    + intros L. destruct r as [|y r]; [|cbn in L; lia]. cbn [flat_map]. rewrite app_nil_r. apply incl_appl, incl_refl.
Qed.

Notation CE := (u "content-encoding").
Notation CL := (u "content-length").
Lemma standard_facts order len h : set_order order ->
  let w := wire order (standard_headers len h) in
  values CE w = [u "gzip"] /\ values CL w = [dec len] /\ In (u "Accept-Encoding") (vary_list w)
  /\ (length (values (u "vary") h) <= 1 -> incl (vary_list h) (vary_list w))
  /\ forall n, n <> CE -> n <> CL -> n <> u "vary" -> same_lines n h w.
Proof.
  intros O. cbv zeta. unfold standard_headers.
  set (h2 := hset (u "Content-Length") (dec len) (hset (u "Content-Encoding") (u "gzip") h)).
  assert (E1 : values CE h2 = [u "gzip"]).
  { unfold h2. rewrite set_other by lit. apply set_own. vm_compute. reflexivity. }
  assert (E2 : values CL h2 = [dec len]) by (apply set_own; vm_compute; reflexivity).
  assert (E3 : forall n, n <> CE -> n <> CL -> values n h2 = values n h).
  { intros n N1 N2. unfold h2. rewrite !set_other; [reflexivity| |]; (replace (lower _) with CE by (vm_compute; reflexivity)) || (replace (lower _) with CL by (vm_compute; reflexivity)); assumption. }
  destruct (vary_added (u "Accept-Encoding") h2) as (x & V1 & V2 & V3); [apply cmem_not_In; vm_compute; reflexivity|vm_compute; reflexivity|].
  apply (wire_one order _ _ _ O) in V1.
  split; [apply (wire_one order _ _ _ O); rewrite vary_other by lit; exact E1|].
  split; [apply (wire_one order _ _ _ O); rewrite vary_other by lit; exact E2|].
  unfold vary_list at 1 3. rewrite V1. cbn [flat_map]. rewrite app_nil_r. split; [exact V2|]. split.
  - unfold vary_list in V3 |- *. rewrite (E3 (u "vary")) in V3 by lit. exact V3.
  - intros n N1 N2 N3. eapply same_trans; [|apply wire_same; exact O]. apply same_eq. rewrite vary_other by exact N3. apply E3; assumption.
Qed.
Lemma streaming_facts order h : set_order order -> length (values CL h) <= 1 ->
  let w := wire order (streaming_headers h) in
  values CE w = [u "gzip"] /\ values CL w = [] /\ In (u "Accept-Encoding") (vary_list w)
  /\ (length (values (u "vary") h) <= 1 -> incl (vary_list h) (vary_list w))
  /\ forall n, n <> CE -> n <> CL -> n <> u "vary" -> same_lines n h w.
Proof.
  intros O LL. cbv zeta. unfold streaming_headers.
  set (h2 := hset (u "Content-Encoding") (u "gzip") h).
  assert (E1 : values CE h2 = [u "gzip"]) by (apply set_own; vm_compute; reflexivity).
  assert (E3 : forall n, n <> CE -> values n h2 = values n h).
  { intros n N1. unfold h2. rewrite set_other; [reflexivity|]. replace (lower _) with CE by (vm_compute; reflexivity). assumption. }
  set (h3 := add_vary_header (u "Accept-Encoding") h2).
  assert (P : forall n, n <> CL -> values n (hpop (u "Content-Length") h3) = values n h3).
  { intros n NN. rewrite values_pop. replace (lower (u "Content-Length")) with CL by (vm_compute; reflexivity). destruct (seqb_spec n CL); [contradiction|reflexivity]. }
  destruct (vary_added (u "Accept-Encoding") h2) as (x & V1 & V2 & V3); [apply cmem_not_In; vm_compute; reflexivity|vm_compute; reflexivity|].
  fold h3 in V1. rewrite <- P in V1 by lit. apply (wire_one order _ _ _ O) in V1.
  split; [apply (wire_one order _ _ _ O); rewrite P by lit; unfold h3; rewrite vary_other by lit; exact E1|]. split.
  - assert (X : values CL (hpop (u "Content-Length") h3) = []).
    { rewrite values_pop. replace (lower (u "Content-Length")) with CL by (vm_compute; reflexivity). rewrite (proj2 (seqb_eq _ _) eq_refl).
      unfold h3. rewrite vary_other by lit. rewrite E3 by lit. destruct (values CL h) as [|a [|b r]]; [reflexivity|reflexivity|cbn in LL; lia]. }
    destruct (values CL (wire order (hpop (u "Content-Length") h3))) as [|y r] eqn:Y; [reflexivity|].
    assert (I : In y (values CL (hpop (u "Content-Length") h3))) by (apply (wire_in order _ _ _ O); rewrite Y; left; reflexivity). rewrite X in I. destruct I.
  - unfold vary_list at 1 3. rewrite V1. cbn [flat_map]. rewrite app_nil_r. split; [exact V2|]. split.
    + unfold vary_list in V3 |- *. rewrite (E3 (u "vary")) in V3 by lit. exact V3.
    + intros n N1 N2 N3. eapply same_trans; [|apply wire_same; exact O]. apply same_eq. rewrite P by exact N2. unfold h3. rewrite vary_other by exact N3. apply E3; assumption.
Qed.

Section Send.
Context {G : Type} (order : list str -> list str) (z : gzip G) (min : nat).
(** Bodies of an already encoded response. *)
Lemma send_encoded st h bodies : forall f b, abody_complete bodies ->
  gsend order z min {| initial := Some (st, h); started := true; encoded := true; file := f; buffer := b |} bodies = (bodies, true).
Proof. intros f b C. induction C as [x|x ms C IH]; [reflexivity|]. cbn [gsend gstep initial encoded started file buffer app]. rewrite IH. reflexivity. Qed.
(** Bodies after the first of a compressed stream. *)
Lemma send_stream sh bodies : abody_complete bodies -> forall g,
  exists bs, gsend order z min {| initial := Some sh; started := true; encoded := false; file := Open g; buffer := [] |} bodies = (bs, true)
    /\ abody_complete bs /\ abytes bs = feed z g (map abody bodies).
Proof.
  destruct sh as (st, h). intros C. induction C as [x|x ms C IH]; intros g; cbn [gsend gstep initial encoded started negb fwrite file buffer app map abody feed].
  - destruct (gwrite z g x) as (g', o). cbn [app]. eexists. split; [reflexivity|]. split; [constructor|]. unfold abytes. cbn. rewrite app_nil_r. reflexivity.
  - destruct (gwrite z g x) as (g', o). cbn [app]. destruct (IH g') as (bs & E & C' & A). rewrite E. eexists. split; [reflexivity|]. split; [constructor; exact C'|].
    unfold abytes in *. cbn [map concat abody]. rewrite A. reflexivity.
Qed.
End Send.
Lemma concat_bodies bodies : concat (map abody bodies) = abytes bodies.
Proof. reflexivity. Qed.
