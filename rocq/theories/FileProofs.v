(** Proofs about file responses. *)
From Coq Require Import ZifyBool ZifyNat ZifyN.
From Verif Require Import PyStr PyStrFacts RangesModel RangesSpec RangesProofs FileModel FileSpec.
Open Scope Z_scope.

Definition sub_of (f : str) (pos size : Z) : str := firstn (Z.to_nat size) (skipn (Z.to_nat pos) f).

Lemma sub_of_split f pos a b : 0 <= pos -> 0 <= a -> 0 <= b ->
  sub_of f pos (a + b) = sub_of f pos a ++ sub_of f (pos + a) b.
Proof.
  intros Hp Ha Hb. unfold sub_of.
  rewrite Z2Nat.inj_add by lia. rewrite (Z2Nat.inj_add pos a) by lia.
  rewrite <- (firstn_skipn (Z.to_nat a) (skipn (Z.to_nat pos) f)) at 1.
  rewrite firstn_app.
  rewrite firstn_firstn. rewrite Nat.min_r by lia. f_equal.
  rewrite skipn_skipn, (Nat.add_comm (Z.to_nat pos)).
  rewrite (firstn_length (Z.to_nat a)).
  destruct (Nat.le_gt_cases (Z.to_nat a) (length (skipn (Z.to_nat pos) f))) as [H|H].
  - rewrite Nat.min_l by lia. f_equal. lia.
  - rewrite skipn_length in H.
    rewrite (skipn_all2 f (n := (Z.to_nat a + Z.to_nat pos)%nat)) by lia. now rewrite !firstn_nil.
Qed.

Lemma sub_of_length f pos size : 0 <= pos -> 0 <= size -> pos + size <= Z.of_nat (length f) ->
  Z.of_nat (length (sub_of f pos size)) = size.
Proof. intros. unfold sub_of. rewrite firstn_length, skipn_length. lia. Qed.

Definition is_mk (mk : str -> bool -> file_msg) : Prop := mk = MBody \/ mk = MZero.

Lemma is_mk_payload mk b m : is_mk mk -> payload (mk b m) = b.
Proof. now intros [->| ->]. Qed.

Definition all_more (ms : list file_msg) : Prop :=
  Forall (fun m => exists b, m = MBody b true \/ m = MZero b true) ms.

Lemma is_mk_ex mk b x : is_mk mk -> exists b', mk b x = MBody b' x \/ mk b x = MZero b' x.
Proof. intros [->| ->]; exists b; auto. Qed.

Lemma send_range_ok mk chunk sub f : is_mk mk -> 0 < chunk ->
  forall fuel pos size, 0 <= pos -> 0 <= size -> pos + size <= Z.of_nat (length f) ->
  (Z.to_nat size < fuel)%nat ->
  exists ms, send_range fuel mk chunk sub f pos size = (ms, pos + size) /\
    body_bytes ms = sub_of f pos size /\
    (if sub then all_more ms else terminated ms).
Proof.
  intros Hmk Hc. induction fuel as [|fu IH]; intros pos size Hp Hs Hl Hf; [lia|].
  cbn [send_range]. unfold fread.
  destruct (Z.ltb_spec chunk size) as [Hlt|Hge].
  - change (firstn (Z.to_nat chunk) (skipn (Z.to_nat pos) f)) with (sub_of f pos chunk).
    rewrite sub_of_length by lia.
    destruct (IH (pos + chunk) (size - chunk)) as (ms & -> & Hb & Ht); try lia.
    eexists. split; [f_equal; lia|]. split.
    + unfold body_bytes in *. cbn [map concat]. rewrite Hb, is_mk_payload by assumption.
      rewrite <- sub_of_split by lia. f_equal. lia.
    + cbn [orb]. destruct sub.
      * constructor; [now apply is_mk_ex|exact Ht].
      * constructor; [now apply is_mk_ex|exact Ht].
  - change (firstn (Z.to_nat size) (skipn (Z.to_nat pos) f)) with (sub_of f pos size).
    rewrite sub_of_length by lia.
    eexists. split; [reflexivity|]. split.
    + unfold body_bytes. cbn [map concat]. rewrite is_mk_payload by assumption. apply app_nil_r.
    + cbn [orb]. destruct sub.
      * constructor; [now apply is_mk_ex|constructor].
      * constructor. now apply is_mk_ex.
Qed.

Lemma body_bytes_app a b : body_bytes (a ++ b) = body_bytes a ++ body_bytes b.
Proof. unfold body_bytes. now rewrite map_app, concat_app. Qed.

(** One range from the start, no subheader. *)
Lemma send_single mk chunk f r : is_mk mk -> 0 < chunk ->
  0 <= r_start r -> r_start r <= r_stop r + 1 -> r_stop r < Z.of_nat (length f) ->
  exists ms, send_ranges mk chunk None f 0 0 [r] = ms /\
    body_bytes ms = slice f (r_start r) (r_stop r) /\ terminated ms.
Proof.
  intros Hmk Hc H0 H1 H2. cbn [send_ranges].
  assert ((if 0 =? r_start r then 0 else r_start r) = r_start r) as ->
    by (destruct (Z.eqb_spec 0 (r_start r)); lia).
  destruct (send_range_ok mk chunk false f Hmk Hc (S (Z.to_nat (range_len r))) (r_start r) (range_len r))
    as (ms & E & Hb & Ht); try (unfold range_len; lia).
  cbv zeta. rewrite E. eexists. split; [reflexivity|]. cbn [app]. rewrite app_nil_r.
  split; [exact Hb|exact Ht].
Qed.

Lemma all_more_terminated ms m : all_more ms -> terminated m -> terminated (ms ++ m).
Proof. induction 1; cbn; intros; [assumption|]. constructor; auto. Qed.

(** Several ascending ranges with subheaders. *)
Lemma send_multi mk chunk f s max : is_mk mk -> 0 < chunk -> max = Z.of_nat (length f) - 1 ->
  forall rs pos last_stop, ascending rs -> Forall (satisfiable max) rs ->
  (forall r, In r rs -> last_stop < r_start r \/ (pos = 0 /\ last_stop = 0)) ->
  all_more (send_ranges mk chunk (Some s) f pos last_stop rs) /\
  body_bytes (send_ranges mk chunk (Some s) f pos last_stop rs) =
  concat (map (fun r => s r ++ slice f (r_start r) (r_stop r)) rs).
Proof.
  intros Hmk Hc Hm. induction rs as [|r rs IH]; intros pos ls Ha Hs Hp; [split; [constructor|reflexivity]|].
  cbn [send_ranges map concat].
  inversion Ha as [|? ? Hnext Ha']; subst. inversion Hs as [|? ? Hr Hs']; subst.
  assert ((if ls =? r_start r then pos else r_start r) = r_start r) as ->.
  { specialize (Hp r (or_introl eq_refl)). destruct (Z.eqb_spec ls (r_start r)); lia. }
  unfold satisfiable in Hr.
  destruct (send_range_ok mk chunk true f Hmk Hc (S (Z.to_nat (range_len r))) (r_start r) (range_len r))
    as (ms & E & Hb & Ht); try (unfold range_len; lia).
  cbv zeta. rewrite E.
  destruct (IH (r_start r + range_len r) (r_stop r) Ha' Hs') as [Hall Hbody].
  { intros r' Hr'. left. auto. }
  split.
  - unfold all_more in *. apply Forall_app. split; [constructor; [|constructor]; eauto|].
    apply Forall_app. split; assumption.
  - rewrite !body_bytes_app, Hbody, Hb. unfold body_bytes at 1. cbn [map concat payload].
    rewrite app_nil_r, app_assoc. reflexivity.
Qed.

(** ** Headers *)
Lemma hdefault_get k v h k' : dget k' (hdefault k v h) =
  if seqb k' k then Some (match dget k h with Some x => x | None => v end) else dget k' h.
Proof.
  unfold hdefault, dmem. destruct (dget k h) as [x|] eqn:E.
  - destruct (seqb_spec k' k) as [->|]; auto.
  - destruct (seqb_spec k' k) as [->|H]; [apply dget_dset_same|now apply dget_dset_other].
Qed.

Lemma decz_nat n : decz (Z.of_nat n) = dec (N.of_nat n).
Proof. destruct n; cbn [decz Z.of_nat]; [reflexivity|]. f_equal. Qed.

Lemma stat_cl fr : honest fr ->
  dget (u "content-length") (set_stat_headers fr) = Some (dec (N.of_nat (length (fr_content fr)))).
Proof.
  intros (Hs & Hc & _). unfold set_stat_headers. rewrite !hdefault_get.
  change (seqb (u "content-length") (u "etag")) with false.
  change (seqb (u "content-length") (u "last-modified")) with false.
  change (seqb (u "content-length") (u "content-length")) with true.
  cbv iota. rewrite Hc, Hs, decz_nat. reflexivity.
Qed.

Lemma stat_cr fr : honest fr -> dget (u "content-range") (set_stat_headers fr) = None.
Proof.
  intros (Hs & _ & Hc). unfold set_stat_headers. rewrite !hdefault_get.
  change (seqb (u "content-range") (u "etag")) with false.
  change (seqb (u "content-range") (u "last-modified")) with false.
  change (seqb (u "content-range") (u "content-length")) with false.
  cbv iota. exact Hc.
Qed.

Lemma slice_all f : slice f 0 (Z.of_nat (length f) - 1) = f.
Proof.
  unfold slice. replace (Z.of_nat (length f) - 1 - 0 + 1) with (Z.of_nat (length f)) by lia.
  rewrite Nat2Z.id. apply firstn_all.
Qed.

Lemma slice_length f a b : 0 <= a -> a <= b + 1 -> b < Z.of_nat (length f) ->
  Z.of_nat (length (slice f a b)) = b - a + 1.
Proof. intros. unfold slice. rewrite firstn_length, skipn_length. lia. Qed.

Lemma mk_is_mk (b : bool) : is_mk (if b then MZero else MBody).
Proof. destruct b; unfold is_mk; auto. Qed.

(** ** The whole response *)
Lemma int_parse_len (f : str) : int_parse (dec (N.of_nat (length f))) = Some (Z.of_nat (length f)).
Proof. rewrite int_parse_dec0. f_equal. lia. Qed.

Lemma prv_single hv max m c : ~ In 44%N hv -> 1 <= m ->
  parse_range_value (Some hv) (bytes_max max) true (Some m) true = PrvOk c ->
  exists rest r, hv = u "bytes=" ++ rest /\ parse_range rest max = RangeVal r /\
    c = mkCR (u "bytes") max (range_len r) [r].
Proof.
  intros Hc Hm. unfold parse_range_value. destruct hv as [|c0 hv0]; [discriminate|].
  remember (c0 :: hv0) as hv eqn:Ehv. clear Ehv c0 hv0.
  destruct (split1 61 hv) as [[un rest]|] eqn:E.
  2:{ cbn. discriminate. }
  apply split1_some in E as [-> Hun]. cbn [bytes_max dget].
  destruct (seqb_spec un (u "bytes")) as [->|]; [|discriminate].
  rewrite (split_char_free 44 rest) by (intros H; apply Hc; apply in_or_app; right; now right).
  cbn [prv_loop asc_violation mergeable].
  destruct (Z.ltb_spec m 1); [lia|].
  destruct (parse_range rest max) as [r| |r] eqn:Ep; try discriminate.
  cbn [push_last app]. intros E. injection E as <-.
  exists rest, r. split; [reflexivity|]. split; [assumption|]. f_equal.
Qed.

Lemma prv_single_conv rest max m r : ~ In 44%N rest -> 1 <= m -> parse_range rest max = RangeVal r ->
  parse_range_value (Some (u "bytes=" ++ rest)) (bytes_max max) true (Some m) true =
  PrvOk (mkCR (u "bytes") max (range_len r) [r]).
Proof.
  intros Hc Hm Hp. unfold parse_range_value.
  change (split1 61 (u "bytes=" ++ rest)) with (Some (u "bytes", rest)).
  change (u "bytes=" ++ rest) with (98%N :: u "ytes=" ++ rest). cbv beta iota.
  change (dget (u "bytes") (bytes_max max)) with (Some max). cbv iota.
  rewrite (split_char_free 44 rest) by assumption.
  cbn [prv_loop asc_violation mergeable]. destruct (Z.ltb_spec m 1); [lia|].
  rewrite Hp. cbn [push_last app]. reflexivity.
Qed.

(** Full-file branch. *)
Lemma full_branch now chunk fr q : honest fr -> 0 < chunk ->
  let h := set_stat_headers fr in
  let ms := send_ranges (if fq_zerocopy q then MZero else MBody) chunk None (fr_content fr) 0 0
              [mkRange 0 (Z.of_nat (length (fr_content fr)) - 1)] in
  (if negb (header_only q) && fr_allow fr && check_if_range h q then set_range_headers now fr h q
   else SOk h (fr_status fr) None) = SOk h (fr_status fr) None ->
  header_only q = false -> fq_pathsend q = false ->
  file_call now chunk fr q = FOk (MStart (fr_status fr) h :: ms) /\
  terminated ms /\ length_ok h ms /\ body_bytes ms = fr_content fr.
Proof.
  intros Hh Hc h ms Hhdr Hho Hps. unfold file_call. fold h. rewrite Hhdr. cbv beta iota.
  rewrite Hho. unfold h at 1. rewrite stat_cl by assumption. rewrite int_parse_len, Hps.
  cbn [andb]. rewrite app_nil_r. split; [reflexivity|].
  destruct (send_single (if fq_zerocopy q then MZero else MBody) chunk (fr_content fr)
    (mkRange 0 (Z.of_nat (length (fr_content fr)) - 1)) (mk_is_mk _) Hc) as (ms' & E & Hb & Ht);
    try (cbn; lia).
  fold ms in E. subst ms'. cbn [r_start r_stop] in Hb. rewrite slice_all in Hb.
  split; [exact Ht|]. split; [|exact Hb].
  unfold length_ok. rewrite Hb. unfold h. now apply stat_cl.
Qed.

Definition single_headers (fr : file_resp) (r : range) : dict str :=
  dset (u "content-length") (decz (range_len r))
    (dset (u "content-range") (content_range_text r (Z.of_nat (length (fr_content fr)))) (set_stat_headers fr)).

Lemma single_branch now chunk fr q r : honest fr -> 0 < chunk ->
  satisfiable (Z.of_nat (length (fr_content fr)) - 1) r ->
  let h := single_headers fr r in
  let ms := send_ranges (if fq_zerocopy q then MZero else MBody) chunk None (fr_content fr) 0 0 [r] in
  (if negb (header_only q) && fr_allow fr && check_if_range (set_stat_headers fr) q
   then set_range_headers now fr (set_stat_headers fr) q
   else SOk (set_stat_headers fr) (fr_status fr) None) =
   SOk h 206 (Some (mkCR (u "bytes") (Z.of_nat (length (fr_content fr)) - 1) (range_len r) [r])) ->
  header_only q = false ->
  file_call now chunk fr q = FOk (MStart 206 h :: ms) /\
  terminated ms /\ length_ok h ms /\
  dget (u "content-range") h = Some (content_range_text r (Z.of_nat (length (fr_content fr)))) /\
  body_bytes ms = slice (fr_content fr) (r_start r) (r_stop r).
Proof.
  intros Hh Hc (S1 & S2 & S3) h ms Hhdr Hho. unfold file_call. rewrite Hhdr. cbv beta iota.
  rewrite Hho. unfold h at 1. unfold single_headers at 1. rewrite dget_dset_same.
  rewrite int_parse_decz.
  assert (dget (u "content-range") h = Some (content_range_text r (Z.of_nat (length (fr_content fr))))) as Hcr.
  { unfold h, single_headers. rewrite dget_dset_other by discriminate. apply dget_dset_same. }
  assert (dmem (u "content-range") h = true) as Hm by (unfold dmem; now rewrite Hcr).
  cbv zeta. rewrite Hm, andb_false_r. cbn [cr_ranges]. rewrite app_nil_r. split; [reflexivity|].
  destruct (send_single (if fq_zerocopy q then MZero else MBody) chunk (fr_content fr) r (mk_is_mk _) Hc)
    as (ms' & E & Hb & Ht); try lia.
  fold ms in E. subst ms'.
  split; [exact Ht|]. split; [|split; [exact Hcr|exact Hb]].
  unfold length_ok, h, single_headers. rewrite dget_dset_same, Hb.
  rewrite <- decz_nat, slice_length by lia. reflexivity.
Qed.

Lemma set_range_single now fr q : honest fr ->
  (has_boundary (fr_boundary fr) = false \/ ~ In 44%N (fq_range q)) ->
  let h := set_stat_headers fr in
  let last := Z.of_nat (length (fr_content fr)) - 1 in
  set_range_headers now fr h q = SOk h (fr_status fr) None \/
  (set_range_headers now fr h q = SNotSat) \/
  exists rest r, fq_range q = u "bytes=" ++ rest /\ denotes last rest r /\ satisfiable last r /\
    set_range_headers now fr h q =
    SOk (single_headers fr r) 206 (Some (mkCR (u "bytes") last (range_len r) [r])).
Proof.
  intros Hh Hcond h last. unfold set_range_headers, get_content_ranges.
  pose proof (stat_cl fr Hh) as Hcl. fold h in Hcl. rewrite !Hcl, !int_parse_len. fold last.
  destruct (parse_range_value _ _ _ _ _) as [| |c] eqn:E; [now left|now (right; left)|].
  destruct (cr_ranges c) as [|r0 rs] eqn:Er; [now left|].
  destruct (cmem 44 (fq_range q)) eqn:Ec.
  - destruct Hcond as [Hb|Hn]; [|apply cmem_In in Ec; contradiction].
    rewrite Hb. cbn [andb negb]. now left.
  - apply cmem_not_In in Ec. cbn [andb]. right; right.
    apply prv_single in E as (rest & r & H1 & H2 & ->); [|assumption|destruct (has_boundary _); lia].
    apply parse_range_val in H2 as [Hd Hs].
    exists rest, r. split; [assumption|]. split; [assumption|]. split; [assumption|].
    cbn [cr_ranges] in *. injection Er as -> <-. cbn [cr_ranges cr_max cr_size].
    unfold single_headers. fold h. replace (last + 1) with (Z.of_nat (length (fr_content fr))) by (unfold last; lia).
    reflexivity.
Qed.

Lemma file_single now chunk fr q : honest fr -> 0 < chunk ->
  header_only q = false -> fq_pathsend q = false ->
  (has_boundary (fr_boundary fr) = false \/ ~ In 44%N (fq_range q)) ->
  let last := Z.of_nat (length (fr_content fr)) - 1 in
  file_call now chunk fr q = FNotSatisfiable \/
  exists st h ms, file_call now chunk fr q = FOk (MStart st h :: ms) /\
    terminated ms /\ length_ok h ms /\
    ((st = fr_status fr /\ dget (u "content-range") h = None /\ body_bytes ms = fr_content fr) \/
     (st = 206 /\ fr_allow fr = true /\ exists rest a b, fq_range q = u "bytes=" ++ rest /\
        denotes last rest (mkRange a b) /\ 0 <= a <= b /\ b <= last /\
        dget (u "content-range") h =
          Some (u "bytes " ++ decz a ++ u "-" ++ decz b ++ u "/" ++ decz (last + 1)) /\
        body_bytes ms = slice (fr_content fr) a b)).
Proof.
  intros Hh Hc Hho Hps Hcond last.
  destruct (negb (header_only q) && fr_allow fr && check_if_range (set_stat_headers fr) q) eqn:Eg.
  - destruct (set_range_single now fr q Hh Hcond) as [E|[E|(rest & r & H1 & H2 & H3 & E)]].
    + right. destruct (full_branch now chunk fr q Hh Hc) as (F & Ht & Hl & Hb); auto.
      { now rewrite Eg. }
      do 3 eexists. split; [exact F|]. split; [exact Ht|]. split; [exact Hl|].
      left. split; [reflexivity|]. split; [now apply stat_cr|exact Hb].
    + left. unfold file_call. rewrite Eg, E. reflexivity.
    + right. destruct (single_branch now chunk fr q r Hh Hc H3) as (F & Ht & Hl & Hr & Hb); auto.
      { now rewrite Eg. }
      do 3 eexists. split; [exact F|]. split; [exact Ht|]. split; [exact Hl|].
      right. split; [reflexivity|].
      split; [apply andb_true_iff in Eg as [Eg _]; now apply andb_true_iff in Eg as [_ Eg]|].
      destruct H3 as (S1 & S2 & S3). exists rest, (r_start r), (r_stop r).
      split; [assumption|]. split; [now destruct r|]. split; [lia|]. split; [assumption|].
      split; [|exact Hb]. rewrite Hr. unfold content_range_text, last.
      now rewrite Z.sub_add.
  - right. destruct (full_branch now chunk fr q Hh Hc) as (F & Ht & Hl & Hb); auto.
    { now rewrite Eg. }
    do 3 eexists. split; [exact F|]. split; [exact Ht|]. split; [exact Hl|].
    left. split; [reflexivity|]. split; [now apply stat_cr|exact Hb].
Qed.

(** A written, satisfiable, admissible request is answered by exactly those bytes. *)
Lemma file_written now chunk fr q (a b : N) : honest fr -> 0 < chunk ->
  header_only q = false -> fr_allow fr = true ->
  (fq_if_range q = [] \/ (dget (u "etag") (fr_headers fr) = None /\ fq_if_range q = fr_etag fr)) ->
  fq_range q = u "bytes=" ++ dec a ++ u "-" ++ dec b ->
  (a <= b)%N -> Z.of_N b < Z.of_nat (length (fr_content fr)) ->
  exists h ms, file_call now chunk fr q = FOk (MStart 206 h :: ms) /\
    terminated ms /\ length_ok h ms /\
    dget (u "content-range") h =
      Some (u "bytes " ++ dec a ++ u "-" ++ dec b ++ u "/" ++ dec (N.of_nat (length (fr_content fr)))) /\
    body_bytes ms = slice (fr_content fr) (Z.of_N a) (Z.of_N b).
Proof.
  intros Hh Hc Hho Hal Hir Hr Hab Hbl.
  set (r := mkRange (Z.of_N a) (Z.of_N b)).
  set (last := Z.of_nat (length (fr_content fr)) - 1).
  assert (parse_range (dec a ++ u "-" ++ dec b) last = RangeVal r) as Hp.
  { apply (parse_range_rspec (Closed a b)). unfold satisfiable, last; cbn; lia. }
  assert (~ In 44%N (dec a ++ u "-" ++ dec b)) as Hnc
    by (apply (render_rspec_no_comma (Closed a b))).
  assert (satisfiable last r) as Hs by (unfold satisfiable, last, r; cbn; lia).
  assert (check_if_range (set_stat_headers fr) q = true) as Hci.
  { unfold check_if_range. destruct Hir as [->|[He ->]]; [reflexivity|].
    destruct (fr_etag fr) as [|x e] eqn:Ee; [reflexivity|].
    unfold set_stat_headers. rewrite !hdefault_get.
    change (seqb (u "etag") (u "etag")) with true. change (seqb (u "etag") (u "last-modified")) with false.
    change (seqb (u "etag") (u "content-length")) with false. cbv iota. rewrite He, Ee. apply seqb_refl. }
  assert (set_range_headers now fr (set_stat_headers fr) q =
          SOk (single_headers fr r) 206 (Some (mkCR (u "bytes") last (range_len r) [r]))) as E.
  { unfold set_range_headers, get_content_ranges. rewrite stat_cl, int_parse_len by assumption.
    fold last. rewrite Hr.
    rewrite (prv_single_conv _ last _ r) by (auto; destruct (has_boundary _); lia).
    cbn [cr_ranges]. replace (cmem 44 _) with false.
    2:{ symmetry. apply cmem_not_In. intros Hin. apply in_app_or in Hin as [Hin|Hin]; [|contradiction].
        vm_compute in Hin. intuition discriminate. }
    cbn [andb cr_ranges cr_max cr_size]. unfold single_headers.
    unfold last. rewrite Z.sub_add. reflexivity. }
  destruct (single_branch now chunk fr q r Hh Hc Hs) as (F & Ht & Hl & Hcr & Hb); auto.
  { rewrite Hho, Hal, Hci. exact E. }
  do 2 eexists. split; [exact F|]. split; [exact Ht|]. split; [exact Hl|].
  split; [|exact Hb]. rewrite Hcr. unfold content_range_text. rewrite decz_nat.
  assert (forall n : N, decz (Z.of_N n) = dec n) as D by (intros []; reflexivity).
  cbn [r r_start r_stop]. now rewrite !D.
Qed.

Lemma file_head now chunk fr q : honest fr -> header_only q = true ->
  exists h, file_call now chunk fr q = FOk [MStart (fr_status fr) h] /\
    dget (u "content-length") h = Some (dec (N.of_nat (length (fr_content fr)))).
Proof.
  intros Hh Hq. unfold file_call. rewrite Hq. cbn [negb andb]. eexists.
  split; [reflexivity|]. now apply stat_cl.
Qed.

(** ** Multipart *)
Lemma byte_count_unique rs n m : byte_count rs n -> byte_count rs m -> n = m.
Proof.
  intros (l1 & N1 & I1 & <-) (l2 & N2 & I2 & <-). f_equal. apply Nat.le_antisymm.
  - apply NoDup_incl_length; [assumption|]. intros x Hx. now apply I2, I1.
  - apply NoDup_incl_length; [assumption|]. intros x Hx. now apply I1, I2.
Qed.

Lemma concat_len hd f rs : Forall (satisfiable (Z.of_nat (length f) - 1)) rs ->
  Z.of_nat (length (concat (map (fun r => hd r ++ slice f (r_start r) (r_stop r)) rs))) =
  sum_len rs + Z.of_nat (length (concat (map hd rs))).
Proof.
  induction 1 as [|r rs (H1 & H2 & H3) _ IH]; [reflexivity|].
  cbn [map concat sum_len]. rewrite !app_length, !Nat2Z.inj_add, IH, slice_length by lia.
  unfold range_len. lia.
Qed.

Lemma subheader_part bd media full r :
  subheader bd media full r = part_header bd media full (r_start r) (r_stop r).
Proof.
  unfold subheader, part_header, content_range_text.
  change (u "content-range: bytes ") with (u "content-range: " ++ u "bytes ").
  rewrite <- !app_assoc. reflexivity.
Qed.

Lemma file_multi now chunk fr q : honest fr -> 0 < chunk -> header_only q = false ->
  fq_pathsend q = false -> fr_allow fr = true -> fq_if_range q = [] ->
  has_boundary (fr_boundary fr) = true -> In 44%N (fq_range q) ->
  let last := Z.of_nat (length (fr_content fr)) - 1 in
  file_call now chunk fr q = FNotSatisfiable \/
  (exists h ms, file_call now chunk fr q = FOk (MStart (fr_status fr) h :: ms) /\
     body_bytes ms = fr_content fr /\ terminated ms) \/
  (exists h ms bd rest asked rs n, file_call now chunk fr q = FOk (MStart 206 h :: ms) /\
     fq_range q = u "bytes=" ++ rest /\ Forall2 (denotes last) (split_char 44 rest) asked /\
     (forall b, covers rs b <-> covers asked b) /\ rs <> [] /\ ascending rs /\ Forall (satisfiable last) rs /\
     byte_count rs n /\
     dget (u "content-type") h = Some (u "multipart/byteranges; boundary=" ++ bd) /\
     dget (u "content-length") h = Some (decz n) /\
     dget (u "content-range") h = None /\
     terminated ms /\
     body_bytes ms = concat (map (fun r => part_header bd (strip_media (fr_media fr)) (last + 1) (r_start r) (r_stop r) ++
                                   slice (fr_content fr) (r_start r) (r_stop r)) rs) /\
     ~ length_ok h ms).
Proof.
  intros Hh Hc Hho Hps Hal Hir Hbd Hin last.
  assert (negb (header_only q) && fr_allow fr && check_if_range (set_stat_headers fr) q = true) as Eg.
  { rewrite Hho, Hal. unfold check_if_range. now rewrite Hir. }
  destruct (parse_range_value (Some (fq_range q)) (bytes_max last) true (Some 5) true) as [| |c] eqn:E.
  - right; left. destruct (full_branch now chunk fr q Hh Hc) as (F & Ht & Hl & Hb); auto.
    { rewrite Eg. unfold set_range_headers, get_content_ranges.
      rewrite stat_cl, int_parse_len, Hbd by assumption. fold last. now rewrite E. }
    eauto.
  - left. unfold file_call. rewrite Eg. unfold set_range_headers, get_content_ranges.
    rewrite stat_cl, int_parse_len, Hbd by assumption. fold last. now rewrite E.
  - destruct (cr_ranges c) as [|r0 rs0] eqn:Er.
    { right; left. destruct (full_branch now chunk fr q Hh Hc) as (F & Ht & Hl & Hb); auto.
      { rewrite Eg. unfold set_range_headers, get_content_ranges.
        rewrite stat_cl, int_parse_len, Hbd by assumption. fold last. now rewrite E, Er. }
      eauto. }
    right; right.
    destruct (asc_accepted _ _ _ _ _ E) as (rest & asked & Hu & Hd & Hf & Hcov & Hasc & _ & Hsat & Hbc & _).
    assert (cr_unit c = u "bytes" /\ cr_max c = last) as [Hunit Hmax].
    { cbn [bytes_max dget] in Hd. destruct (seqb_spec (cr_unit c) (u "bytes")) as [->|]; [|discriminate].
      split; congruence. }
    rewrite Hmax in *. rewrite Hunit in Hu. destruct Hu as [Hu|[Hu _]]; [|discriminate Hu].
    set (bd := boundary_text now (set_stat_headers fr) (fr_boundary fr)).
    set (h := dset (u "content-length") (decz (cr_size c))
                (dset (u "content-type") (u "multipart/byteranges; boundary=" ++ bd) (set_stat_headers fr))).
    assert (dget (u "content-range") h = None) as Hcr.
    { unfold h. rewrite !dget_dset_other by discriminate. now apply stat_cr. }
    set (sh := subheader bd (strip_media (fr_media fr)) (last + 1)).
    set (ms := send_ranges (if fq_zerocopy q then MZero else MBody) chunk (Some sh) (fr_content fr) 0 0 (cr_ranges c)).
    destruct (send_multi (if fq_zerocopy q then MZero else MBody) chunk (fr_content fr) sh last
                (mk_is_mk _) Hc eq_refl (cr_ranges c) 0 0 Hasc Hsat) as [Hall Hbody].
    { intros. right. auto. }
    fold ms in Hall, Hbody.
    assert (body_bytes (ms ++ [MBody [] false]) =
            concat (map (fun r => part_header bd (strip_media (fr_media fr)) (last + 1) (r_start r) (r_stop r) ++
                                   slice (fr_content fr) (r_start r) (r_stop r)) (cr_ranges c))) as HB.
    { rewrite body_bytes_app, Hbody. unfold body_bytes. cbn [map payload concat]. rewrite !app_nil_r.
      f_equal. apply map_ext. intros r. unfold sh. now rewrite subheader_part. }
    exists h, (ms ++ [MBody [] false]), bd, rest, asked, (cr_ranges c), (cr_size c).
    assert (cr_size c = sum_len (cr_ranges c)) as Hsum.
    { eapply byte_count_unique; [exact Hbc|]. apply ascending_byte_count; [assumption|].
      intros r Hr. rewrite Forall_forall in Hsat. eapply proper_of_sat, Hsat, Hr. }
    split.
    { unfold file_call. rewrite Eg. unfold set_range_headers, get_content_ranges.
      rewrite stat_cl, int_parse_len, Hbd by assumption. fold last. rewrite E, Er.
      apply cmem_In in Hin. rewrite Hin. cbn [andb negb]. fold bd. fold h. rewrite Hho.
      assert (dget (u "content-length") h = Some (decz (cr_size c))) as Hcl by apply dget_dset_same.
      rewrite Hcl, int_parse_decz.
      assert (dmem (u "content-range") h = false) as Hm by (unfold dmem; now rewrite Hcr).
      cbv zeta. rewrite Hm, andb_false_r, Hmax. reflexivity. }
    split; [exact Hu|]. split; [exact Hf|]. split; [exact Hcov|]. split; [rewrite Er; discriminate|].
    split; [exact Hasc|]. split; [exact Hsat|]. split; [exact Hbc|].
    split; [unfold h; rewrite dget_dset_other by discriminate; apply dget_dset_same|].
    split; [unfold h; apply dget_dset_same|]. split; [exact Hcr|].
    split; [apply all_more_terminated; [assumption|constructor; eexists; eauto]|].
    split; [exact HB|].
    unfold length_ok. rewrite HB. unfold h at 1. rewrite dget_dset_same. intros Heq.
    assert (cr_size c = Z.of_nat (length (body_bytes (ms ++ [MBody [] false])))) as Hlen.
    { rewrite HB. rewrite <- decz_nat in Heq. injection Heq as Heq.
      apply (f_equal int_parse) in Heq. rewrite !int_parse_decz in Heq. now injection Heq. }
    rewrite HB, concat_len in Hlen by exact Hsat. rewrite Er in Hlen. cbn [map concat] in Hlen.
    rewrite app_length in Hlen.
    assert (0 < length (part_header bd (strip_media (fr_media fr)) (last + 1) (r_start r0) (r_stop r0)))%nat.
    { unfold part_header. rewrite app_length. cbn. lia. }
    rewrite Er in Hsum. lia.
Qed.

Lemma file_beyond now chunk fr q (a b : N) : honest fr ->
  header_only q = false -> fr_allow fr = true -> fq_if_range q = [] ->
  fq_range q = u "bytes=" ++ dec a ++ u "-" ++ dec b ->
  (a <= b)%N -> Z.of_nat (length (fr_content fr)) <= Z.of_N b ->
  file_call now chunk fr q = FNotSatisfiable.
Proof.
  intros Hh Hho Hal Hir Hr Hab Hbl. unfold file_call.
  assert (negb (header_only q) && fr_allow fr && check_if_range (set_stat_headers fr) q = true) as ->.
  { rewrite Hho, Hal. unfold check_if_range. now rewrite Hir. }
  unfold set_range_headers, get_content_ranges. rewrite stat_cl, int_parse_len by assumption.
  set (last := Z.of_nat (length (fr_content fr)) - 1). rewrite Hr.
  assert (parse_range (dec a ++ u "-" ++ dec b) last = RangeNotSatisfiable (mkRange (Z.of_N a) (Z.of_N b))) as Hp.
  { unfold parse_range. change (dec a ++ u "-" ++ dec b) with (render_rspec (Closed a b)).
    rewrite parse_range_intern_closed. cbn [r_start r_stop].
    destruct (Z.ltb_spec (Z.of_N b) (Z.of_N a)); [lia|].
    destruct (Z.ltb_spec (Z.of_N a) 0); [lia|].
    destruct (Z.ltb_spec last (Z.of_N b)); [|lia]. now rewrite orb_true_r. }
  unfold parse_range_value.
  change (split1 61 (u "bytes=" ++ dec a ++ u "-" ++ dec b)) with (Some (u "bytes", dec a ++ u "-" ++ dec b)).
  change (u "bytes=" ++ dec a ++ u "-" ++ dec b) with (98%N :: u "ytes=" ++ dec a ++ u "-" ++ dec b).
  cbv beta iota. change (dget (u "bytes") (bytes_max last)) with (Some last). cbv iota.
  rewrite (split_char_free 44) by (apply (render_rspec_no_comma (Closed a b))).
  cbn [prv_loop]. replace ((if has_boundary (fr_boundary fr) then 5 else 1) <? 1) with false
    by (destruct (has_boundary _); reflexivity).
  rewrite Hp. reflexivity.
Qed.

Lemma file_if_range_mismatch now chunk fr q : honest fr -> 0 < chunk ->
  header_only q = false -> fq_pathsend q = false ->
  dget (u "etag") (fr_headers fr) = None -> fq_if_range q <> [] -> fq_if_range q <> fr_etag fr ->
  exists h ms, file_call now chunk fr q = FOk (MStart (fr_status fr) h :: ms) /\
    terminated ms /\ length_ok h ms /\ dget (u "content-range") h = None /\
    body_bytes ms = fr_content fr.
Proof.
  intros Hh Hc Hho Hps He Hne Hm.
  assert (check_if_range (set_stat_headers fr) q = false) as Hci.
  { unfold check_if_range. destruct (fq_if_range q) as [|x l]; [congruence|].
    unfold set_stat_headers. rewrite !hdefault_get.
    change (seqb (u "etag") (u "etag")) with true. change (seqb (u "etag") (u "last-modified")) with false.
    change (seqb (u "etag") (u "content-length")) with false. cbv iota. rewrite He. now apply seqb_neq. }
  destruct (full_branch now chunk fr q Hh Hc) as (F & Ht & Hl & Hb); auto.
  { now rewrite Hci, andb_false_r. }
  do 2 eexists. split; [exact F|]. split; [exact Ht|]. split; [exact Hl|].
  split; [now apply stat_cr|exact Hb].
Qed.
