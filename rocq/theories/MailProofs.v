(** Proofs about mail. *)
From Coq Require Import List NArith Bool Lia.
From Verif Require Import PyStr PyStrFacts HardModel HardProofs MailModel MailSpec.
Import ListNotations.

(** ** Parts *)
Lemma split1_typed strict t a b : split1 47 t = Some (a, b) -> (strict = true -> b <> []) -> typed strict t a b.
Proof. intros E N. apply split1_some in E as (E & F). apply ty_pair; [exact E|exact F|exact N]. Qed.

Lemma media_typed t : typed true t (fst (media t)) (snd (media t)).
Proof.
  unfold media. destruct (split1 47 t) as [(a, b)|] eqn:E.
  - destruct b as [|c b]; cbn [fst snd].
    + apply split1_some in E as (E & F). eapply ty_empty; [reflexivity|exact E|exact F].
    + apply split1_typed; [exact E|discriminate].
  - apply split1_none in E. apply ty_none. exact E.
Qed.

Lemma attachment_typed t : typed false t (fst (attachment_type (Some t))) (snd (attachment_type (Some t))).
Proof.
  unfold attachment_type. destruct (split1 47 t) as [(a, b)|] eqn:E.
  - apply split1_typed; [exact E|discriminate].
  - apply split1_none in E. apply ty_none. exact E.
Qed.

Lemma leaves_attachment c p : leaves (add_attachment c p) = leaves c ++ leaves p.
Proof.
  unfold add_attachment. destruct c as [a b x n f|s ps].
  - cbn. rewrite app_nil_r. reflexivity.
  - destruct (seqb s (u "mixed")).
    + cbn [leaves]. rewrite flat_map_app. cbn [flat_map]. rewrite app_nil_r. reflexivity.
    + cbn [leaves flat_map]. rewrite app_nil_r. reflexivity.
Qed.

Lemma alternatives_leaves l : forall p p', add_alternatives p l = Done p' ->
  exists qs, leaves p' = leaves p ++ qs /\ Forall2 alternative_of l qs.
Proof.
  induction l as [|(t, c) l IH]; intros p p' H; cbn [add_alternatives] in H.
  - injection H as <-. exists []. rewrite app_nil_r. split; [reflexivity|constructor].
  - cbv zeta in H. destruct (seqb (fst (media t)) (u "text")); [discriminate H|].
    destruct (IH _ _ H) as (qs & E & F). rewrite leaves_attachment, <- app_assoc in E. eexists. split; [exact E|].
    cbn [leaves app]. constructor; [|exact F]. constructor. apply media_typed.
Qed.

Lemma alternatives_ok l : forall p,
  (exists p', add_alternatives p l = Done p') <-> forall t c, In (t, c) l -> fst (media t) <> u "text".
Proof.
  induction l as [|(t, c) l IH]; intros p; cbn [add_alternatives].
  - split; [intros _ ? ? []|intros _; eexists; reflexivity].
  - cbv zeta. destruct (seqb_spec (fst (media t)) (u "text")) as [E|E].
    + split; [intros (p' & H); discriminate H|]. intros H. destruct (H t c (or_introl eq_refl) E).
    + rewrite IH. split.
      * intros H t' c' [X|I]; [|exact (H _ _ I)]. apply pair_equal_spec in X as (<- & _). exact E.
      * intros H t' c' I. apply (H t' c'). right. exact I.
Qed.

Lemma blobs_leaves l : forall p, exists qs, leaves (add_blobs p l) = leaves p ++ qs /\ Forall2 blob_of l qs.
Proof.
  induction l as [|((n, c), t) l IH]; intros p.
  - exists []. cbn. rewrite app_nil_r. split; [reflexivity|constructor].
  - unfold add_blobs. cbn [fold_left fst snd]. cbv zeta.
    destruct (IH (add_attachment p (Leaf (fst (attachment_type t)) (snd (attachment_type t)) c (Some n) true))) as (qs & E & F).
    unfold add_blobs in E. rewrite E, leaves_attachment, <- app_assoc. eexists. split; [reflexivity|]. cbn [leaves app].
    constructor; [|exact F]. destruct t as [t|]; [apply blob_typed, attachment_typed|apply blob_plain].
Qed.

Lemma base_name_spec path : (exists d, path = d ++ 47%N :: base_name path /\ ~ In 47%N (base_name path)) \/
  (path = base_name path /\ ~ In 47%N (base_name path)).
Proof.
  unfold base_name. induction path as [|c path IH]; [right; split; [reflexivity|intros []]|].
  cbn [split_char]. destruct (N.eqb_spec c 47) as [->|N].
  - assert (L : forall l : list str, l <> [] -> last ([] :: l) [] = last l []) by (intros [|x l] Z; [destruct (Z eq_refl)|reflexivity]).
    assert (NE : split_char 47 path <> []).
    { destruct path as [|x path]; [discriminate|]. cbn. destruct (N.eqb x 47); [discriminate|]. destruct (split_char 47 path); discriminate. }
    rewrite L by exact NE. left. destruct IH as [(d & E & F)|(E & F)].
    + exists (47%N :: d). split; [cbn; f_equal; exact E|exact F].
    + exists []. split; [cbn; f_equal; exact E|exact F].
  - destruct (split_char 47 path) as [|w ws] eqn:S.
    + destruct (split_char_nonnil _ _ S).
    + destruct ws as [|w' ws].
      * right. cbn [last] in *. destruct IH as [(d & E & F)|(E & F)].
        -- exfalso. assert (I : In 47%N path) by (rewrite E; apply in_or_app; right; left; reflexivity).
           assert (J : join (u "/") [w] = path) by (rewrite <- S; apply (join_split_char 47)). cbn in J. subst w. contradiction.
        -- split; [f_equal; exact E|]. intros [X|X]; [congruence|]. contradiction.
      * left. cbn [last] in *. set (b := match ws with [] => w' | _ => last ws [] end) in *. destruct IH as [(d & E & F)|(E & F)].
        -- exists (c :: d). split; [cbn; f_equal; exact E|exact F].
        -- exfalso. assert (J : join (u "/") (w :: w' :: ws) = path) by (rewrite <- S; apply (join_split_char 47)).
           assert (I : In 47%N path) by (rewrite <- J; cbn [join]; apply in_or_app; right; left; reflexivity).
           rewrite E in I. contradiction.
Qed.

Lemma file_of_name file f c : file f = Some c -> file_of file f (Leaf (u "application") (u "octet-stream") c (Some (base_name f)) true).
Proof.
  intros E. destruct (base_name_spec f) as [(d & P & F)|(P & F)].
  - set (n := base_name f) in *. clearbody n. subst f. apply f_dir; assumption.
  - set (n := base_name f) in *. clearbody n. subst f. apply f_here; assumption.
Qed.

Lemma files_leaves file l : forall p p', add_files file p l = Done p' ->
  exists qs, leaves p' = leaves p ++ qs /\ Forall2 (file_of file) l qs.
Proof.
  induction l as [|f l IH]; intros p p' H; cbn [add_files] in H.
  - injection H as <-. exists []. rewrite app_nil_r. split; [reflexivity|constructor].
  - destruct (file f) as [c|] eqn:E; [|discriminate H]. destruct (IH _ _ H) as (qs & G & F).
    rewrite leaves_attachment, <- app_assoc in G. eexists. split; [exact G|]. cbn [leaves app].
    constructor; [apply file_of_name; exact E|exact F].
Qed.

Lemma files_ok file l : forall p, (exists p', add_files file p l = Done p') <-> forall f, In f l -> file f <> None.
Proof.
  induction l as [|f l IH]; intros p; cbn [add_files].
  - split; [intros _ ? []|intros _; eexists; reflexivity].
  - destruct (file f) as [c|] eqn:E.
    + rewrite IH. split; [intros H g [<-|I]; [congruence|auto]|intros H g I; apply H; right; exact I].
    + split; [intros (? & H); discriminate H|]. intros H. destruct (H f (or_introl eq_refl) E).
Qed.

Lemma body_part_spec m p : body_part m = Done p -> ~ both m /\ exists q, leaves p = [q] /\ body_of m q.
Proof.
  unfold body_part, both. destruct (body_text m) as [[|c t]|] eqn:T, (body_html m) as [[|d h]|] eqn:H; cbn; intros E;
    try discriminate E; injection E as <-;
    (split; [intros ((? & ? & X) & (? & ? & Y)); congruence|]); eexists; (split; [reflexivity|]);
    first [eapply bo_html; eassumption | eapply bo_text; [rewrite H; auto|exact T] | apply bo_none; [rewrite H|rewrite T]; auto].
Qed.

Lemma body_part_ok m : ~ both m -> exists p, body_part m = Done p.
Proof.
  unfold both, body_part. destruct (body_text m) as [[|c t]|], (body_html m) as [[|d h]|]; cbn; intros N; try (eexists; reflexivity).
  exfalso. apply N. split; eauto.
Qed.

Lemma body_part_both m : both m -> body_part m = Fault MType.
Proof. intros ((c & t & T) & (d & h & H)). unfold body_part. rewrite T, H. reflexivity. Qed.

(** ** Headers *)
Lemma put_headers_done ml new : forall hs hs', put_headers ml hs new = Done hs' ->
  hs' = hs ++ new /\ forall n v, In (n, v) new -> ml v = false.
Proof.
  induction new as [|(n, v) new IH]; intros hs hs' H; cbn [put_headers] in H.
  - injection H as <-. rewrite app_nil_r. split; [reflexivity|intros ? ? []].
  - unfold put_header in H. destruct (smem (lower n) once && has_header hs n); [discriminate H|].
    destruct (ml v) eqn:M; [discriminate H|]. destruct (IH _ _ H) as (-> & F). rewrite <- app_assoc. split; [reflexivity|].
    intros n' v' [X|I]; [|exact (F _ _ I)]. apply pair_equal_spec in X as (_ & <-). exact M.
Qed.

Lemma has_header_iff hs n : has_header hs n = true <-> exists n' v, In (n', v) hs /\ lower n' = lower n.
Proof.
  unfold has_header. rewrite existsb_exists. split.
  - intros ((n' & v) & I & E). exists n', v. split; [exact I|]. apply seqb_eq. exact E.
  - intros (n' & v & I & E). exists (n', v). split; [exact I|]. cbn [fst]. rewrite E. apply seqb_refl.
Qed.

(** A name that a message has at most once occurs once. *)
Lemma put_headers_once ml k new : In k once -> forall hs hs', put_headers ml hs new = Done hs' ->
  length (filter (fun h => seqb (lower (fst h)) k) hs) <= 1 -> length (filter (fun h => seqb (lower (fst h)) k) hs') <= 1.
Proof.
  intros K. induction new as [|(n, v) new IH]; intros hs hs' H L; cbn [put_headers] in H; [now injection H as <-|].
  unfold put_header in H. destruct (smem (lower n) once && has_header hs n) eqn:O; [discriminate H|].
  destruct (ml v); [discriminate H|]. apply (IH _ _ H). rewrite filter_app, app_length. cbn [filter fst].
  destruct (seqb_spec (lower n) k) as [E|E]; [|cbn; rewrite Nat.add_0_r; exact L]. subst k.
  apply smem_In in K. rewrite K in O. cbn in O. cbn [length]. replace (filter _ hs) with (@nil (str * str)); [cbn; auto|].
  symmetry. destruct (filter _ hs) as [|e r] eqn:F; [reflexivity|]. exfalso.
  assert (I : In e (filter (fun h => seqb (lower (fst h)) (lower n)) hs)) by (rewrite F; now left).
  apply filter_In in I as [I E]. assert (T : has_header hs n = true) by (apply existsb_exists; exists e; auto). congruence.
Qed.

Lemma put_headers_ok ml new : forall hs,
  (forall n v, In (n, v) new -> ml v = false) ->
  NoDup (map (fun h => lower (fst h)) (hs ++ new)) ->
  put_headers ml hs new = Done (hs ++ new).
Proof.
  induction new as [|(n, v) new IH]; intros hs F ND; cbn [put_headers]; [rewrite app_nil_r; reflexivity|].
  unfold put_header. replace (has_header hs n) with false.
  - rewrite andb_false_r, (F n v (or_introl eq_refl)).
    rewrite IH; [rewrite <- app_assoc; reflexivity|intros n' v' I; apply (F n' v'); right; exact I|].
    rewrite <- app_assoc. exact ND.
  - symmetry. destruct (has_header hs n) eqn:H; [|reflexivity]. exfalso. apply has_header_iff in H as (n' & v' & I & E).
    rewrite map_app in ND. cbn [map fst] in ND. apply NoDup_remove_2 in ND. apply ND. apply in_or_app. left.
    rewrite <- E. apply (in_map (fun h : str * str => lower (fst h)) _ _ I).
Qed.

(** ** HTML *)
Definition shrinking (f : str -> option str) : Prop := forall s r, f s = Some r -> length r < length s.

Lemma expect_some c s r : expect c s = Some r -> exists a, s = a :: r /\ lower_c a = c.
Proof.
  destruct s as [|a s]; [discriminate|]. cbn. destruct (N.eqb_spec (lower_c a) c) as [E|]; [|discriminate].
  intros H. injection H as <-. exists a. auto.
Qed.
Lemma expect_plain a c r : lower_c a = c -> expect c (a :: r) = Some r.
Proof. intros E. cbn. rewrite E, N.eqb_refl. reflexivity. Qed.
Lemma lower_lt a : lower_c a = 60%N -> a = 60%N.
Proof. unfold lower_c. destruct ((65 <=? a)%N && (a <=? 90)%N) eqn:E; [apply andb_true_iff in E as (E & _); apply N.leb_le in E; lia|auto]. Qed.
Lemma lower_gt a : lower_c a = 62%N -> a = 62%N.
Proof. unfold lower_c. destruct ((65 <=? a)%N && (a <=? 90)%N) eqn:E; [apply andb_true_iff in E as (E & _); apply N.leb_le in E; lia|auto]. Qed.
Lemma lower_slash a : lower_c a = 47%N -> a = 47%N.
Proof. unfold lower_c. destruct ((65 <=? a)%N && (a <=? 90)%N) eqn:E; [apply andb_true_iff in E as (E & _); apply N.leb_le in E; lia|auto]. Qed.

Lemma skip_decomp s : exists w, s = w ++ skip_space s /\ blank w.
Proof.
  destruct (lstrip_by_decomp is_space s) as (w & E & A & _). exists w. split; [exact E|].
  intros c I. rewrite forallb_forall in A. apply A. exact I.
Qed.
Lemma skip_head s c r : skip_space s = c :: r -> is_space c = false.
Proof.
  unfold skip_space. induction s as [|a s IH]; [discriminate|]. cbn. destruct (is_space a) eqn:E; [exact IH|]. intros H. injection H as <- <-. exact E.
Qed.
Lemma skip_app w s : blank w -> skip_space (w ++ s) = skip_space s.
Proof.
  unfold skip_space. induction w as [|c w IH]; intros B; [reflexivity|]. cbn. rewrite (B c (or_introl eq_refl)). apply IH. intros x I. apply B. right. exact I.
Qed.
Lemma skip_stop c s : is_space c = false -> skip_space (c :: s) = c :: s.
Proof. intros E. unfold skip_space. cbn. rewrite E. reflexivity. Qed.
Lemma skip_le s : length (skip_space s) <= length s.
Proof. destruct (skip_decomp s) as (w & E & _). rewrite E at 2. rewrite app_length. lia. Qed.

Lemma match_br_some s r : match_br s = Some r -> exists b, s = 60%N :: b ++ 62%N :: r /\ is_br b.
Proof.
  unfold match_br, bind. destruct (expect 60 s) as [s1|] eqn:E1; [|discriminate].
  destruct (expect 98 (skip_space s1)) as [s2|] eqn:E2; [|discriminate]. destruct (expect 114 s2) as [s3|] eqn:E3; [|discriminate].
  apply expect_some in E1 as (a1 & -> & L1). apply lower_lt in L1 as ->. apply expect_some in E2 as (x & E2 & L2). apply expect_some in E3 as (y & -> & L3).
  destruct (skip_decomp s1) as (w1 & S1 & B1). rewrite E2 in S1. destruct (skip_decomp s3) as (w2 & S3 & B2).
  cbv zeta. destruct (expect 47 (skip_space s3)) as [s4|] eqn:E4.
  - intros E5. apply expect_some in E5 as (g & -> & L5). apply lower_gt in L5 as ->. apply expect_some in E4 as (sl & E4 & L4). apply lower_slash in L4 as ->.
    rewrite E4 in S3. exists (w1 ++ x :: y :: w2 ++ [47%N]). split.
    + rewrite S1, S3. f_equal. rewrite <- app_assoc. f_equal. cbn. do 2 f_equal. rewrite <- app_assoc. reflexivity.
    + exists w1, x, y, w2, [47%N]. repeat (split; [assumption || reflexivity|]). right. reflexivity.
  - intros E5. apply expect_some in E5 as (g & E5 & L5). apply lower_gt in L5 as ->. rewrite E5 in S3.
    exists (w1 ++ x :: y :: w2). split.
    + rewrite S1, S3. f_equal. rewrite <- app_assoc. reflexivity.
    + exists w1, x, y, w2, []. rewrite app_nil_r. repeat (split; [assumption || reflexivity|]). left. reflexivity.
Qed.

Lemma lower_space_b x c : lower_c x = c -> (98 <= c <= 122)%N -> is_space x = false.
Proof.
  unfold lower_c. intros E L. destruct ((65 <=? x)%N && (x <=? 90)%N) eqn:A.
  - apply andb_true_iff in A as (A & B). apply N.leb_le in A, B. unfold is_space.
    repeat (apply orb_false_iff; split); try (apply andb_false_iff); try (apply N.eqb_neq; lia);
      first [left; apply N.leb_gt; lia | right; apply N.leb_gt; lia].
  - subst c. unfold is_space. repeat (apply orb_false_iff; split); try (apply andb_false_iff); try (apply N.eqb_neq; lia);
      first [left; apply N.leb_gt; lia | right; apply N.leb_gt; lia].
Qed.

Lemma match_br_of b r : is_br b -> match_br (60%N :: b ++ 62%N :: r) = Some r.
Proof.
  intros (w1 & x & y & w2 & e & -> & B1 & B2 & L1 & L2 & E). unfold match_br, bind. rewrite expect_plain by reflexivity.
  rewrite <- app_assoc, skip_app by exact B1. cbn [app].
  rewrite skip_stop by (eapply lower_space_b; [exact L1|lia]). rewrite expect_plain by exact L1. rewrite expect_plain by exact L2.
  cbv zeta. rewrite <- app_assoc, skip_app by exact B2.
  destruct E as [->| ->]; reflexivity.
Qed.

Lemma match_p_some s r : match_p s = Some r -> exists b, s = 60%N :: b ++ 62%N :: r /\ is_p b.
Proof.
  unfold match_p, bind. destruct (expect 60 s) as [s1|] eqn:E1; [|discriminate].
  destruct (expect 47 s1) as [s2|] eqn:E2; [|discriminate]. destruct (expect 112 (skip_space s2)) as [s3|] eqn:E3; [|discriminate].
  apply expect_some in E1 as (a1 & -> & L1). apply lower_lt in L1 as ->. apply expect_some in E2 as (x & -> & L2). apply lower_slash in L2 as ->.
  apply expect_some in E3 as (y & E3 & L3). destruct (skip_decomp s2) as (w1 & S1 & B1). rewrite E3 in S1. destruct (skip_decomp s3) as (w2 & S3 & B2).
  intros E4. apply expect_some in E4 as (g & E4 & L4). apply lower_gt in L4 as ->. rewrite E4 in S3.
  exists (47%N :: w1 ++ y :: w2). split.
  - rewrite S1, S3. cbn. do 2 f_equal. rewrite <- app_assoc. reflexivity.
  - exists w1, y, w2. auto.
Qed.

Lemma match_p_of b r : is_p b -> match_p (60%N :: b ++ 62%N :: r) = Some r.
Proof.
  intros (w1 & x & w2 & -> & B1 & B2 & L1). unfold match_p, bind. rewrite expect_plain by reflexivity. cbn [app].
  rewrite expect_plain by reflexivity. rewrite <- app_assoc, skip_app by exact B1. cbn [app].
  rewrite skip_stop by (eapply lower_space_b; [exact L1|lia]). rewrite expect_plain by exact L1.
  rewrite skip_app by exact B2. reflexivity.
Qed.

Lemma match_tag_some s r : match_tag s = Some r <-> exists b, s = 60%N :: b ++ 62%N :: r /\ b <> [] /\ ~ In 62%N b.
Proof.
  unfold match_tag, bind. split.
  - destruct (expect 60 s) as [s1|] eqn:E1; [|discriminate]. apply expect_some in E1 as (a1 & -> & L1). apply lower_lt in L1 as ->.
    destruct s1 as [|c s1]; [discriminate|]. destruct (N.eqb_spec c 62) as [|N]; [discriminate|].
    destruct (split1 62 (c :: s1)) as [(b, r')|] eqn:E; [|discriminate]. intros H. injection H as <-.
    apply split1_some in E as (E & F). exists b. split; [rewrite E; reflexivity|]. split; [|exact F].
    intros ->. cbn in E. congruence.
  - intros (b & -> & N & F). rewrite expect_plain by reflexivity. destruct b as [|c b]; [destruct (N eq_refl)|]. cbn [app].
    destruct (N.eqb_spec c 62) as [->|_]; [destruct (F (or_introl eq_refl))|].
    change (c :: b ++ 62%N :: r) with ((c :: b) ++ 62%N :: r). rewrite split1_app by exact F. reflexivity.
Qed.

Lemma shrink_br : shrinking match_br.
Proof. intros s r H. apply match_br_some in H as (b & -> & _). cbn. rewrite app_length. cbn. lia. Qed.
Lemma shrink_p : shrinking match_p.
Proof. intros s r H. apply match_p_some in H as (b & -> & _). cbn. rewrite app_length. cbn. lia. Qed.
Lemma shrink_tag : shrinking match_tag.
Proof. intros s r H. apply match_tag_some in H as (b & -> & _). cbn. rewrite app_length. cbn. lia. Qed.

Lemma space_run_spec s : s = space_run s ++ skip_space s /\ blank (space_run s).
Proof.
  destruct (skip_decomp s) as (w & E & B). assert (R : space_run s = w).
  { unfold space_run. rewrite E at 1 3. rewrite app_length. replace (length w + length (skip_space s) - length (skip_space s)) with (length w) by lia.
    rewrite firstn_app, Nat.sub_diag, firstn_all, firstn_O, app_nil_r. reflexivity. }
  rewrite R. auto.
Qed.

Lemma rsplit1_some c s a b : rsplit1 c s = Some (a, b) -> s = a ++ c :: b /\ ~ In c b.
Proof.
  unfold rsplit1. destruct (split1 c (rev s)) as [(x, y)|] eqn:E; [|discriminate]. intros H. injection H as <- <-.
  apply split1_some in E as (E & F). split.
  - rewrite <- (rev_involutive s), E, rev_app_distr. cbn. rewrite <- app_assoc. reflexivity.
  - intros I. apply in_rev in I. contradiction.
Qed.
Lemma rsplit1_none c s : rsplit1 c s = None -> ~ In c s.
Proof.
  unfold rsplit1. destruct (split1 c (rev s)) as [(x, y)|] eqn:E; [discriminate|]. intros _ I. apply split1_none in E. apply E. apply in_rev in I. exact I.
Qed.

Lemma match_space_lf_some s r : match_space_lf s = Some r ->
  exists x b, s = x ++ 10%N :: r /\ x <> [] /\ blank x /\ r = b ++ skip_space s /\ blank b /\ ~ In 10%N b.
Proof.
  unfold match_space_lf. destruct (space_run_spec s) as (E & B). destruct (rsplit1 10 (space_run s)) as [([|c a], b)|] eqn:R; try discriminate.
  intros H. injection H as <-. apply rsplit1_some in R as (R & F). exists (c :: a), b. split.
  - rewrite E at 1. rewrite R, <- app_assoc. reflexivity.
  - repeat split; auto; try discriminate; intros x I; apply B; rewrite R; apply in_or_app; [left; exact I|right; right; exact I].
Qed.
Lemma match_space_lf_none c s : match_space_lf (c :: s) = None -> is_space c = true -> ~ In 10%N (space_run s).
Proof.
  unfold match_space_lf. intros H C. assert (R : space_run (c :: s) = c :: space_run s).
  { unfold space_run. unfold skip_space. cbn [lstrip_by]. rewrite C. pose proof (skip_le s) as L. unfold skip_space in L. cbn [length].
    replace (S (length s) - length (lstrip_by is_space s)) with (S (length s - length (lstrip_by is_space s))) by lia. reflexivity. }
  rewrite R in H. intros I. apply in_split in I as (l1 & l2 & I).
  destruct (rsplit1 10 (c :: space_run s)) as [([|y a], b)|] eqn:E; try discriminate H.
  - apply rsplit1_some in E as (E & F). cbn in E. injection E as _ E. apply F. rewrite <- E, I. apply in_or_app. right. left. reflexivity.
  - apply rsplit1_none in E. apply E. right. rewrite I. apply in_or_app. right. left. reflexivity.
Qed.

Lemma match_lf_space_some s r : match_lf_space s = Some r ->
  exists w, s = 10%N :: w ++ r /\ w <> [] /\ blank w /\ r = skip_space r /\ (forall c r', r = c :: r' -> is_space c = false).
Proof.
  unfold match_lf_space. destruct s as [|a s]; [discriminate|].
  assert (A : {a = 10%N} + {a <> 10%N}) by (destruct (N.eq_dec a 10); auto). destruct A as [->|N].
  - destruct s as [|c s]; [discriminate|]. destruct (is_space c) eqn:C; [|discriminate]. intros H. injection H as <-.
    destruct (skip_decomp (c :: s)) as (w & E & B).
    assert (HD : forall c0 r', skip_space (c :: s) = c0 :: r' -> is_space c0 = false) by (intros c0 r'; apply skip_head).
    change (lstrip_by is_space s) with (skip_space s) in *. exists w.
    split; [f_equal; exact E|]. split.
    + intros ->. cbn [app] in E. assert (X := HD c s (eq_sym E)). congruence.
    + split; [exact B|]. split; [|exact HD].
      destruct (skip_space (c :: s)) as [|c0 r'] eqn:Q; [reflexivity|]. symmetry. apply skip_stop. apply (HD c0 r'). reflexivity.
  - intros H. exfalso. destruct a as [|p]; [discriminate H|]. repeat (destruct p as [p|p|]; try discriminate H). apply N. reflexivity.
Qed.
Lemma match_lf_space_none c s : match_lf_space (10%N :: c :: s) = None -> is_space c = false.
Proof. cbn. destruct (is_space c); [discriminate|reflexivity]. Qed.

Lemma shrink_slf : shrinking match_space_lf.
Proof. intros s r H. apply match_space_lf_some in H as (x & b & -> & _). rewrite app_length. cbn. lia. Qed.
Lemma shrink_lfs : shrinking match_lf_space.
Proof. intros s r H. apply match_lf_space_some in H as (w & -> & _). cbn. rewrite app_length. lia. Qed.

(** [re_sub] without fuel. *)
Lemma sub_fuel f rep : shrinking f -> forall n m s, length s <= n -> length s <= m -> sub f rep n s = sub f rep m s.
Proof.
  intros SH. induction n as [|n IH]; intros m s N M.
  - destruct s; [|cbn in N; lia]. destruct m as [|m]; [reflexivity|]. cbn. destruct (f []) as [r|] eqn:E; [|reflexivity]. apply SH in E. cbn in E. lia.
  - destruct m as [|m].
    + destruct s; [|cbn in M; lia]. cbn. destruct (f []) as [r|] eqn:E; [|reflexivity]. apply SH in E. cbn in E. lia.
    + cbn. destruct (f s) as [r|] eqn:E.
      * apply SH in E. f_equal. apply IH; lia.
      * destruct s as [|c s]; [reflexivity|]. f_equal. cbn in N, M. apply IH; lia.
Qed.
Lemma re_sub_eq f rep s : shrinking f ->
  re_sub f rep s = match f s with Some r => rep ++ re_sub f rep r | None => match s with [] => [] | c :: s' => c :: re_sub f rep s' end end.
Proof.
  intros SH. unfold re_sub. destruct s as [|c s].
  - cbn. destruct (f []) as [r|] eqn:E; [|reflexivity]. apply SH in E. cbn in E. lia.
  - cbn [length sub]. destruct (f (c :: s)) as [r|] eqn:E; [|reflexivity]. apply SH in E. cbn in E. f_equal. apply sub_fuel; [exact SH|lia|lia].
Qed.
Lemma re_sub_none f rep c s : shrinking f -> f (c :: s) = None -> re_sub f rep (c :: s) = c :: re_sub f rep s.
Proof. intros SH E. rewrite re_sub_eq by exact SH. rewrite E. reflexivity. Qed.
Lemma re_sub_some f rep s r : shrinking f -> f s = Some r -> re_sub f rep s = rep ++ re_sub f rep r.
Proof. intros SH E. rewrite re_sub_eq by exact SH. rewrite E. reflexivity. Qed.
Lemma re_sub_nil f rep : shrinking f -> re_sub f rep [] = [].
Proof. intros SH. rewrite re_sub_eq by exact SH. destruct (f []) as [r|] eqn:E; [|reflexivity]. apply SH in E. cbn in E. lia. Qed.

(** Induction along a substitution. *)
Lemma sub_ind f (P : str -> Prop) : shrinking f -> P [] ->
  (forall s r, f s = Some r -> P r -> P s) -> (forall c s, f (c :: s) = None -> P s -> P (c :: s)) -> forall s, P s.
Proof.
  intros SH P0 P1 P2 s. remember (length s) as n eqn:E. revert s E. induction n as [n IH] using lt_wf_ind. intros s ->.
  destruct (f s) as [r|] eqn:F.
  - apply (P1 s r F). apply (IH (length r)); [apply SH; exact F|reflexivity].
  - destruct s as [|c s]; [exact P0|]. apply P2; [exact F|]. apply (IH (length s)); [cbn; lia|reflexivity].
Qed.

(** ** No tags are left *)
Lemma tags_gone s : ~ tag_in (re_sub match_tag [] s).
Proof.
  apply (sub_ind match_tag (fun s => ~ tag_in (re_sub match_tag [] s) /\ forall c, In c (re_sub match_tag [] s) -> In c s)); [exact shrink_tag| | |].
  - rewrite re_sub_nil by exact shrink_tag. split; [|auto]. intros (a & b & c & E & _). destruct a; discriminate E.
  - intros s0 r E (T & I). rewrite (re_sub_some _ _ _ _ shrink_tag E). cbn [app]. split; [exact T|].
    intros c J. apply match_tag_some in E as (b & -> & _). right. apply in_or_app. right. right. auto.
  - intros c s0 E (T & I). rewrite (re_sub_none _ _ _ _ shrink_tag E). split.
    + intros (a & b & d & X & N & F). destruct a as [|a0 a].
      * cbn [app] in X. injection X as -> X. apply T. exfalso.
        assert (H : match_tag (60%N :: s0) <> None -> False) by (intros H; apply H; exact E). apply H. clear H.
        assert (G : In 62%N s0) by (apply I; rewrite X; apply in_or_app; right; left; reflexivity).
        destruct (split1 62 s0) as [(b', r')|] eqn:S; [|apply split1_none in S; contradiction].
        apply split1_some in S as (S & F'). destruct b' as [|x b'].
        -- (* s0 starts with ">" *) exfalso. cbn in S. subst s0.
           assert (R : re_sub match_tag [] (62%N :: r') = 62%N :: re_sub match_tag [] r') by (apply re_sub_none; [exact shrink_tag|reflexivity]).
           rewrite R in X. destruct b as [|y b]; [destruct (N eq_refl)|]. cbn in X. injection X as <- _. apply F. left. reflexivity.
        -- intros M. assert (K : match_tag (60%N :: s0) = Some r').
           { apply match_tag_some. exists (x :: b'). split; [rewrite S; reflexivity|]. split; [discriminate|exact F']. }
           congruence.
      * cbn [app] in X. injection X as _ X. apply T. exists a, b, d. auto.
    + intros x [<-|J]; [left; reflexivity|right; auto].
Qed.

(** Removing white space. *)
Inductive sparser : str -> str -> Prop :=
| sp_nil : sparser [] []
| sp_keep c s s' : sparser s s' -> sparser (c :: s) (c :: s')
| sp_drop c s s' : is_space c = true -> sparser s s' -> sparser (c :: s) s'.

Lemma sparser_refl s : sparser s s.
Proof. induction s; constructor; assumption. Qed.
Lemma sparser_drop w s s' : blank w -> sparser s s' -> sparser (w ++ s) s'.
Proof. induction w as [|c w IH]; intros B H; [exact H|]. cbn. apply sp_drop; [apply B; left; reflexivity|]. apply IH; [|exact H]. intros x I. apply B. right. exact I. Qed.
Lemma sparser_app s s' t t' : sparser s s' -> sparser t t' -> sparser (s ++ t) (s' ++ t').
Proof. induction 1; intros H'; cbn; [exact H'|apply sp_keep; auto|apply sp_drop; auto]. Qed.
Lemma sparser_split s a' x b' : sparser s (a' ++ x :: b') -> exists a b, s = a ++ x :: b /\ sparser a a' /\ sparser b b'.
Proof.
  remember (a' ++ x :: b') as s' eqn:E. intros H. revert a' E. induction H as [|c s s' H IH|c s s' C H IH]; intros a' E.
  - destruct a'; discriminate E.
  - destruct a' as [|y a']; cbn in E; injection E as -> E.
    + subst s'. exists [], s. split; [reflexivity|]. split; [constructor|exact H].
    + destruct (IH _ E) as (a & b & -> & A & B). exists (y :: a), b. split; [reflexivity|]. split; [constructor; exact A|exact B].
  - destruct (IH _ E) as (a & b & -> & A & B). exists (c :: a), b. split; [reflexivity|]. split; [apply sp_drop; assumption|exact B].
Qed.
Lemma sparser_in s s' c : sparser s s' -> is_space c = false -> In c s -> In c s'.
Proof. induction 1 as [|a s s' H IH|a s s' A H IH]; intros C I; [exact I| |]; destruct I as [->|I]; [left; reflexivity|right; auto|congruence|auto]. Qed.
Lemma sparser_trans a b c : sparser a b -> sparser b c -> sparser a c.
Proof.
  intros H. revert c. induction H as [|x s s' H IH|x s s' X H IH]; intros c K; [exact K| |apply sp_drop; auto].
  inversion K; subst; [constructor; auto|apply sp_drop; auto].
Qed.

Lemma sparser_tags s s' : sparser s s' -> ~ tag_in s -> ~ tag_in s'.
Proof.
  intros H N (a' & b' & c' & -> & NE & F). apply N. cbn [app] in H. apply sparser_split in H as (a & r & -> & A & H).
  apply sparser_split in H as (b & c & -> & B & C). exists a, b, c. split; [reflexivity|]. split.
  - intros ->. inversion B. congruence.
  - intros I. apply F. apply (sparser_in _ _ _ B); [reflexivity|exact I].
Qed.

Lemma slf_sparser s : sparser s (re_sub match_space_lf [10%N] s).
Proof.
  apply (sub_ind match_space_lf (fun s => sparser s (re_sub match_space_lf [10%N] s))); [exact shrink_slf| | |].
  - rewrite re_sub_nil by exact shrink_slf. constructor.
  - intros s0 r E IH. rewrite (re_sub_some _ _ _ _ shrink_slf E). apply match_space_lf_some in E as (x & b & -> & _ & B & _).
    apply sparser_drop; [exact B|]. cbn. constructor. exact IH.
  - intros c s0 E IH. rewrite (re_sub_none _ _ _ _ shrink_slf E). constructor. exact IH.
Qed.
Lemma lfs_sparser s : sparser s (re_sub match_lf_space [10%N] s).
Proof.
  apply (sub_ind match_lf_space (fun s => sparser s (re_sub match_lf_space [10%N] s))); [exact shrink_lfs| | |].
  - rewrite re_sub_nil by exact shrink_lfs. constructor.
  - intros s0 r E IH. rewrite (re_sub_some _ _ _ _ shrink_lfs E). apply match_lf_space_some in E as (w & -> & _ & B & _).
    cbn. constructor. apply sparser_drop; [exact B|exact IH].
  - intros c s0 E IH. rewrite (re_sub_none _ _ _ _ shrink_lfs E). constructor. exact IH.
Qed.
Lemma strip_sparser s : sparser s (strip s).
Proof.
  unfold strip, strip_by. destruct (lstrip_by_decomp is_space s) as (a & E & A & _).
  destruct (rstrip_by_decomp is_space (lstrip_by is_space s)) as (b & E' & B & _).
  rewrite E at 1. apply sparser_drop; [intros c I; rewrite forallb_forall in A; auto|]. rewrite E' at 1.
  rewrite <- (app_nil_r (rstrip_by _ _)) at 2. apply sparser_app; [apply sparser_refl|]. rewrite <- (app_nil_r b).
  apply sparser_drop; [intros c I; rewrite forallb_forall in B; auto|constructor].
Qed.

(** ** Words stay *)
Lemma slf_words s : forall cur, words_from is_space cur (re_sub match_space_lf [10%N] s) = words_from is_space cur s.
Proof.
  apply (sub_ind match_space_lf (fun s => forall cur, words_from is_space cur (re_sub match_space_lf [10%N] s) = words_from is_space cur s)); [exact shrink_slf| | |].
  - intros cur. rewrite re_sub_nil by exact shrink_slf. reflexivity.
  - intros s0 r E IH cur. rewrite (re_sub_some _ _ _ _ shrink_slf E). apply match_space_lf_some in E as (x & b & -> & NE & B & _).
    destruct x as [|c x]; [destruct (NE eq_refl)|]. cbn [app words_from]. rewrite (B c (or_introl eq_refl)).
    replace (is_space 10) with true by reflexivity. rewrite !IH.
    assert (L : words_from is_space [] (x ++ 10%N :: r) = words_from is_space [] r).
    { change (words is_space (x ++ 10%N :: r) = words is_space r). rewrite words_lead; [apply words_space; reflexivity|].
      apply forallb_forall. intros y I. apply B. right. exact I. }
    rewrite L. reflexivity.
  - intros c s0 E IH cur. rewrite (re_sub_none _ _ _ _ shrink_slf E). cbn [words_from]. destruct (is_space c); rewrite !IH; reflexivity.
Qed.
Lemma lfs_words s : forall cur, words_from is_space cur (re_sub match_lf_space [10%N] s) = words_from is_space cur s.
Proof.
  apply (sub_ind match_lf_space (fun s => forall cur, words_from is_space cur (re_sub match_lf_space [10%N] s) = words_from is_space cur s)); [exact shrink_lfs| | |].
  - intros cur. rewrite re_sub_nil by exact shrink_lfs. reflexivity.
  - intros s0 r E IH cur. rewrite (re_sub_some _ _ _ _ shrink_lfs E). apply match_lf_space_some in E as (w & -> & _ & B & _).
    cbn [app words_from]. replace (is_space 10) with true by reflexivity. rewrite !IH.
    assert (L : words_from is_space [] (w ++ r) = words_from is_space [] r).
    { change (words is_space (w ++ r) = words is_space r). apply words_lead. apply forallb_forall. intros y I. apply B. exact I. }
    rewrite L. reflexivity.
  - intros c s0 E IH cur. rewrite (re_sub_none _ _ _ _ shrink_lfs E). cbn [words_from]. destruct (is_space c); rewrite !IH; reflexivity.
Qed.

(** ** Line feeds stand alone *)
Definition alone_before (s : str) : Prop := forall a x b, s = a ++ x :: 10%N :: b -> is_space x = false.
Definition alone_after (s : str) : Prop := forall a x b, s = a ++ 10%N :: x :: b -> is_space x = false.

Lemma alone_before_cons c s : (forall b, s = 10%N :: b -> is_space c = false) -> alone_before s -> alone_before (c :: s).
Proof.
  intros H A a x b E. destruct a as [|y a]; cbn in E; injection E as -> E; [exact (H _ E)|exact (A _ _ _ E)].
Qed.
Lemma alone_after_cons c s : (c = 10%N -> forall x b, s = x :: b -> is_space x = false) -> alone_after s -> alone_after (c :: s).
Proof.
  intros H A a x b E. destruct a as [|y a]; cbn in E; injection E as -> E; [exact (H eq_refl _ _ E)|exact (A _ _ _ E)].
Qed.

Lemma slf_head s : ~ In 10%N (space_run s) -> forall b, re_sub match_space_lf [10%N] s <> 10%N :: b.
Proof.
  intros N b E. destruct s as [|c s]; [rewrite re_sub_nil in E by exact shrink_slf; discriminate E|].
  destruct (match_space_lf (c :: s)) as [r|] eqn:F.
  - unfold match_space_lf in F. destruct (rsplit1 10 (space_run (c :: s))) as [([|y a], b')|] eqn:R; try discriminate F.
    apply rsplit1_some in R as (R & _). apply N. rewrite R. apply in_or_app. right. left. reflexivity.
  - rewrite (re_sub_none _ _ _ _ shrink_slf F) in E. injection E as -> _. apply N. unfold space_run, skip_space. cbn [lstrip_by].
    replace (is_space 10) with true by reflexivity. pose proof (skip_le s) as L. unfold skip_space in L. cbn [length].
    replace (S (length s) - length (lstrip_by is_space s)) with (S (length s - length (lstrip_by is_space s))) by lia. left. reflexivity.
Qed.

Lemma space_run_app b s : blank b -> space_run (b ++ s) = b ++ space_run s.
Proof.
  intros B. unfold space_run. rewrite skip_app by exact B. rewrite app_length. pose proof (skip_le s).
  replace (length b + length s - length (skip_space s)) with (length b + (length s - length (skip_space s))) by lia.
  rewrite firstn_app_2. reflexivity.
Qed.
Lemma space_run_skip s : space_run (skip_space s) = [].
Proof.
  unfold space_run. destruct (skip_space s) as [|c r] eqn:E; [reflexivity|]. rewrite (skip_stop c r (skip_head _ _ _ E)), Nat.sub_diag. reflexivity.
Qed.

Lemma slf_alone s : alone_before (re_sub match_space_lf [10%N] s).
Proof.
  apply (sub_ind match_space_lf (fun s => alone_before (re_sub match_space_lf [10%N] s))); [exact shrink_slf| | |].
  - rewrite re_sub_nil by exact shrink_slf. intros a x b E. destruct a; discriminate E.
  - intros s0 r E IH. rewrite (re_sub_some _ _ _ _ shrink_slf E). apply match_space_lf_some in E as (x & b & _ & _ & _ & R & B & F).
    cbn. apply alone_before_cons; [|exact IH]. intros b' X. exfalso. revert X. apply slf_head. rewrite R, space_run_app by exact B.
    rewrite space_run_skip, app_nil_r. exact F.
  - intros c s0 E IH. rewrite (re_sub_none _ _ _ _ shrink_slf E). apply alone_before_cons; [|exact IH]. intros b X.
    destruct (is_space c) eqn:C; [|reflexivity]. exfalso. revert X. apply slf_head. apply (match_space_lf_none c); assumption.
Qed.

Lemma lfs_head s : match re_sub match_lf_space [10%N] s with [] => s = [] | c :: _ => exists s', s = c :: s' end.
Proof.
  destruct s as [|c s]; [rewrite re_sub_nil by exact shrink_lfs; reflexivity|].
  destruct (match_lf_space (c :: s)) as [r|] eqn:F.
  - rewrite (re_sub_some _ _ _ _ shrink_lfs F). apply match_lf_space_some in F as (w & E & _). injection E as -> E. cbn. eexists. reflexivity.
  - rewrite (re_sub_none _ _ _ _ shrink_lfs F). eexists. reflexivity.
Qed.

Lemma lfs_alone s : alone_before s -> alone_before (re_sub match_lf_space [10%N] s) /\ alone_after (re_sub match_lf_space [10%N] s).
Proof.
  apply (sub_ind match_lf_space (fun s => alone_before s -> alone_before (re_sub match_lf_space [10%N] s) /\ alone_after (re_sub match_lf_space [10%N] s))); [exact shrink_lfs| | |].
  - intros _. rewrite re_sub_nil by exact shrink_lfs. split; intros a x b E; destruct a; discriminate E.
  - intros s0 r E IH A. rewrite (re_sub_some _ _ _ _ shrink_lfs E). apply match_lf_space_some in E as (w & -> & _ & _ & _ & HD).
    assert (AR : alone_before r).
    { intros a x b ->. apply (A (10%N :: w ++ a) x b). cbn. rewrite <- app_assoc. reflexivity. }
    destruct (IH AR) as (I1 & I2). cbn. assert (NH : forall x b, re_sub match_lf_space [10%N] r = x :: b -> is_space x = false).
    { intros x b X. pose proof (lfs_head r) as H. rewrite X in H. destruct H as (s' & H). exact (HD _ _ H). }
    split; [apply alone_before_cons; [|exact I1]|apply alone_after_cons; [|exact I2]].
    + intros b X. apply NH in X. discriminate X.
    + intros _. exact NH.
  - intros c s0 E IH A. rewrite (re_sub_none _ _ _ _ shrink_lfs E).
    assert (AR : alone_before s0) by (intros a x b ->; apply (A (c :: a) x b); reflexivity).
    destruct (IH AR) as (I1 & I2). pose proof (lfs_head s0) as H.
    split; [apply alone_before_cons; [|exact I1]|apply alone_after_cons; [|exact I2]].
    + intros b X. rewrite X in H. destruct H as (s' & ->). apply (A [] c s'). reflexivity.
    + intros -> x b X. rewrite X in H. destruct H as (s' & ->). apply (match_lf_space_none x s'). exact E.
Qed.

Lemma strip_inside s : exists a b, s = a ++ strip s ++ b.
Proof.
  unfold strip, strip_by. destruct (lstrip_by_decomp is_space s) as (a & E & _).
  destruct (rstrip_by_decomp is_space (lstrip_by is_space s)) as (b & E' & _). exists a, b. rewrite E at 1. rewrite E' at 1. reflexivity.
Qed.
Lemma strip_ends s c : (exists r, strip s = c :: r) \/ (exists r, strip s = r ++ [c]) -> is_space c = false.
Proof.
  unfold strip, strip_by. destruct (lstrip_by_decomp is_space s) as (a & E & _ & H).
  destruct (rstrip_by_decomp is_space (lstrip_by is_space s)) as (b & E' & B & H'). intros [(r & X)|(r & X)].
  - rewrite X in E'. cbn in E'. assert (K : lstrip_by is_space s = c :: (r ++ b)) by exact E'.
    apply (skip_head s c (r ++ b)). exact K.
  - destruct (is_space c) eqn:C; [|reflexivity]. exfalso.
    assert (K : rev (lstrip_by is_space (rev (lstrip_by is_space s))) = r ++ [c]) by exact X.
    apply (f_equal (@rev N)) in K. rewrite rev_involutive, rev_app_distr in K. cbn in K. apply (skip_head _ _ _) in K. congruence.
Qed.

(** ** Segments *)
(** Text through which a substitution passes. *)
Definition inert (f : str -> option str) (x : str) : Prop := forall a b r, x = a ++ b -> b <> [] -> f (b ++ r) = None.

Lemma re_sub_inert f rep x r : shrinking f -> inert f x -> re_sub f rep (x ++ r) = x ++ re_sub f rep r.
Proof.
  intros SH. induction x as [|c x IH]; intros I; [reflexivity|]. cbn [app]. rewrite re_sub_none; [|exact SH|].
  - f_equal. apply IH. intros a b r' -> N. apply (I (c :: a) b); [reflexivity|exact N].
  - apply (I [] (c :: x)); [reflexivity|discriminate].
Qed.

Lemma no_lt f x : (forall s r, f s = Some r -> exists s', s = 60%N :: s') -> ~ In 60%N x -> inert f x.
Proof.
  intros H N a b r -> NE. destruct (f (b ++ r)) as [q|] eqn:E; [|reflexivity]. exfalso. apply H in E as (s' & E).
  destruct b as [|c b]; [destruct (NE eq_refl)|]. cbn in E. injection E as -> _. apply N. apply in_or_app. right. left. reflexivity.
Qed.

Lemma close_unique b b' r r' : ~ In 62%N b -> ~ In 62%N b' -> b ++ 62%N :: r = b' ++ 62%N :: r' -> b = b' /\ r = r'.
Proof.
  revert b'. induction b as [|c b IH]; intros [|c' b'] N N' E; cbn in E.
  - injection E as ->. auto.
  - injection E as <- _. destruct (N' (or_introl eq_refl)).
  - injection E as -> _. destruct (N (or_introl eq_refl)).
  - injection E as -> E. destruct (IH b') as (-> & ->); auto.
    + intros I. apply N. right. exact I.
    + intros I. apply N'. right. exact I.
Qed.

Lemma blank_no w c : blank w -> In c w -> is_space c = false -> False.
Proof. intros B I C. rewrite (B c I) in C. discriminate C. Qed.

Lemma is_br_closed b : is_br b -> ~ In 62%N b /\ ~ In 60%N b.
Proof.
  intros (w1 & x & y & w2 & e & -> & B1 & B2 & L1 & L2 & E).
  assert (X : x <> 62%N /\ x <> 60%N) by (split; intros ->; vm_compute in L1; discriminate L1).
  assert (Y : y <> 62%N /\ y <> 60%N) by (split; intros ->; vm_compute in L2; discriminate L2).
  split; intros I; apply in_app_or in I as [I|[I|[I|I]]]; try tauto; try (exact (blank_no _ _ B1 I eq_refl));
    apply in_app_or in I as [I|I]; try (exact (blank_no _ _ B2 I eq_refl));
    destruct E as [->| ->]; cbn in I; try (destruct I as [I|I]; [discriminate I|]); exact I.
Qed.
Lemma is_p_closed b : is_p b -> ~ In 62%N b /\ ~ In 60%N b.
Proof.
  intros (w1 & x & w2 & -> & B1 & B2 & L1).
  assert (X : x <> 62%N /\ x <> 60%N) by (split; intros ->; vm_compute in L1; discriminate L1).
  split; intros [I|I]; try discriminate I; apply in_app_or in I as [I|[I|I]]; try tauto;
    first [exact (blank_no _ _ B1 I eq_refl) | exact (blank_no _ _ B2 I eq_refl)].
Qed.
Lemma br_not_p b : is_br b -> ~ is_p b.
Proof.
  intros (w1 & x & y & w2 & e & E & B1 & _ & L1 & _) (v1 & z & v2 & E' & _). rewrite E in E'.
  destruct w1 as [|c w1]; cbn in E'; injection E' as -> _; [discriminate L1|]. assert (K := B1 47%N (or_introl eq_refl)). discriminate K.
Qed.

Lemma br_lt s r : match_br s = Some r -> exists s', s = 60%N :: s'.
Proof. intros H. apply match_br_some in H as (b & -> & _). eexists. reflexivity. Qed.
Lemma p_lt s r : match_p s = Some r -> exists s', s = 60%N :: s'.
Proof. intros H. apply match_p_some in H as (b & -> & _). eexists. reflexivity. Qed.
Lemma tag_lt s r : match_tag s = Some r -> exists s', s = 60%N :: s'.
Proof. intros H. apply match_tag_some in H as (b & -> & _). eexists. reflexivity. Qed.

(** A tag of another kind is passed. *)
Lemma other_tag f (kind : str -> Prop) b : (forall s r, f s = Some r -> exists b', s = 60%N :: b' ++ 62%N :: r /\ kind b') ->
  (forall b', kind b' -> ~ In 62%N b') -> ~ In 60%N b -> ~ In 62%N b -> ~ kind b -> inert f ([60%N] ++ b ++ [62%N]).
Proof.
  intros H K N60 N62 NK a b' r E NE. destruct (f (b' ++ r)) as [q|] eqn:F; [|reflexivity]. exfalso. apply H in F as (b0 & X & KB).
  destruct a as [|c a].
  - cbn in E. subst b'. cbn in X. injection X as X. rewrite <- app_assoc in X. cbn in X.
    apply close_unique in X as (-> & _); [contradiction|exact N62|exact (K _ KB)].
  - cbn in E. injection E as _ E. destruct b' as [|d b']; [destruct (NE eq_refl)|]. cbn in X. injection X as -> _.
    assert (I : In 60%N (b ++ [62%N])) by (rewrite E; apply in_or_app; right; left; reflexivity).
    apply in_app_or in I as [I|[I|[]]]; [contradiction|discriminate I].
Qed.

(** After each substitution some kinds of segments have become text. *)
Lemma sub_segments f rep (g : seg -> option seg) l :
  shrinking f ->
  (forall s, In s l -> match g s with
                       | None => forall r, f (render1 s ++ r) = Some r
                       | Some s' => render1 s' = render1 s /\ inert f (render1 s) end) ->
  re_sub f rep (render l) = render (map (fun s => match g s with None => Txt rep | Some s' => s' end) l).
Proof.
  intros SH. induction l as [|s l IH]; intros H; [apply re_sub_nil; exact SH|]. cbn [render flat_map map].
  pose proof (H s (or_introl eq_refl)) as HS. destruct (g s) as [s'|].
  - destruct HS as (E & I). rewrite re_sub_inert by assumption. unfold render in IH. rewrite IH by (intros; apply H; right; assumption). rewrite E. reflexivity.
  - rewrite (re_sub_some f rep _ (render l) SH (HS (flat_map render1 l))). unfold render in *. rewrite IH by (intros; apply H; right; assumption). reflexivity.
Qed.

Definition after_br (s : seg) : option seg := match s with Br _ => None | _ => Some s end.
Definition after_p (s : seg) : option seg := match s with EndP _ => None | _ => Some s end.
Definition after_tag (s : seg) : option seg := match s with Txt _ => Some s | _ => None end.

Definition step_br (s : seg) : seg := match after_br s with None => Txt [10%N] | Some s' => s' end.
Definition step_p (s : seg) : seg := match after_p s with None => Txt [10%N; 10%N] | Some s' => s' end.
Definition step_tag (s : seg) : seg := match after_tag s with None => Txt [] | Some s' => s' end.

Lemma br_segments l : (forall s, In s l -> proper s) -> re_sub match_br [10%N] (render l) = render (map step_br l).
Proof.
  intros P. unfold step_br. apply (sub_segments match_br [10%N] after_br l shrink_br). intros s I. specialize (P s I). destruct s as [t|b|b|b]; cbn [after_br].
  - split; [reflexivity|]. apply (no_lt _ _ br_lt). exact P.
  - destruct P as (N & A & B & C & D). split; [reflexivity|]. apply (other_tag match_br is_br b match_br_some); auto. intros b' K. apply (is_br_closed b' K).
  - intros r. cbn [render1 app]. rewrite <- app_assoc. apply match_br_of. exact P.
  - split; [reflexivity|]. cbn in P. destruct (is_p_closed b P). apply (other_tag match_br is_br b match_br_some); auto.
    + intros b' K. apply (is_br_closed b' K).
    + intros K. apply (br_not_p b K). exact P.
Qed.

Lemma p_segments l : (forall s, In s l -> proper s /\ forall b, s <> Br b) -> re_sub match_p [10%N; 10%N] (render l) = render (map step_p l).
Proof.
  intros P. unfold step_p. apply (sub_segments match_p [10%N; 10%N] after_p l shrink_p). intros s I. destruct (P s I) as (Q & NB). destruct s as [t|b|b|b]; cbn [after_p].
  - split; [reflexivity|]. apply (no_lt _ _ p_lt). exact Q.
  - destruct Q as (N & A & B & C & D). split; [reflexivity|]. apply (other_tag match_p is_p b match_p_some); auto. intros b' K. apply (is_p_closed b' K).
  - destruct (NB b eq_refl).
  - intros r. cbn [render1 app]. rewrite <- app_assoc. apply match_p_of. exact Q.
Qed.

Lemma tag_segments l : (forall s, In s l -> proper s /\ (forall b, s <> Br b) /\ forall b, s <> EndP b) ->
  re_sub match_tag [] (render l) = render (map step_tag l).
Proof.
  intros P. unfold step_tag. apply (sub_segments match_tag [] after_tag l shrink_tag). intros s I. destruct (P s I) as (Q & NB & NP). destruct s as [t|b|b|b]; cbn [after_tag].
  - split; [reflexivity|]. apply (no_lt _ _ tag_lt). exact Q.
  - destruct Q as (N & A & B & C & D). intros r. cbn [render1 app]. rewrite <- app_assoc. apply match_tag_some. exists b. auto.
  - destruct (NB b eq_refl).
  - destruct (NP b eq_refl).
Qed.
