From Verif Require Import PyStr PyStrFacts PathModel PathSpec.

(** * clean_path *)
Definition nonempty (w : str) : bool := match w with [] => false | _ => true end.
Lemma segments_unfold p : segments p = filter nonempty (split_char slash p).
Proof. reflexivity. Qed.

Lemma segments_slash s : segments (slash :: s) = segments s.
Proof. unfold segments. cbn [split_char]. rewrite N.eqb_refl. reflexivity. Qed.

Lemma segments_word w s : ~ In slash w -> w <> [] -> segments (w ++ slash :: s) = w :: segments s.
Proof.
  intros Hw Hn. unfold segments.
  rewrite split_char_app by assumption. cbn [filter]. destruct w; [congruence|reflexivity].
Qed.
Lemma segments_one w : ~ In slash w -> w <> [] -> segments w = [w].
Proof. intros Hw Hn. unfold segments. rewrite split_char_free by assumption. cbn. destruct w; [congruence|reflexivity]. Qed.

Lemma not_ends_tl c s : (forall a, c :: s <> a ++ [slash]) -> forall a, s <> a ++ [slash].
Proof. intros H a ->. exact (H (c :: a) eq_refl). Qed.

Lemma segments_nonnil s : s <> [] -> (forall a, s <> a ++ [slash]) -> segments s <> [].
Proof.
  induction s as [|c s IH]; [congruence|]. intros _ He.
  destruct (N.eq_dec c slash) as [->|Hc].
  - rewrite segments_slash. apply IH; [|exact (not_ends_tl _ _ He)]. intros ->. exact (He [] eq_refl).
  - unfold segments. cbn [split_char]. destruct (N.eqb_spec c slash); [congruence|].
    destruct (split_char slash s); cbn; discriminate.
Qed.

Lemma collapse_segments s : (forall a, s <> a ++ [slash]) ->
  collapse true s = join [slash] (segments s) /\
  forall w, ~ In slash w -> w <> [] -> w ++ collapse false s = join [slash] (segments (w ++ s)).
Proof.
  induction s as [|c s IH]; intros He.
  - split; [reflexivity|]. intros w Hw Hn. cbn [collapse]. rewrite !app_nil_r, segments_one by assumption. reflexivity.
  - destruct (IH (not_ends_tl _ _ He)) as [I1 I2]. cbn [collapse]. unfold is_slash.
    destruct (N.eqb_spec c slash) as [->|Hc].
    + split; [now rewrite segments_slash|]. intros w Hw Hn.
      rewrite segments_word by assumption. rewrite I1.
      assert (segments s <> []) as Hs.
      { apply segments_nonnil; [|exact (not_ends_tl _ _ He)]. intros ->. exact (He [] eq_refl). }
      destruct (segments s) as [|x xs]; [congruence|]. reflexivity.
    + split.
      * assert (~ In slash [c]) as Hc1 by (intros [E|[]]; congruence).
        specialize (I2 [c] Hc1 ltac:(discriminate)). exact I2.
      * intros w Hw Hn. specialize (I2 (w ++ [c])). rewrite <- !app_assoc in I2. apply I2.
        -- intros H. apply in_app_or in H. destruct H as [H|[H|[]]]; [auto|congruence].
        -- destruct w; discriminate.
Qed.

Lemma rstrip_slash_shape p : exists n, p = rstrip_by is_slash p ++ repeat slash n /\
  forall a, rstrip_by is_slash p <> a ++ [slash].
Proof.
  unfold rstrip_by.
  assert (forall r, exists n, r = repeat slash n ++ lstrip_by is_slash r /\ forall b, lstrip_by is_slash r <> slash :: b) as H.
  { induction r as [|c r [n [E Hn]]]; [exists 0; split; [reflexivity|discriminate]|].
    cbn [lstrip_by]. unfold is_slash at 1 3. destruct (N.eqb_spec c slash) as [->|Hc].
    - exists (S n). split; [cbn; now f_equal|assumption].
    - exists 0. split; [reflexivity|]. intros b E'. congruence. }
  destruct (H (rev p)) as [n [E Hn]]. exists n. split.
  - rewrite <- (rev_involutive p) at 1. rewrite E at 1. rewrite rev_app_distr. f_equal.
    clear. induction n; [reflexivity|]. cbn. rewrite IHn. clear.
    assert (forall m, repeat slash m ++ [slash] = slash :: repeat slash m) as R.
    { induction m; [reflexivity|]. cbn. now rewrite IHm. }
    apply R.
  - intros a E'. apply (f_equal (@rev N)) in E'. rewrite rev_involutive, rev_app_distr in E'. cbn in E'. exact (Hn _ E').
Qed.

Lemma split_char_cat c p s : split_char c (p ++ c :: s) = split_char c p ++ split_char c s.
Proof.
  induction p as [|a p IH]; cbn [app split_char].
  - rewrite N.eqb_refl. reflexivity.
  - destruct (N.eqb a c); [now rewrite IH|]. rewrite IH.
    pose proof (split_char_nonnil c p). destruct (split_char c p); [congruence|reflexivity].
Qed.
Lemma segments_cat p s : segments (p ++ slash :: s) = segments p ++ segments s.
Proof. unfold segments. rewrite split_char_cat. apply filter_app. Qed.
Lemma segments_slashes n : segments (repeat slash n) = [].
Proof. induction n; [reflexivity|]. cbn [repeat]. rewrite segments_slash. exact IHn. Qed.
Lemma segments_app_slashes p n : segments (p ++ repeat slash n) = segments p.
Proof.
  destruct n; cbn [repeat]; [now rewrite app_nil_r|]. rewrite segments_cat, segments_slashes. apply app_nil_r.
Qed.

(** clean_path is the canonical path of the segments. *)
Lemma clean_path_segments p : clean_path p = slash :: join [slash] (segments p).
Proof.
  destruct (rstrip_slash_shape p) as [n [E He]]. rewrite E at 2. rewrite segments_app_slashes.
  unfold clean_path. set (q := rstrip_by is_slash p) in *. clearbody q.
  destruct q as [|c q].
  - reflexivity.
  - cbn [prefixb]. destruct (N.eqb_spec slash c) as [<-|Hc].
    + cbn [andb collapse]. unfold is_slash at 1. rewrite N.eqb_refl.
      rewrite segments_slash. f_equal. apply collapse_segments. exact (not_ends_tl _ _ He).
    + cbn [andb collapse]. unfold is_slash. rewrite N.eqb_refl.
      destruct (N.eqb_spec c slash); [congruence|]. f_equal.
      destruct (collapse_segments q (not_ends_tl _ _ He)) as [_ H]. apply (H [c]); [|discriminate].
      intros [E'|[]]; congruence.
Qed.

Lemma segments_wf p w : In w (segments p) -> w <> [] /\ ~ In slash w.
Proof.
  unfold segments. rewrite filter_In. intros [H1 H2]. split; [destruct w; congruence|].
  now apply split_char_parts_free in H1.
Qed.
Lemma segments_join ws : (forall w, In w ws -> w <> [] /\ ~ In slash w) -> segments (join [slash] ws) = ws.
Proof.
  intros H. destruct ws as [|w ws]; [reflexivity|]. unfold segments.
  rewrite split_char_join; [|discriminate|intros x Hx; now apply H].
  induction (w :: ws) as [|x xs IH]; [reflexivity|]. cbn [filter].
  destruct (H x (or_introl eq_refl)) as [Hx _]. destruct x; [congruence|]. f_equal. apply IH. intros y Hy. apply H. now right.
Qed.
Lemma clean_path_keeps_segments p : segments (clean_path p) = segments p.
Proof. rewrite clean_path_segments, segments_slash. apply segments_join. apply segments_wf. Qed.

Lemma canonical_segments p : canonical p -> p = slash :: join [slash] (segments p).
Proof.
  intros [-> | ((q & ->) & Hd & He)]; [reflexivity|]. f_equal. rewrite segments_slash.
  assert (forall a, q <> a ++ [slash]) as He' by exact (not_ends_tl _ _ He).
  destruct (collapse_segments q He') as [H _]. rewrite <- H. clear H.
  assert (forall b s, (forall x y, s <> x ++ [slash; slash] ++ y) -> (b = true -> forall y, s <> slash :: y) -> collapse b s = s) as G.
  { clear. intros b s; revert b. induction s as [|c s IH]; intros b Hd Hb; [reflexivity|]. cbn [collapse].
    unfold is_slash. destruct (N.eqb_spec c slash) as [->|Hc].
    - destruct b; [exfalso; exact (Hb eq_refl s eq_refl)|]. f_equal. apply IH.
      + intros x y ->. exact (Hd (slash :: x) y eq_refl).
      + intros _ y ->. exact (Hd [] y eq_refl).
    - f_equal. apply IH; [|discriminate]. intros x y ->. exact (Hd (c :: x) y eq_refl). }
  rewrite G; [reflexivity| |].
  - intros x y ->. exact (Hd (slash :: x) y eq_refl).
  - intros _ y ->. exact (Hd [] y eq_refl).
Qed.

Lemma join_no_double ws : (forall w, In w ws -> w <> [] /\ ~ In slash w) ->
  (forall a b, slash :: join [slash] ws <> a ++ [slash; slash] ++ b) /\ (ws <> [] -> forall a, slash :: join [slash] ws <> a ++ [slash]).
Proof.
  induction ws as [|w ws IH]; intros H.
  - split; [|congruence]. intros a b. destruct a as [|? [|]]; cbn; discriminate.
  - assert (forall x, In x ws -> x <> [] /\ ~ In slash x) as H' by (intros; apply H; now right).
    destruct (H w (or_introl eq_refl)) as [Hw1 Hw2]. destruct (IH H') as [I1 I2].
    assert (forall rest, (forall a b, rest <> a ++ [slash; slash] ++ b) -> forall a b, slash :: w ++ rest <> a ++ [slash; slash] ++ b) as G1.
    { intros rest Hr a b E. destruct a as [|x a]; cbn in E.
      - injection E as E. destruct w as [|y w]; [congruence|]. injection E as E _. apply Hw2. now left.
      - injection E as _ E. revert a E. clear Hw1 H IH I1 I2 H'. induction w as [|y w IHw]; intros a E; [exact (Hr _ _ E)|].
        destruct a as [|z a]; cbn in E.
        + injection E as E _. apply Hw2. now left.
        + injection E as _ E. apply (IHw ltac:(intros Hin; apply Hw2; now right) _ E). }
    assert (forall rest, (forall a, rest <> a ++ [slash]) -> forall a, slash :: w ++ rest <> a ++ [slash]) as G2.
    { intros rest Hr a E. destruct a as [|x a]; cbn in E.
      - injection E as E. destruct w; [congruence|discriminate].
      - injection E as _ E. revert a E. clear Hw1 H IH I1 I2 H' G1. induction w as [|y w IHw]; intros a E; [exact (Hr _ E)|].
        destruct a as [|z a]; cbn in E.
        + injection E as E _. apply Hw2. now left.
        + injection E as _ E. apply (IHw ltac:(intros Hin; apply Hw2; now right) _ E). }
    destruct ws as [|w2 ws].
    + cbn [join]. split.
      * specialize (G1 []). rewrite app_nil_r in G1. apply G1. intros a b. destruct a; discriminate.
      * intros _. specialize (G2 []). rewrite app_nil_r in G2. apply G2. intros a. destruct a; discriminate.
    + change (join [slash] (w :: w2 :: ws)) with (w ++ slash :: join [slash] (w2 :: ws)). split.
      * apply G1. exact I1.
      * intros _. apply G2. apply I2. discriminate.
Qed.

Lemma clean_path_canonical p : canonical (clean_path p).
Proof.
  rewrite clean_path_segments. destruct (segments p) as [|w ws] eqn:E; [now left|]. right.
  assert (forall x, In x (w :: ws) -> x <> [] /\ ~ In slash x) as H by (rewrite <- E; apply segments_wf).
  destruct (join_no_double _ H) as [A B]. split; [eauto|]. split; [exact A|apply B; discriminate].
Qed.

Lemma clean_path_id p : canonical p -> clean_path p = p.
Proof. intros H. rewrite clean_path_segments. symmetry. now apply canonical_segments. Qed.
