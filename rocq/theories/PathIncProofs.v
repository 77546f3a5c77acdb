From Verif Require Import PyStr PyStrFacts PathModel PathSpec PathProofs PathMatchProofs PathRevProofs.

(** * Mounting *)
Lemma written_app ps qs : written_parts (ps ++ qs) = written_parts ps ++ written_parts qs.
Proof. induction ps as [|[[l n] c] ps IH]; [reflexivity|]. cbn [app written_parts]. rewrite IH. now rewrite <- !app_assoc. Qed.

Lemma written_mount t : written (mount_template t) = written t ++ u "/{path:path}".
Proof.
  destruct t as [ps tail]. unfold written, mount_template. cbn [fst snd]. rewrite written_app. cbn [written_parts].
  rewrite !app_nil_r, <- !app_assoc. reflexivity.
Qed.

Lemma include_template_written t p : mountable t p -> include_template p = written (mount_template t).
Proof.
  intros (_ & _ & _ & _ & [(-> & [-> | ->])|(-> & Hc & Hr)]); [reflexivity|reflexivity|].
  rewrite written_mount. unfold include_template. rewrite (clean_path_id _ Hc).
  apply canonical_segments in Hc as E. rewrite clean_path_segments.
  change (u "/{path:path}") with (slash :: u "{path:path}"). rewrite segments_cat.
  change (segments (u "{path:path}")) with [u "{path:path}"].
  destruct (segments (written t)) as [|w ws] eqn:Es; [rewrite E in Hr; exfalso; apply Hr; reflexivity|].
  rewrite E. cbn [app]. f_equal. clear E Es. revert w. induction ws as [|w2 ws IH]; intros w; [reflexivity|].
  change (join [slash] (w :: w2 :: ws)) with (w ++ slash :: join [slash] (w2 :: ws)).
  rewrite <- app_assoc. cbn [app]. rewrite <- IH. reflexivity.
Qed.

Lemma mount_wf t p : mountable t p -> wf_template (mount_template t).
Proof.
  intros (H1 & H2 & H3 & H4 & H5). unfold mount_template. split; [|split; [|split]]; cbn [fst snd].
  - intros l n c Hin. apply in_app_or in Hin as [Hin|[[= <- <- <-]|[]]]; [now apply (H1 _ _ _ Hin)|]. split.
    + intros x Hx. apply in_app_or in Hx as [Hx|[<-|[]]]; [now apply H2|reflexivity].
    + split; [reflexivity|]. intros x Hx. vm_compute in Hx. decompose [or] Hx; subst; try reflexivity; contradiction.
  - intros ? [].
  - rewrite map_app. cbn [map fst snd]. clear -H3 H4.
    induction (map (fun p : str * str * conv => snd (fst p)) (fst t)) as [|x xs IH]; cbn [app].
    + repeat constructor. intros [].
    + inversion H3; subst. constructor.
      * rewrite in_app_iff. intros [H|[H|[]]]; [contradiction|]. apply H4. left. auto.
      * apply IH; [assumption|]. intros H. apply H4. now right.
  - fold (mount_template t). rewrite written_mount. destruct H5 as [(-> & _)|(E & Hc & Hr)]; [exists (u "{path:path}"); reflexivity|].
    rewrite <- E. destruct Hc as [->|((q & ->) & _)]; [congruence|]. eexists. reflexivity.
Qed.

Lemma suits_mount ps tail vs' : suits (mount_template (ps, tail)) vs' ->
  exists vs rest, vs' = vs ++ [(u "path", rest)] /\ suits (ps, tail) vs /\ ~ In 10%N rest.
Proof.
  unfold suits, mount_template. cbn [fst snd]. intros H. apply Forall2_app_inv_l in H as (l1 & l2 & H1 & H2 & ->).
  inversion H2 as [|? [n rest] ? l3 [Hn Hc] H3]; subst. inversion H3; subst. cbn [fst snd] in *. subst n.
  exists l1, rest. auto.
Qed.
Lemma filled_mount ps tail vs rest : suits (ps, tail) vs ->
  filled (mount_template (ps, tail)) (vs ++ [(u "path", rest)]) = filled (ps, tail) vs ++ slash :: rest.
Proof.
  unfold suits, filled, mount_template. cbn [fst snd]. rewrite app_nil_r.
  induction 1 as [|[[l n] c] [n' v] ps vs _ _ IH]; cbn [app filled_parts].
  - rewrite app_nil_r, <- app_assoc. reflexivity.
  - rewrite IH. now rewrite <- !app_assoc.
Qed.

Lemma dget_dupdate {V} (d e : dict V) n : NoDup (dkeys e) ->
  dget n (dupdate d e) = match dget n e with Some v => Some v | None => dget n d end.
Proof.
  unfold dupdate. revert d. induction e as [|[k v] e IH]; intros d Hnd; [reflexivity|].
  inversion Hnd; subst. cbn [fold_left fst snd dget]. rewrite IH by assumption.
  destruct (seqb_spec n k) as [->|Hne].
  - apply dget_None_keys in H1. rewrite H1. apply dget_dset_same.
  - destruct (dget n e); [reflexivity|]. now apply dget_dset_other.
Qed.

Lemma transform_all_app convs a b m : transform_all convs (a ++ b) = Some m ->
  exists m1 m2, transform_all convs a = Some m1 /\ transform_all convs b = Some m2 /\ m = m1 ++ m2.
Proof.
  revert m. induction a as [|[n t] a IH]; intros m; cbn [app transform_all].
  - intros H. exists [], m. auto.
  - destruct (dget n convs); [|discriminate]. destruct (transform c t); [|discriminate].
    destruct (transform_all convs (a ++ b)) as [r|] eqn:E; [|discriminate]. intros [= <-].
    destruct (IH _ eq_refl) as (m1 & m2 & -> & H2 & ->). exists ((n, p) :: m1), m2. auto.
Qed.
Lemma transform_all_keys convs a m : transform_all convs a = Some m -> dkeys m = map fst a.
Proof.
  revert m. induction a as [|[n t] a IH]; intros m; cbn [transform_all].
  - intros [= <-]. reflexivity.
  - destruct (dget n convs); [|discriminate]. destruct (transform c t); [|discriminate].
    destruct (transform_all convs a) as [r|] eqn:E; [|discriminate]. intros [= <-]. unfold dkeys in *. cbn [map fst].
    f_equal. now apply IH.
Qed.
Lemma suits_names t vs : suits t vs -> map fst vs = names (fst t).
Proof. unfold suits, names. induction 1 as [|p nv ps vs [H _] _ IH]; [reflexivity|]. cbn [map]. now rewrite IH, H. Qed.
Lemma transform_all_ext c1 c2 a : (forall n, In n (map fst a) -> dget n c1 = dget n c2) -> transform_all c1 a = transform_all c2 a.
Proof.
  induction a as [|[n t] a IH]; intros H; [reflexivity|]. cbn [transform_all]. rewrite (H n) by (now left).
  rewrite IH by (intros m Hm; apply H; now right). reflexivity.
Qed.
Lemma dget_app {V} (a b : dict V) n : dget n (a ++ b) = match dget n a with Some v => Some v | None => dget n b end.
Proof. induction a as [|[k v] a IH]; [reflexivity|]. cbn [app dget]. destruct (seqb n k); [reflexivity|exact IH]. Qed.
Lemma ddel_app {V} (a b : dict V) n : ddel n (a ++ b) = ddel n a ++ ddel n b.
Proof. induction a as [|[k v] a IH]; [reflexivity|]. cbn [app ddel]. rewrite IH. now destruct (seqb n k). Qed.
Lemma ddel_absent {V} (a : dict V) n : ~ In n (dkeys a) -> ddel n a = a.
Proof.
  induction a as [|[k v] a IH]; intros H; [reflexivity|]. cbn [ddel]. destruct (seqb_spec n k) as [->|].
  - exfalso. apply H. now left.
  - rewrite IH; [reflexivity|]. intros Hin. apply H. now right.
Qed.

Lemma get_route_path_app root route : get_route_path root (root ++ route) = route.
Proof.
  unfold get_route_path. destruct root as [|c r]; [reflexivity|].
  rewrite prefixb_app. apply skipn_prefix.
Qed.

Theorem include_search_spec t p root route params :
  mountable t p -> (forall q, route <> q ++ [10%N]) ->
  exists rx fmt convs, compile_path (include_template p) = Compiled rx fmt convs /\
  match include_search rx convs root (root ++ route) params with
  | IncNone => forall vs rest, suits t vs -> ~ In 10%N rest -> route <> filled t vs ++ slash :: rest
  | IncError => exists vs rest, suits t vs /\ route = filled t vs ++ slash :: rest /\ transform_all (convs_of (fst t)) vs = None
  | IncFull params' root' => exists vs rest matched,
      suits t vs /\ route = filled t vs ++ slash :: rest /\
      root' = root ++ filled t vs /\ get_route_path root' (root ++ route) = slash :: rest /\
      transform_all (convs_of (fst t)) vs = Some matched /\
      forall n, dget n params' = match dget n matched with Some v => Some v | None => dget n params end
  end.
Proof.
  intros Hm Hnl. exists (rx_of (mount_template t)), (format_parts (fst (mount_template t)) ++ snd (mount_template t)), (convs_of (fst (mount_template t))).
  split; [rewrite (include_template_written t p Hm); apply compile_written; eapply mount_wf; eauto|].
  unfold include_search. rewrite get_route_path_app.
  destruct t as [ps tail]. destruct Hm as (H1 & H2 & H3 & H4 & H5).
  destruct (rmatch (rx_of (mount_template (ps, tail))) route) as [groups|] eqn:E.
  - apply rmatch_sound in E as [Hs [Ho|Ho]]; [|exfalso; exact (Hnl _ Ho)].
    destruct (suits_mount _ _ _ Hs) as (vs & rest & -> & Hs' & Hr). 
    pose proof (filled_mount ps tail vs rest Hs') as Hf. assert (route = filled (ps, tail) vs ++ slash :: rest) as Ho' by (rewrite <- Hf; exact Ho).
    clear Ho Hf. rename Ho' into Ho.
    assert (forall n, In n (map fst vs) -> dget n (convs_of (fst (mount_template (ps, tail)))) = dget n (convs_of ps)) as Hext.
    { intros n Hn. unfold mount_template. cbn [fst]. unfold convs_of. rewrite map_app. rewrite dget_app.
      destruct (dget n (map (fun p0 : str * str * conv => (snd (fst p0), snd p0)) ps)) eqn:Ed; [reflexivity|].
      exfalso. change (map (fun p0 : str * str * conv => (snd (fst p0), snd p0)) ps) with (convs_of ps) in Ed.
      apply dget_None_keys in Ed. rewrite convs_keys in Ed. rewrite (suits_names _ _ Hs') in Hn. contradiction. }
    destruct (transform_all (convs_of (fst (mount_template (ps, tail)))) (vs ++ [(u "path", rest)])) as [matched|] eqn:Et.
    + destruct (transform_all_app _ _ _ _ Et) as (m1 & m2 & E1 & E2 & ->).
      assert (dget (u "path") (convs_of (fst (mount_template (ps, tail)))) = Some CPath) as Ep.
      { apply (dget_convs _ (tail ++ [slash])).
        - destruct (mount_wf (ps, tail) p (conj H1 (conj H2 (conj H3 (conj H4 H5))))) as (_ & _ & Hnd & _). exact Hnd.
        - unfold mount_template. cbn [fst snd]. apply in_or_app. right. now left. }
      cbn [transform_all] in E2. rewrite Ep in E2. cbn [transform] in E2. injection E2 as <-.
      pose proof (transform_all_keys _ _ _ E1) as Hk. rewrite (suits_names _ _ Hs') in Hk. cbn [fst] in Hk.
      assert (~ In (u "path") (dkeys m1)) as Hnp by (rewrite Hk; exact H4).
      pose proof Hnp as Hnp'. apply dget_None_keys in Hnp'.
      exists vs, rest, m1. split; [assumption|]. split; [assumption|].
      rewrite dget_app, Hnp'. cbn [dget]. rewrite seqb_refl.
      assert (drop_last (length (slash :: rest)) route = filled (ps, tail) vs) as Ed.
      { unfold drop_last. rewrite Ho, app_length. replace (length (filled (ps, tail) vs) + length (slash :: rest) - length (slash :: rest))
          with (length (filled (ps, tail) vs)) by lia. apply firstn_prefix. }
      rewrite Ed. split; [reflexivity|]. split; [|split].
      * rewrite Ho, app_assoc. apply get_route_path_app.
      * rewrite <- E1. cbn [fst]. symmetry. apply transform_all_ext. exact Hext.
      * intros n. rewrite ddel_app, ddel_absent by assumption. cbn [ddel]. rewrite seqb_refl, app_nil_r.
        apply dget_dupdate. rewrite Hk. exact H3.
    + exists vs, rest. split; [assumption|]. split; [assumption|]. cbn [fst].
      rewrite <- (transform_all_ext _ _ _ Hext). cbn [fst].
      destruct (transform_all (convs_of (fst (mount_template (ps, tail)))) vs) as [m|] eqn:E1; [exfalso|reflexivity].
      assert (forall a m, transform_all (convs_of (fst (mount_template (ps, tail)))) a = Some m ->
         transform_all (convs_of (fst (mount_template (ps, tail)))) (a ++ [(u "path", rest)]) <> None) as G.
      { assert (dget (u "path") (convs_of (fst (mount_template (ps, tail)))) = Some CPath) as Ep.
        { apply (dget_convs _ (tail ++ [slash])).
          - destruct (mount_wf (ps, tail) p (conj H1 (conj H2 (conj H3 (conj H4 H5))))) as (_ & _ & Hnd & _). exact Hnd.
          - unfold mount_template. cbn [fst snd]. apply in_or_app. right. now left. }
        induction a as [|[n t0] a IH]; intros m0; cbn [app transform_all].
        - intros _. rewrite Ep. cbn. discriminate.
        - destruct (dget n _); [|discriminate]. destruct (transform c t0); [|discriminate].
          destruct (transform_all _ a) as [r|] eqn:Er; [|discriminate]. intros _.
          specialize (IH r eq_refl). destruct (transform_all _ (a ++ _)); [discriminate|congruence]. }
      exact (G _ _ E1 Et).
  - intros vs rest Hs Hr Er.
    apply (rmatch_complete (fst (mount_template (ps, tail))) (snd (mount_template (ps, tail))) (vs ++ [(u "path", rest)]) route); [| |exact E].
    + unfold suits, mount_template in *. cbn [fst snd] in *. apply Forall2_app; [assumption|].
      constructor; [|constructor]. cbn. auto.
    + left. pose proof (filled_mount ps tail vs rest Hs) as F. rewrite Er, <- F. reflexivity.
Qed.

(** ** A chain of mounts *)
Lemma not_nl_tail a b : (forall q, a ++ b <> q ++ [10%N]) -> forall q, b <> q ++ [10%N].
Proof. intros H q ->. apply (H (a ++ q)). now rewrite app_assoc. Qed.

Theorem mount_chain_spec (ts : list (template * str)) : forall root route params ms,
  Forall2 (fun tp m => mountable (fst tp) (snd tp) /\
                       exists fmt, compile_path (include_template (snd tp)) = Compiled (fst m) fmt (snd m)) ts ms ->
  (forall q, route <> q ++ [10%N]) ->
  forall root' params', mount_chain ms root (root ++ route) params = Some (root', params') ->
  exists vss rest, Forall2 (fun tp vs => suits (fst tp) vs) ts vss /\
    root' = root ++ concat (map (fun x => filled (fst (fst x)) (snd x)) (combine ts vss)) /\
    root' ++ rest = root ++ route /\ get_route_path root' (root ++ route) = rest /\
    exists levels, Forall2 (fun x m => transform_all (convs_of (fst (fst (fst x)))) (snd x) = Some m) (combine ts vss) levels /\
      forall n, dget n params' = layered params levels n.
Proof.
  induction ts as [|[t p] ts IH]; intros root route params ms Hms Hnl root' params' Hc.
  - inversion Hms; subst. cbn [mount_chain] in Hc. injection Hc as <- <-. exists [], route. split; [constructor|].
    cbn [combine map concat]. rewrite app_nil_r. split; [reflexivity|]. split; [reflexivity|]. split; [apply get_route_path_app|].
    exists []. split; [constructor|reflexivity].
  - inversion Hms as [|? [rx convs] ? ms' [Hm (fmt & Hcomp)] Hms' E1 E2]; subst. cbn [fst snd] in *. cbn [mount_chain] in Hc.
    destruct (include_search_spec t p root route params Hm Hnl) as (rx' & fmt' & convs' & Hcomp' & Hspec).
    rewrite Hcomp in Hcomp'. injection Hcomp' as <- <- <-.
    destruct (include_search rx convs root (root ++ route) params) as [| |params1 root1]; try discriminate.
    destruct Hspec as (vs & rest & matched & Hs & Hroute & Hroot & _ & Htr & Hget).
    assert (root ++ route = root1 ++ slash :: rest) as Epath by (rewrite Hroute, Hroot; now rewrite app_assoc).
    rewrite Epath in Hc.
    assert (forall q, slash :: rest <> q ++ [10%N]) as Hnl' by (apply (not_nl_tail (filled t vs)); now rewrite <- Hroute).
    destruct (IH root1 (slash :: rest) params1 ms' Hms' Hnl' root' params' Hc) as (vss & rest' & Hf & Hr1 & Hr2 & Hr3 & levels & Hlev & Hget').
    exists (vs :: vss), rest'. split; [constructor; assumption|]. rewrite Epath. split; [|split; [assumption|split; [assumption|]]].
    + cbn [combine map concat fst snd]. rewrite Hr1, Hroot. now rewrite <- app_assoc.
    + exists (matched :: levels). split; [constructor; assumption|]. intros n. rewrite Hget'. unfold layered. cbn [fold_left]. now rewrite Hget.
Qed.
