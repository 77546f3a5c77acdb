From Verif Require Import PyStr PyStrFacts Asgi SseSpec SseConcModel.

Section Conc.
  Variable status : Z.
  Variable headers : list (str * str).
  Variable ping : str.
  Notation step := (step status headers ping).
  Notation run := (run status headers ping).

  Lemma run_app a b s : run (a ++ b) s = run b (run a s).
  Proof. unfold SseConcModel.run. apply fold_left_app. Qed.
  Lemma run_cons t l s : run (t :: l) s = run l (step t s).
  Proof. reflexivity. Qed.

  (** Messages of the stream program. *)
  Definition msg_of (a : saction) : list amsg :=
    match a with
    | AcStart => [AStart status headers]
    | AcBody b => [ABody b true]
    | AcFinal => [ABody [] false]
    | AcInactive => []
    end.

  (** Ping disabled: the trace plus what is left to do is constant. *)
  Lemma noping_inv sched : forall s full, ss_ping s = PDone ->
    ss_trace s ++ flat_map msg_of (ss_prog s) = full ->
    ss_ping (run sched s) = PDone /\
    ss_trace (run sched s) ++ flat_map msg_of (ss_prog (run sched s)) = full.
  Proof.
    induction sched as [|t sched IH]; intros s full Hp Hf; [auto|].
    rewrite run_cons. apply IH.
    - unfold SseConcModel.step, do_ping. destruct (ss_stopped s); [assumption|].
      destruct t; [|rewrite Hp; destruct (ss_prog s) as [|[]]; assumption|assumption].
      destruct (ss_prog s) as [|[]]; cbn; assumption.
    - unfold SseConcModel.step, do_ping. destruct (ss_stopped s); [assumption|].
      destruct t; [|rewrite Hp; destruct (ss_prog s) as [|[]] eqn:E; rewrite ?E; assumption|assumption].
      destruct (ss_prog s) as [|a rest] eqn:E; [rewrite E; assumption|].
      rewrite <- Hf. destruct a; cbn [do_stream ss_trace ss_prog flat_map msg_of app]; rewrite <- ?app_assoc; reflexivity.
  Qed.

  Lemma flat_bodies evs rest : flat_map msg_of (map AcBody evs ++ rest) = map (fun b => ABody b true) evs ++ flat_map msg_of rest.
  Proof. induction evs as [|e evs IH]; [reflexivity|]. cbn. f_equal. exact IH. Qed.

  Lemma complete_bodies evs : abody_complete (map (fun b => ABody b true) evs ++ [ABody [] false]).
  Proof. induction evs; cbn; constructor; assumption. Qed.

  (** All interleavings: invariant for the normal end. *)
  Definition shape (evs : list str) (tr : list amsg) : Prop :=
    tr = [] \/
    (exists sent ms, is_prefix sent evs /\ with_pings ping sent ms /\ tr = AStart status headers :: ms) \/
    (exists ms pings, with_pings ping evs ms /\ Forall (eq (ABody ping true)) pings /\
       tr = AStart status headers :: ms ++ ABody [] false :: pings).

  Inductive phase (evs : list str) : sse_state -> Prop :=
  | ph_start pc : phase evs (mkSS (stream_prog evs None) pc true false [])
  | ph_body done todo pc ms :
      evs = done ++ todo -> with_pings ping done ms ->
      phase evs (mkSS (map AcBody todo ++ [AcFinal; AcInactive]) pc true false (AStart status headers :: ms))
  | ph_final pc ms pings :
      with_pings ping evs ms -> Forall (eq (ABody ping true)) pings ->
      phase evs (mkSS [AcInactive] pc true false (AStart status headers :: ms ++ ABody [] false :: pings))
  | ph_done pc ms pings act :
      with_pings ping evs ms -> Forall (eq (ABody ping true)) pings ->
      phase evs (mkSS [] pc act false (AStart status headers :: ms ++ ABody [] false :: pings))
  | ph_stopped prog pc act tr : shape evs tr -> phase evs (mkSS prog pc act true tr).

  Lemma wp_snoc_ping evs ms : with_pings ping evs ms -> with_pings ping evs (ms ++ [ABody ping true]).
  Proof. induction 1; cbn; repeat constructor; assumption. Qed.
  Lemma wp_snoc evs ms e : with_pings ping evs ms -> with_pings ping (evs ++ [e]) (ms ++ [ABody e true]).
  Proof. induction 1; cbn; repeat constructor; assumption. Qed.
  Lemma ping_snoc ps : Forall (eq (ABody ping true)) ps -> Forall (eq (ABody ping true)) (ps ++ [ABody ping true]).
  Proof. intros. apply Forall_app. split; [assumption|]. constructor; [reflexivity|constructor]. Qed.

  Lemma phase_step evs s t : phase evs s -> phase evs (step t s).
  Proof.
    intros H. destruct H as [pc|done todo pc ms He Hm|pc ms pings Hm Hp|pc ms pings act Hm Hp|prog pc act tr Ht];
      unfold SseConcModel.step; cbn [ss_stopped ss_prog].
    - destruct t; cbn [stream_prog do_stream ss_trace ss_ping ss_active].
      + apply (ph_body evs [] evs _ []); [reflexivity|constructor].
      + apply ph_start.
      + apply ph_stopped. now left.
    - destruct t.
      + destruct todo as [|e todo]; cbn [map app do_stream ss_trace ss_ping ss_active].
        * apply (ph_final evs pc ms []); [rewrite app_nil_r in He; now subst|constructor].
        * apply (ph_body evs (done ++ [e]) todo); [now rewrite <- app_assoc|now apply wp_snoc].
      + assert (match map AcBody todo ++ [AcFinal; AcInactive] with AcStart :: _ =>
          mkSS (map AcBody todo ++ [AcFinal; AcInactive]) pc true false (AStart status headers :: ms)
          | _ => do_ping ping (mkSS (map AcBody todo ++ [AcFinal; AcInactive]) pc true false (AStart status headers :: ms)) end
          = do_ping ping (mkSS (map AcBody todo ++ [AcFinal; AcInactive]) pc true false (AStart status headers :: ms))) as ->
          by (destruct todo; reflexivity).
        unfold do_ping. cbn [ss_ping ss_prog ss_active ss_trace].
        destruct pc; try (apply (ph_body evs done todo); assumption).
        * apply (ph_body evs done todo _ (ms ++ [ABody ping true])); [assumption|now apply wp_snoc_ping].
        * apply (ph_body evs done todo _ (ms ++ [ABody ping true])); [assumption|now apply wp_snoc_ping].
      + apply ph_stopped. right; left. exists done, ms. split; [exists todo; assumption|auto].
    - destruct t; cbn [do_stream ss_trace ss_ping ss_active].
      + now apply ph_done.
      + unfold do_ping. cbn [ss_ping ss_prog ss_active ss_trace].
        destruct pc; try (now apply ph_final);
          cbn [app]; rewrite <- app_assoc; cbn [app]; apply ph_final; auto using ping_snoc.
      + apply ph_stopped. right; right. exists ms, pings. auto.
    - destruct t; cbn [do_stream ss_trace ss_ping ss_active].
      + now apply ph_done.
      + unfold do_ping. cbn [ss_ping ss_prog ss_active ss_trace].
        destruct pc; try (now apply ph_done).
        * cbn [app]; rewrite <- app_assoc; cbn [app]; apply ph_done; auto using ping_snoc.
        * destruct act; [|now apply ph_done].
          cbn [app]; rewrite <- app_assoc; cbn [app]; apply ph_done; auto using ping_snoc.
      + apply ph_stopped. right; right. exists ms, pings. auto.
    - now apply ph_stopped.
  Qed.

  Lemma phase_run evs sched : forall s, phase evs s -> phase evs (run sched s).
  Proof. induction sched as [|t l IH]; intros s H; [exact H|]. rewrite run_cons. apply IH, phase_step, H. Qed.

  (** The messages of the stream task, in order, are the trace without pings. *)
  Lemma trace_shape evs interval sched : shape evs (ss_trace (run sched (init evs None interval))).
  Proof.
    assert (phase evs (run sched (init evs None interval))) as H by (apply phase_run; apply ph_start).
    destruct H as [pc|done todo pc ms He Hm|pc ms pings Hm Hp|pc ms pings act Hm Hp|prog pc act tr Ht]; cbn [ss_trace].
    - now left.
    - right; left. exists done, ms. split; [exists todo; assumption|auto].
    - right; right. exists ms, pings. auto.
    - right; right. exists ms, pings. auto.
    - exact Ht.
  Qed.

  (** Once the first ping was sent and the final message and the deactivation are consecutive
      steps, nothing follows the final message. *)
  Lemma quiet_tail sched : forall s, ss_active s = false -> ss_ping s <> PFirst -> ss_prog s = [] ->
    ss_trace (run sched s) = ss_trace s.
  Proof.
    induction sched as [|t sched IH]; intros s Ha Hp Hg; [reflexivity|]. rewrite run_cons.
    unfold SseConcModel.step. destruct (ss_stopped s) eqn:Es.
    - now apply IH.
    - destruct t; rewrite Hg.
      + now apply IH.
      + unfold do_ping. rewrite Ha, Hg. destruct (ss_ping s) eqn:Ep; try congruence; try (rewrite IH; cbn; auto; discriminate).
        now apply IH; rewrite ?Ep.
      + rewrite IH; cbn; auto.
  Qed.

  Lemma complete_of evs ms : with_pings ping evs ms -> abody_complete (ms ++ [ABody [] false]).
  Proof. induction 1; cbn; constructor; assumption. Qed.

  Lemma quiet_complete evs interval s1 s2 :
    let st := run s1 (init evs None interval) in
    ss_stopped st = false -> ss_prog st = [AcFinal; AcInactive] -> ss_ping st <> PFirst ->
    exists ms, with_pings ping evs ms /\
    ss_trace (run (s1 ++ TStream :: TStream :: s2) (init evs None interval)) =
    AStart status headers :: ms ++ [ABody [] false] /\
    response_complete (AStart status headers :: ms ++ [ABody [] false]).
  Proof.
    intros st Hs Hp Hf. rewrite run_app. fold st. rewrite !run_cons.
    assert (phase evs st) as Hph by (apply phase_run; apply ph_start).
    destruct Hph as [pc|done todo pc ms He Hm|pc ms pings Hm Hpi|pc ms pings act Hm Hpi|prog pc act tr Ht];
      cbn [ss_prog ss_stopped ss_ping] in Hp, Hs, Hf; try discriminate.
    destruct todo; [|discriminate]. rewrite app_nil_r in He. subst done.
    exists ms. split; [assumption|]. split.
    - unfold SseConcModel.step. cbn [map app ss_stopped ss_prog do_stream ss_trace ss_ping ss_active].
      rewrite quiet_tail; [reflexivity|reflexivity|exact Hf|reflexivity].
    - constructor. now apply complete_of with evs.
  Qed.
End Conc.
