From Verif Require Import PyStr PyStrFacts Asgi StreamModel StreamSpec StreamProofs CoopModel CoopSpec.
Open Scope nat_scope.

Section Inv.
  Variable enc : str -> str.
  Variable k : kind.
  Variable content : nat -> produced.

  Definition more (c : chunk) : amsg := ABody (chunk_bytes enc c) true.

  Lemma stream_raise_some cs : forall c, stream enc (Some (chunk_bytes enc c)) cs Raises = map more (removelast (c :: cs)).
  Proof.
    induction cs as [|d cs IH]; intros c; [reflexivity|]. cbn [stream]. rewrite IH. reflexivity.
  Qed.
  Lemma stream_raise_none cs : stream enc None cs Raises = map more (removelast cs).
  Proof. destruct cs as [|c cs]; [reflexivity|]. cbn [stream]. apply stream_raise_some. Qed.

  Lemma stream_end_some cs : forall c d, stream enc (Some (chunk_bytes enc c)) (cs ++ [d]) Exhausted = map more (c :: cs) ++ [ABody (chunk_bytes enc d) false].
  Proof.
    induction cs as [|x cs IH]; intros c d; [reflexivity|]. cbn [app stream]. rewrite IH. reflexivity.
  Qed.
  Lemma stream_end_none cs d : stream enc None (cs ++ [d]) Exhausted = map more cs ++ [ABody (chunk_bytes enc d) false].
  Proof.
    destruct cs as [|c cs]; [reflexivity|]. cbn [app stream]. apply stream_end_some.
  Qed.

  Lemma gives_snoc cs c : gives content cs -> content (length cs) = Item c -> gives content (cs ++ [c]).
  Proof.
    intros G H i d E. destruct (Nat.lt_ge_cases i (length cs)) as [L|L].
    - rewrite nth_error_app1 in E by assumption. now apply G.
    - rewrite nth_error_app2 in E by assumption. destruct (i - length cs) as [|j] eqn:J.
      + cbn in E. injection E as <-. replace i with (length cs) by lia. exact H.
      + cbn in E. destruct j; discriminate.
  Qed.

  (** What a phase says about the items [cs] taken and the messages sent. *)
  Definition phase_ok (ph : sphase) (cs : list chunk) (o : list amsg) : Prop :=
    match ph with
    | PNext None => cs = [] /\ o = []
    | PNext (Some b) => exists cs' c, cs = cs' ++ [c] /\ b = chunk_bytes enc c /\ o = map more cs'
    | PSend b c => exists cs' x y, cs = cs' ++ [x; y] /\ b = chunk_bytes enc x /\ c = chunk_bytes enc y /\ o = map more cs'
    | PFinal None => content (length cs) = Stop /\ cs = [] /\ o = []
    | PFinal (Some b) => content (length cs) = Stop /\ exists cs' c, cs = cs' ++ [c] /\ b = chunk_bytes enc c /\ o = map more cs'
    | PLast | PDone => content (length cs) = Stop /\ o = stream enc None cs Exhausted
    | PFailed => content (length cs) = Fail /\ o = stream enc None cs Raises
    | PCut => is_prefix o (stream enc None cs Raises) \/ (content (length cs) = Stop /\ is_prefix o (stream enc None cs Exhausted))
    end.

  Definition inv (ops : list op) (st : state) : Prop :=
    (exists cs, length cs = pos st /\ gives content cs /\ phase_ok (s_phase st) cs (out st)) /\
    (In MDisconnect (inbox st) -> arrives MDisconnect ops) /\
    (l_phase st = LSeen -> arrives MDisconnect ops) /\
    (s_phase st = PCut -> arrives MDisconnect ops) /\
    (cancel st = true -> s_phase st = PDone \/ s_phase st = PFailed \/ l_phase st = LSeen) /\
    (l_phase st = LCut -> s_phase st = PDone \/ s_phase st = PFailed \/ s_phase st = PCut) /\
    (running st = Some TStream -> ended (s_phase st) = false) /\
    (s_phase st = PCut -> l_phase st = LSeen) /\
    (running st = Some TListen -> l_phase st = LWait) /\
    (l_phase st = LSeen -> cancel st = true) /\
    (ended (s_phase st) = true -> cancel st = true).

  Lemma arrives_snoc m ops o : arrives m ops -> arrives m (ops ++ [o]).
  Proof. intros H. unfold arrives. rewrite in_app_iff. now left. Qed.

  Lemma phase_cut ph cs o : phase_ok ph cs o -> ended ph = false -> phase_ok PCut cs o.
  Proof.
    intros H E. cbn [phase_ok]. destruct ph as [[b|]|b c|[b|]| | | | ]; try discriminate E; cbn [phase_ok] in H.
    - destruct H as (cs' & c & -> & _ & ->). left. exists []. rewrite app_nil_r, stream_raise_none, removelast_last. reflexivity.
    - destruct H as [-> ->]. left. exists []. reflexivity.
    - destruct H as (cs' & x & y & -> & _ & _ & ->). left. exists [more x].
      rewrite stream_raise_none. change (cs' ++ [x; y]) with (cs' ++ ([x] ++ [y])). rewrite app_assoc, removelast_last, map_app. reflexivity.
    - destruct H as (_ & cs' & c & -> & _ & ->). left. exists []. rewrite app_nil_r, stream_raise_none, removelast_last. reflexivity.
    - destruct H as (_ & -> & ->). left. exists []. reflexivity.
    - destruct H as (S1 & ->). right. split; [exact S1|]. exists []. now rewrite app_nil_r.
  Qed.

  Lemma stream_piece_phase ops st susp : inv ops st -> ended (s_phase st) = false ->
    exists cs, length cs = pos (stream_piece enc k content st susp) /\ gives content cs /\
      phase_ok (s_phase (stream_piece enc k content st susp)) cs (out (stream_piece enc k content st susp)).
  Proof.
    intros ((cs & L & G & P) & _) E. unfold stream_piece. destruct (s_phase st) as [last|b c|last| | | | ] eqn:Ph; try discriminate E.
    - destruct (susp && can_wait k content (pos st)).
      { exists cs. auto. }
      destruct (content (pos st)) as [c| |] eqn:Ct.
      + assert (G' : gives content (cs ++ [c])) by (apply gives_snoc; [assumption|now rewrite L]).
        assert (L' : length (cs ++ [c]) = S (pos st)) by (rewrite app_length, L; cbn; lia).
        destruct last as [b|]; exists (cs ++ [c]); (split; [exact L'|split; [exact G'|]]); cbn [phase_ok s_phase out] in *.
        * destruct P as (cs' & x & -> & -> & ->). exists cs', x, c. rewrite <- app_assoc. auto.
        * destruct P as (-> & ->). exists [], c. auto.
      + exists cs. split; [exact L|split; [exact G|]]. cbn [phase_ok s_phase out] in *. rewrite L.
        destruct last; (split; [exact Ct|]); auto.
      + exists cs. split; [exact L|split; [exact G|]]. cbn [phase_ok s_phase out] in *. rewrite L. split; [exact Ct|].
        destruct last as [b|].
        * destruct P as (cs' & x & -> & -> & ->). rewrite stream_raise_none, removelast_last. reflexivity.
        * destruct P as (-> & ->). reflexivity.
    - exists cs. split; [exact L|split; [exact G|]]. cbn [phase_ok s_phase out] in *.
      destruct P as (cs' & x & y & -> & -> & -> & ->). exists (cs' ++ [x]), y. rewrite <- app_assoc, map_app. auto.
    - exists cs. split; [exact L|split; [exact G|]]. cbn [phase_ok s_phase out] in *. destruct last as [b|].
      + destruct P as (S1 & cs' & x & -> & -> & ->). split; [exact S1|]. rewrite stream_end_none. reflexivity.
      + destruct P as (S1 & -> & ->). split; [exact S1|]. reflexivity.
    - exists cs. split; [exact L|split; [exact G|]]. cbn [phase_ok s_phase out] in *. exact P.
  Qed.

  Ltac fin := intros; cbn in *; subst; cbn in *; auto; try congruence; try discriminate; intuition (auto; congruence).

  Lemma step_inv ops st o : inv ops st -> inv (ops ++ [o]) (step enc k content st o).
  Proof.
    intros I. pose proof I as ((cs & L & G & P) & B1 & B2 & B3 & B4 & B5 & B6 & B7 & B8 & B9 & B10).
    assert (A : forall m, arrives m ops -> arrives m (ops ++ [o])) by (intros; now apply arrives_snoc).
    assert (SP : running st <> Some TListen -> ended (s_phase st) = false -> (running st = None -> cancel st && started st = false) -> forall susp,
      inv (ops ++ [o]) (stream_piece enc k content st susp)).
    { intros R E CS susp. split; [now apply (stream_piece_phase ops)|].
      assert (C0 : cancel st = true -> l_phase st = LSeen).
      { intros C. destruct (B4 C) as [H|[H|H]]; [rewrite H in E; discriminate|rewrite H in E; discriminate|exact H]. }
      assert (LC : l_phase st <> LCut).
      { intros H. destruct (B5 H) as [H'|[H'|H']]; rewrite H' in E; discriminate. }
      unfold stream_piece. destruct (s_phase st) as [last|b c|last| | | | ]; try discriminate E;
        try (destruct (susp && can_wait k content (pos st)); [|destruct (content (pos st)); [destruct last| |]]);
        cbn [s_phase started pos l_phase inbox running cancel out ended];
        destruct susp; intuition (auto; try congruence; try discriminate). }
    assert (LP : l_phase st = LWait -> running st <> Some TStream -> forall susp, (forall x, o <> OArrive x) -> inv (ops ++ [o]) (listen_piece st susp)).
    { intros LW R susp NA.
      unfold listen_piece. rewrite LW. destruct (inbox st) as [|[|] i] eqn:Ib.
      all: (split; [exists cs; auto|]); cbn [s_phase started pos l_phase inbox running cancel out ended];
        destruct susp; cbn [In] in *; intuition (auto; try congruence; try discriminate). }
    destruct o as [m|[|] susp]; unfold step.
    - split; [exists cs; auto|]. cbn [s_phase started pos l_phase inbox running cancel out].
      repeat match goal with |- _ /\ _ => split end; auto.
      intros H. apply in_app_iff in H as [H|[H|[]]]; [auto|]. subst m. unfold arrives. rewrite in_app_iff. right. now left.
    - destruct (running st) as [[|]|] eqn:R.
      + apply SP; [congruence|auto|congruence].
      + split; [exists cs; auto|]. rewrite R. repeat match goal with |- _ /\ _ => split end; auto.
      + destruct (ended (s_phase st)) eqn:E.
        * split; [exists cs; auto|]. rewrite R, E. repeat match goal with |- _ /\ _ => split end; auto; discriminate.
        * destruct (cancel st && started st) eqn:CS.
          -- apply andb_true_iff in CS as [C _].
             assert (LS : l_phase st = LSeen).
             { destruct (B4 C) as [H|[H|H]]; [rewrite H in E; discriminate|rewrite H in E; discriminate|exact H]. }
             split. { exists cs. split; [exact L|split; [exact G|]]. cbn [s_phase out]. now apply phase_cut with (ph := s_phase st). }
             cbn [s_phase started pos l_phase inbox running cancel out ended].
             repeat match goal with |- _ /\ _ => split end; auto; try discriminate.
          -- apply SP; [congruence|auto|auto].
    - destruct (running st) as [[|]|] eqn:R.
      + split; [exists cs; auto|]. rewrite R. repeat match goal with |- _ /\ _ => split end; auto.
      + apply LP; [auto|congruence|congruence].
      + destruct (l_phase st) eqn:LW.
        * destruct (cancel st) eqn:C.
          -- split; [exists cs; auto|]. cbn [s_phase started pos l_phase inbox running cancel out ended].
             repeat match goal with |- _ /\ _ => split end; auto; try discriminate; try congruence.
             ++ intros _. destruct (B4 eq_refl) as [H|[H|H]]; [auto|auto|discriminate].
             ++ intros _. destruct (B4 eq_refl) as [H|[H|H]]; [auto|auto|discriminate].
             ++ intros H. discriminate (B7 H).
          -- apply LP; [auto|congruence|congruence].
        * split; [exists cs; auto|]. rewrite R, LW. repeat match goal with |- _ /\ _ => split end; auto; discriminate.
        * split; [exists cs; auto|]. rewrite R, LW. repeat match goal with |- _ /\ _ => split end; auto; discriminate.
  Qed.

  Lemma run_inv ops : inv ops (run enc k content ops start_state).
  Proof.
    induction ops as [|o ops IH] using rev_ind.
    - split; [exists []; repeat split; intros i c H; destruct i; discriminate|]. cbn. intuition (auto; discriminate).
    - unfold run in *. rewrite fold_left_app. cbn [fold_left]. now apply step_inv.
  Qed.
End Inv.
