From Verif Require Import PyStr PyStrFacts RequestModel RequestSpec.


  Definition nonempty (l : list str) : list str := filter (fun b => match b with [] => false | _ => true end) l.
  Lemma concat_nonempty l : concat (nonempty l) = concat l.
  Proof. induction l as [|[|x b] l IH]; [reflexivity|exact IH|]. cbn. f_equal. f_equal. exact IH. Qed.

  (** The phases of one Request object. *)
  Inductive phase :=
  | Fresh          (** nothing read *)
  | Kept (b : str) (** body cached *)
  | Gone           (** streamed *)
  | Left.          (** disconnect met *)

  (** What is still to come, the stored message included. *)
  Definition coming (st : rstate) : list rmsg :=
    match q_stored (fst st) with Some m => m :: ch_in (snd st) | None => ch_in (snd st) end.

  Definition eventually (l : list rmsg) (d : list rmsg) : Prop := l = d \/ (d = [] /\ l = [MDisc]).

  Definition inv (chunks : list str) (last : option str) (p : phase) (st : rstate) : Prop :=
    match p with
    | Fresh => q_body (fst st) = None /\ q_consumed (fst st) = false /\ ch_scope_body (snd st) = None /\
               eventually (coming st) (delivery chunks last)
    | Kept b => sent_body chunks last = Some b /\ q_body (fst st) = Some b /\ ch_scope_body (snd st) = Some b /\
                (eventually (coming st) [] \/ coming st = [MReq b false])
    | Gone => last <> None /\ q_body (fst st) = None /\ q_consumed (fst st) = true /\ ch_scope_body (snd st) = None /\
              eventually (coming st) []
    | Left => last = None /\ q_body (fst st) = None /\ q_consumed (fst st) = false /\ ch_scope_body (snd st) = None /\
              eventually (coming st) []
    end.

  Lemma receive_coming st :
    let '(m, st') := req_receive st in
    (coming st = m :: coming st' \/ (coming st = [] /\ m = MDisc /\ coming st' = [])) /\
    q_stored (fst st') = None /\ q_body (fst st') = q_body (fst st) /\ q_consumed (fst st') = q_consumed (fst st) /\
    ch_scope_body (snd st') = ch_scope_body (snd st).
  Proof.
    destruct st as (q & c). unfold req_receive, coming. cbn [fst snd].
    destruct (q_stored q) eqn:E.
    - cbn. repeat split. left. reflexivity.
    - unfold chan_recv. destruct (ch_in c) as [|m r] eqn:Ec; cbn [fst snd]; rewrite E.
      + rewrite Ec. repeat split. right. repeat split.
      + cbn. repeat split. left. reflexivity.
  Qed.

  Lemma stream_loop_spec last n : forall cs st,
    q_body (fst st) = None -> q_consumed (fst st) = false -> ch_scope_body (snd st) = None ->
    eventually (coming st) (delivery cs last) -> (length cs < n)%nat ->
    let '(ys, e, st') := stream_loop n st in
    q_body (fst st') = None /\ ch_scope_body (snd st') = None /\ eventually (coming st') [] /\
    match last with
    | Some b => e = SEnd /\ ys = nonempty (cs ++ [b]) ++ [[]] /\ q_consumed (fst st') = true
    | None => e = SDisconnect /\ ys = nonempty cs /\ q_consumed (fst st') = false
    end.
  Proof.
    induction n as [|n IH]; intros cs st Hb Hc Hs He Hn; [lia|].
    cbn [stream_loop]. pose proof (receive_coming st) as R. destruct (req_receive st) as (m & q & c).
    destruct R as (R & Rs & Rb & Rc & Rsb). cbn [fst snd] in *.
    destruct cs as [|x cs].
    - unfold delivery in He. cbn [map app] in He.
      destruct last as [b|].
      + destruct He as [He|(He & _)]; [|discriminate].
        destruct R as [R|(R & _)]; [|congruence]. rewrite He in R. injection R as <- Rr.
        cbn [fst snd set_consumed q_body q_consumed].
        repeat split; try congruence.
        * left. unfold coming in *. cbn [fst snd set_consumed q_stored] in *. congruence.
        * destruct b; reflexivity.
      + assert (m = MDisc /\ coming (q, c) = []) as (-> & R2).
        { destruct He as [He|(_ & He)]; destruct R as [R|(R & Rm & R2)]; rewrite He in R; try discriminate.
          - split; assumption.
          - injection R as <- R. split; [reflexivity | congruence]. }
        cbn [fst snd set_disc q_body q_consumed]. repeat split; try congruence.
        left. unfold coming in *. cbn [fst snd set_disc q_stored] in *. exact R2.
    - unfold delivery in He. cbn [map app] in He. fold (delivery cs last) in He.
      destruct He as [He|(He & _)]; [|discriminate].
      destruct R as [R|(R & _)]; [|congruence]. rewrite He in R. injection R as <- Rr.
      specialize (IH cs (q, c)). cbn [fst snd] in IH.
      destruct (stream_loop n (q, c)) as ((ys & e) & st').
      destruct IH as (I1 & I2 & I3 & I4); try congruence; [left; symmetry; exact Rr | cbn in Hn; lia |].
      repeat split; try assumption.
      destruct last as [b|]; destruct I4 as (-> & -> & I4); repeat split; try assumption.
      + cbn [app nonempty filter]. destruct x; reflexivity.
      + cbn [app nonempty filter]. destruct x; [reflexivity|]. reflexivity.
  Qed.

  Lemma coming_length st : (length (coming st) <= S (length (ch_in (snd st))))%nat.
  Proof. unfold coming. destruct (q_stored (fst st)); cbn; lia. Qed.

  Lemma stream_loop_fuel chunks last st : eventually (coming st) (delivery chunks last) -> (length chunks < S (S (length (ch_in (snd st)))))%nat.
  Proof.
    intros He. pose proof (coming_length st) as L.
    assert (length chunks <= length (delivery chunks last))%nat.
    { unfold delivery. rewrite app_length, map_length. lia. }
    destruct He as [He|(He & _)].
    - rewrite He in L. lia.
    - rewrite He in H. cbn in H. lia.
  Qed.

  (** The phase after an operation, and the result it must give. *)
  Definition next (chunks : list str) (last : option str) (p : phase) (o : rop) : phase :=
    match p with
    | Fresh =>
        match o with
        | OSniff => match chunks, last with [], Some (b :: bs) => Kept (b :: bs) | _, _ => Fresh end
        | OBody | OJson => match sent_body chunks last with Some b => Kept b | None => Left end
        | OStream => match last with Some _ => Gone | None => Left end
        end
    | p => p
    end.

  Definition first_msg (chunks : list str) (last : option str) : rmsg := hd MDisc (delivery chunks last).

  Definition res_ok (chunks : list str) (last : option str) (p : phase) (o : rop) (r : rres) : Prop :=
    match o, r with
    | OBody, RBody x => x = match p, sent_body chunks last with
                            | Gone, _ => inr SConsumed
                            | _, Some b => inl b
                            | _, None => inr SDisconnect
                            end
    | OJson, RJson x => x = match p, sent_body chunks last with
                            | Gone, _ => inr SConsumed
                            | _, Some b => inl (match b with [] => u "null" | _ => b end)
                            | _, None => inr SDisconnect
                            end
    | OStream, RStream ys e =>
        match p, sent_body chunks last with
        | Gone, _ => ys = [] /\ e = SConsumed
        | Left, _ => ys = [] /\ e = SDisconnect
        | _, Some b => concat ys = b /\ e = SEnd /\ exists zs, ys = zs ++ [[]]
        | _, None => concat ys = concat chunks /\ e = SDisconnect
        end
    | OSniff, RSniff m i =>
        match p with
        | Fresh => m = first_msg chunks last /\ (i = true <-> exists b bs, chunks = [] /\ last = Some (b :: bs))
        | _ => True
        end
    | _, _ => False
    end.

  Lemma sniff_fresh chunks last st : inv chunks last Fresh st -> let '(r, st') := rstep st OSniff in inv chunks last (next chunks last Fresh OSniff) st' /\ res_ok chunks last Fresh OSniff r.
  Proof.
    intros (Hb & Hc & Hs & He). cbn [rstep]. unfold sniff.
    pose proof (receive_coming st) as R. destruct (req_receive st) as (m & q & c).
    destruct R as (R & Rs & Rb & Rc & Rsb). cbn [fst snd] in *.
    assert (Hm : m = first_msg chunks last).
    { unfold first_msg. destruct He as [He|(He & He')].
      - rewrite <- He. destruct R as [R|(R & Rm & _)]; rewrite R; [reflexivity | exact Rm].
      - rewrite He. destruct R as [R|(R & Rm & _)]; [rewrite He' in R; injection R as <- _; reflexivity | exact Rm]. }
    assert (Hrest : m :: coming (q, c) = delivery chunks last \/ (delivery chunks last = [] /\ m = MDisc /\ coming (q, c) = [])).
    { destruct He as [He|(He & He')].
      - destruct R as [R|(R & Rm & R2)]; [left; congruence | right; repeat split; congruence].
      - right. destruct R as [R|(R & Rm & R2)]; [|repeat split; assumption].
        rewrite He' in R. injection R as R1 R2. repeat split; congruence. }
    assert (G : forall q', q' = set_stored q (Some m) -> eventually (coming (q', c)) (delivery chunks last)).
    { intros q' ->. unfold coming in *. cbn [fst snd set_stored q_stored] in *. rewrite Rs in Hrest.
      destruct Hrest as [H|(H1 & H2 & H3)]; [left; exact H | right; split; [exact H1|]; rewrite H2, H3; reflexivity]. }
    unfold first_msg, delivery in Hm, Hrest, G.
    destruct chunks as [|x cs]; cbn [map app hd] in Hm, Hrest, G.
    - destruct last as [b|]; cbn [hd] in Hm; subst m.
      + destruct b as [|b bs].
        * unfold res_ok, first_msg, delivery. cbn [next]. 
          split.
          -- unfold inv. cbn [fst snd set_stored q_body q_consumed]. repeat split; try congruence. apply G. reflexivity.
          -- cbn. split; [reflexivity|]. split; [discriminate|]. intros (b & bs & _ & X). discriminate.
        * cbn [next]. split.
          -- unfold inv. cbn [fst snd set_stored set_body set_consumed q_body]. split; [reflexivity|]. split; [reflexivity|]. split; [reflexivity|]. right.
             specialize (G _ eq_refl). unfold coming in *. cbn [fst snd set_stored set_body set_consumed q_stored set_scope_body ch_in] in *.
             destruct G as [G|(G & _)]; [exact G | discriminate].
          -- cbn. split; [reflexivity|]. split; [intros _|reflexivity]. exists b, bs. split; reflexivity.
      + cbn [next]. split.
        * unfold inv. cbn [fst snd set_stored q_body q_consumed]. repeat split; try congruence. apply G. reflexivity.
        * cbn. split; [reflexivity|]. split; [discriminate|]. intros (b & bs & _ & X). discriminate.
    - subst m. cbn [next].
      replace (match last with Some (_ :: _) => Fresh | _ => Fresh end) with Fresh by (destruct last as [[]|]; reflexivity).
      destruct x; (split; [unfold inv; cbn [fst snd set_stored q_body q_consumed]; repeat split; try congruence; apply G; reflexivity|]);
        (cbn; split; [reflexivity|]; split; [discriminate|]; intros (b & bs & X & _); discriminate).
  Qed.

  Lemma sniff_done chunks last p st : p <> Fresh -> inv chunks last p st -> let '(r, st') := rstep st OSniff in inv chunks last p st' /\ res_ok chunks last p OSniff r.
  Proof.
    intros Hp Hi. cbn [rstep]. unfold sniff.
    pose proof (receive_coming st) as R. destruct (req_receive st) as (m & q & c).
    destruct R as (R & Rs & Rb & Rc & Rsb). cbn [fst snd] in *.
    assert (G : eventually (coming st) [] -> m = MDisc /\ coming (set_stored q (Some m), c) = [MDisc]).
    { intros He. assert (CQ : coming (q, c) = ch_in c) by (unfold coming; cbn [fst snd]; rewrite Rs; reflexivity).
      rewrite CQ in R. change (coming (set_stored q (Some m), c)) with (m :: ch_in c).
      destruct He as [He|(_ & He)]; rewrite He in R; destruct R as [R|(R & Rm & R2)]; try discriminate.
      - rewrite Rm, R2. split; reflexivity.
      - injection R as <- <-. split; reflexivity. }
    destruct p as [|b| |]; [congruence| | |].
    - destruct Hi as (H1 & H2 & H0 & H3). destruct H3 as [H3|H3].
      + destruct (G H3) as (-> & G2). unfold inv. cbn [fst snd set_stored q_body].
        split; [|exact I]. split; [exact H1|]. split; [congruence|]. split; [congruence|]. left. right. split; [reflexivity | exact G2].
      + destruct R as [R|(R & _)]; [|congruence]. rewrite H3 in R. injection R as <- R.
        assert (CE : coming (set_stored q (Some (MReq b false)), c) = [MReq b false]).
        { unfold coming in *. cbn [fst snd set_stored q_stored] in *. rewrite Rs in R. rewrite <- R. reflexivity. }
        destruct b as [|x b].
        * unfold inv. cbn [fst snd set_stored q_body]. split; [|exact I]. split; [exact H1|]. split; [congruence|]. split; [congruence|]. right. exact CE.
        * unfold inv. cbn [fst snd set_stored set_body set_consumed q_body]. split; [|exact I]. split; [exact H1|]. split; [reflexivity|]. split; [reflexivity|]. right. exact CE.
    - destruct Hi as (H1 & H2 & H3 & H4 & H5). destruct (G H5) as (-> & G2).
      unfold inv. cbn [fst snd set_stored q_body q_consumed].
      split; [|exact I]. repeat split; try congruence. right. split; [reflexivity | exact G2].
    - destruct Hi as (H1 & H2 & H3 & H4 & H5). destruct (G H5) as (-> & G2).
      unfold inv. cbn [fst snd set_stored q_body q_consumed].
      split; [|exact I]. repeat split; try congruence. right. split; [reflexivity | exact G2].
  Qed.

  (** [stream] in each phase. *)
  Lemma stream_ok chunks last p st : inv chunks last p st ->
    let '(ys, e, st') := stream st in
    res_ok chunks last p OStream (RStream ys e) /\
    match p with
    | Fresh => q_body (fst st') = None /\ ch_scope_body (snd st') = None /\ eventually (coming st') [] /\
               match last with Some _ => q_consumed (fst st') = true | None => q_consumed (fst st') = false end
    | _ => inv chunks last p st'
    end.
  Proof.
    intros Hi. destruct st as (q & c). unfold stream. destruct p as [|b| |].
    - destruct Hi as (H1 & H2 & H3 & H4). cbn [fst snd] in *. rewrite H1, H2.
      pose proof (stream_loop_spec last (S (S (length (ch_in c)))) chunks (q, c) H1 H2 H3 H4 (stream_loop_fuel chunks last (q, c) H4)) as L.
      destruct (stream_loop _ _) as ((ys & e) & st'). destruct L as (L1 & L2 & L3 & L4).
      unfold res_ok, sent_body. destruct last as [b|]; destruct L4 as (-> & -> & L4); cbn [option_map].
      + split; [|repeat split; assumption]. split; [|split; [reflexivity|eexists; reflexivity]].
        rewrite concat_app, concat_nonempty, concat_app. cbn. rewrite !app_nil_r. reflexivity.
      + split; [|repeat split; assumption]. split; [apply concat_nonempty | reflexivity].
    - pose proof Hi as Hi'. destruct Hi as (H1 & H2 & H0 & H3). cbn [fst snd] in H2. rewrite H2.
      split; [|exact Hi']. unfold res_ok. rewrite H1. cbn. rewrite app_nil_r. split; [reflexivity|]. split; [reflexivity|]. exists [b]. reflexivity.
    - pose proof Hi as Hi'. destruct Hi as (H1 & H2 & H3 & H4 & H5). cbn [fst snd] in *. rewrite H2, H3.
      split; [|exact Hi']. unfold res_ok. split; reflexivity.
    - pose proof Hi as Hi'. destruct Hi as (H1 & H2 & H3 & H4 & H5). cbn [fst snd] in *. rewrite H2, H3.
      assert (HD : delivery [] last = []) by (rewrite H1; reflexivity).
      assert (H5' : eventually (coming (q, c)) (delivery [] last)) by (rewrite HD; exact H5).
      pose proof (stream_loop_spec last (S (S (length (ch_in c)))) [] (q, c) H2 H3 H4 H5' ltac:(cbn; lia)) as L.
      destruct (stream_loop _ _) as ((ys & e) & st'). destruct L as (L1 & L2 & L3 & L4).
      rewrite H1 in L4. destruct L4 as (-> & -> & L4). split; [unfold res_ok; split; reflexivity|].
      repeat split; assumption.
  Qed.

  Lemma body_ok chunks last p st : inv chunks last p st ->
    let '(r, st') := body st in res_ok chunks last p OBody (RBody r) /\ inv chunks last (next chunks last p OBody) st'.
  Proof.
    intros Hi. pose proof (stream_ok chunks last p st Hi) as S. destruct st as (q & c). unfold body. destruct p as [|b| |].
    - pose proof Hi as (H1 & H2 & H3 & H4). cbn [fst snd] in *. rewrite H1, H3.
      destruct (stream (q, c)) as ((ys & e) & (q' & c')). destruct S as (S & S1 & S2 & S3 & S4).
      unfold res_ok in *. cbn [next]. destruct (sent_body chunks last) as [b|] eqn:EB.
      + destruct S as (S5 & -> & _). rewrite S5. split; [reflexivity|]. split; [exact EB|]. split; [reflexivity|]. split; [reflexivity|].
        left. unfold coming in *. cbn [fst snd set_body q_stored set_scope_body ch_in] in *. exact S3.
      + destruct S as (S5 & ->). split; [reflexivity|].
        assert (HL : last = None) by (unfold sent_body in EB; destruct last; [discriminate | reflexivity]).
        rewrite HL in S4. repeat split; assumption.
    - pose proof Hi as (H1 & H2 & H0 & H3). cbn [fst snd] in *. rewrite H2. split; [|exact Hi].
      unfold res_ok. rewrite H1. reflexivity.
    - pose proof Hi as (H1 & H2 & H3 & H4 & H5). cbn [fst snd] in *. rewrite H2, H4.
      destruct (stream (q, c)) as ((ys & e) & (q' & c')). destruct S as ((-> & ->) & S2). split; [reflexivity | exact S2].
    - pose proof Hi as (H1 & H2 & H3 & H4 & H5). cbn [fst snd] in *. rewrite H2, H4.
      destruct (stream (q, c)) as ((ys & e) & (q' & c')). destruct S as ((-> & ->) & S2). split; [|exact S2].
      unfold res_ok, sent_body. rewrite H1. reflexivity.
  Qed.

  Lemma step_ok chunks last p st o : inv chunks last p st -> let '(r, st') := rstep st o in res_ok chunks last p o r /\ inv chunks last (next chunks last p o) st'.
  Proof.
    intros Hi. destruct o.
    - destruct p.
      + pose proof (sniff_fresh chunks last st Hi) as S. destruct (rstep st OSniff). destruct S; split; assumption.
      + pose proof (sniff_done chunks last (Kept b) st ltac:(discriminate) Hi) as S. destruct (rstep st OSniff). destruct S; split; assumption.
      + pose proof (sniff_done chunks last Gone st ltac:(discriminate) Hi) as S. destruct (rstep st OSniff). destruct S; split; assumption.
      + pose proof (sniff_done chunks last Left st ltac:(discriminate) Hi) as S. destruct (rstep st OSniff). destruct S; split; assumption.
    - cbn [rstep]. pose proof (body_ok chunks last p st Hi) as B. destruct (body st). exact B.
    - cbn [rstep]. pose proof (stream_ok chunks last p st Hi) as S. destruct (stream st) as ((ys & e) & st'). destruct S as (S1 & S2).
      split; [exact S1|]. destruct p; cbn [next]; try exact S2.
      destruct S2 as (S2 & S3 & S4 & S5).
      destruct last as [b|] eqn:EL; unfold inv; rewrite ?EL; repeat split; try assumption; try discriminate.
    - cbn [rstep]. unfold json_text. pose proof (body_ok chunks last p st Hi) as B. destruct (body st) as (r & st'). destruct B as (B1 & B2).
      split; [|replace (next chunks last p OJson) with (next chunks last p OBody) by (destruct p; reflexivity); exact B2].
      unfold res_ok in *. subst r. destruct p; destruct (sent_body chunks last) as [[|]|]; reflexivity.
  Qed.

  Definition phase_after (chunks : list str) (last : option str) (os : list rop) : phase := fold_left (next chunks last) os Fresh.

  Lemma run_ok chunks last os : forall p st, inv chunks last p st ->
    let '(rs, st') := rrun st os in
    inv chunks last (fold_left (next chunks last) os p) st' /\
    forall pre o post, os = pre ++ o :: post ->
      exists r, nth_error rs (length pre) = Some r /\ res_ok chunks last (fold_left (next chunks last) pre p) o r.
  Proof.
    induction os as [|o os IH]; intros p st Hi.
    - cbn. split; [exact Hi|]. intros pre o post E. destruct pre; discriminate.
    - cbn [rrun fold_left]. pose proof (step_ok chunks last p st o Hi) as S. destruct (rstep st o) as (r & st1).
      destruct S as (S1 & S2). specialize (IH _ _ S2). destruct (rrun st1 os) as (rs & st2).
      destruct IH as (I1 & I2). split; [exact I1|].
      intros pre o' post E. destruct pre as [|x pre].
      + injection E as <- <-. exists r. split; [reflexivity | exact S1].
      + injection E as <- E. destruct (I2 pre o' post E) as (r' & R1 & R2). exists r'. split; [exact R1 | exact R2].
  Qed.

  Lemma initial_inv chunks last : inv chunks last Fresh (new_req, {| ch_in := delivery chunks last; ch_scope_body := None |}).
  Proof. repeat split. left. reflexivity. Qed.

  Lemma phase_stays chunks last os p : p <> Fresh -> fold_left (next chunks last) os p = p.
  Proof. induction os as [|o os IH]; intros Hp; [reflexivity|]. cbn. rewrite <- IH at 2 by exact Hp. f_equal. destruct p; [congruence|reflexivity..]. Qed.

  (** The phase is the one the specification speaks of. *)
  Lemma phase_gone chunks last os : phase_after chunks last os = Gone <-> streamed_away chunks last os.
  Proof.
    unfold phase_after, streamed_away.
    induction os as [|o os IH].
    - cbn. split; [discriminate|]. intros (_ & X & _). discriminate.
    - cbn [fold_left]. destruct o; cbn [next].
      + unfold first_read. cbn [List.find is_sniff negb].
        destruct chunks as [|x cs] eqn:EC.
        * destruct last as [[|b bs]|] eqn:EL.
          -- rewrite IH. unfold first_read. split.
             ++ intros (A & B & _). repeat split; try assumption. intros (_ & (b & bs & X) & _). discriminate.
             ++ intros (A & B & _). repeat split; try assumption. intros (_ & (b & bs & X) & _). discriminate.
          -- rewrite phase_stays by discriminate. split; [discriminate|]. intros (_ & _ & X). exfalso. apply X.
             split; [reflexivity|]. split; [exists b, bs; reflexivity | exists os; reflexivity].
          -- rewrite IH. split; intros (A & _); congruence.
        * replace (match last with Some (_ :: _) => Fresh | _ => Fresh end) with Fresh by (destruct last as [[]|]; reflexivity).
          rewrite IH. unfold first_read. split.
          -- intros (A & B & _). repeat split; try assumption. intros (X & _). discriminate.
          -- intros (A & B & _). repeat split; try assumption. intros (X & _). discriminate.
      + destruct (sent_body chunks last); rewrite phase_stays by discriminate; (split; [discriminate|]; intros (_ & X & _); discriminate).
      + destruct last as [b|] eqn:EL; rewrite phase_stays by discriminate.
        * split; [intros _|reflexivity]. split; [discriminate|]. split; [reflexivity|]. intros (_ & _ & (os' & X)). discriminate.
        * split; [discriminate|]. intros (X & _). congruence.
      + destruct (sent_body chunks last); rewrite phase_stays by discriminate; (split; [discriminate|]; intros (_ & X & _); discriminate).
  Qed.

(** ** Several Request objects *)
Definition body_op (o : rop) : Prop := o = OBody \/ o = OJson.

Lemma stream_loop_stored n : forall st, q_stored (fst st) = None -> q_stored (fst (snd (stream_loop n st))) = None.
Proof.
  induction n as [|n IH]; intros (q & c) Hs; cbn [fst snd] in *; [exact Hs|].
  cbn [stream_loop req_receive]. rewrite Hs. unfold chan_recv. destruct (ch_in c) as [|[b []|] r]; cbn [set_disc set_consumed]; try exact Hs.
  specialize (IH (q, set_in c r) Hs). destruct (stream_loop n _) as ((ys & e) & st'). exact IH.
Qed.

Lemma body_stored st : q_stored (fst st) = None -> q_stored (fst (snd (body st))) = None.
Proof.
  destruct st as (q & c). unfold body, stream. cbn [fst]. intros Hs.
  destruct (q_body q); [exact Hs|]. destruct (ch_scope_body c); [exact Hs|].
  destruct (q_consumed q); [exact Hs|].
  pose proof (stream_loop_stored (S (S (length (ch_in c)))) (q, c) Hs) as H.
  destruct (stream_loop _ _) as ((ys & e) & (q' & c')). destruct e; exact H.
Qed.

Definition winv (chunks : list str) (last : option str) (w : world) : Prop :=
  (forall i, q_stored (fst w i) = None) /\
  ((exists b, sent_body chunks last = Some b /\ ch_scope_body (snd w) = Some b /\
     forall i, q_body (fst w i) = None \/ q_body (fst w i) = Some b) \/
   (forall i, inv chunks last Fresh (fst w i, snd w)) \/
   (forall i, inv chunks last Left (fst w i, snd w))).

Lemma body_world chunks last qs c i : winv chunks last (qs, c) ->
  let '(r, (q', c')) := body (qs i, c) in
  RBody r = RBody (match sent_body chunks last with Some b => inl b | None => inr SDisconnect end) /\
  winv chunks last (fun j => if Nat.eqb j i then q' else qs j, c').
Proof.
  intros (Ws & W). cbn [fst snd] in *.
  pose proof (body_stored (qs i, c) (Ws i)) as Hst.
  assert (Ws' : forall r q' c', body (qs i, c) = (r, (q', c')) -> forall j, q_stored (if Nat.eqb j i then q' else qs j) = None).
  { intros r q' c' E j. rewrite E in Hst. destruct (Nat.eqb j i); [exact Hst | apply Ws]. }
  destruct W as [(b & W1 & W2 & W3)|[W|W]].
  - unfold body in *. rewrite W1. destruct (W3 i) as [E|E]; rewrite E in *.
    + rewrite W2 in *. split; [reflexivity|]. split; [apply (Ws' _ _ _ eq_refl)|].
      left. exists b. cbn [fst snd]. split; [exact W1|]. split; [exact W2|]. intros j. destruct (Nat.eqb j i); [right; reflexivity | apply W3].
    + split; [reflexivity|]. split; [apply (Ws' _ _ _ eq_refl)|].
      left. exists b. cbn [fst snd]. split; [exact W1|]. split; [exact W2|]. intros j. destruct (Nat.eqb j i); [right; exact E | apply W3].
  - pose proof (body_ok chunks last Fresh (qs i, c) (W i)) as B.
    destruct (body (qs i, c)) as (r & (q' & c')). destruct B as (B1 & B2). specialize (Ws' _ _ _ eq_refl).
    unfold res_ok in B1. cbn [next] in B2. destruct (sent_body chunks last) as [b|] eqn:EB.
    + split; [congruence|]. split; [exact Ws'|]. left. exists b. cbn [fst snd]. destruct B2 as (_ & B2 & B3 & _). cbn [fst snd] in *.
      split; [exact EB|]. split; [exact B3|]. intros j. destruct (Nat.eqb j i); [right; exact B2|].
      left. destruct (W j) as (X & _). exact X.
    + split; [congruence|]. split; [exact Ws'|]. right. right. cbn [fst snd]. intros j. destruct (Nat.eqb j i) eqn:Ej; [exact B2|].
      destruct B2 as (X1 & X2 & X3 & X4 & X5), (W j) as (Y1 & Y2 & Y3 & Y4). cbn [fst snd] in *.
      repeat split; try assumption. cbn [fst snd]. unfold coming in *. cbn [fst snd] in *. rewrite (Ws j).
      specialize (Ws' i). rewrite Nat.eqb_refl in Ws'. rewrite Ws' in X5. exact X5.
  - pose proof (body_ok chunks last Left (qs i, c) (W i)) as B.
    destruct (body (qs i, c)) as (r & (q' & c')). destruct B as (B1 & B2). specialize (Ws' _ _ _ eq_refl).
    assert (EB : sent_body chunks last = None) by (destruct (W i) as (E & _); unfold sent_body; rewrite E; reflexivity).
    unfold res_ok in B1. rewrite EB in *. split; [congruence|]. split; [exact Ws'|]. right. right. cbn [fst snd]. intros j. destruct (Nat.eqb j i) eqn:Ej; [exact B2|].
      destruct B2 as (X1 & X2 & X3 & X4 & X5), (W j) as (Y1 & Y2 & Y3 & Y4 & Y5). cbn [fst snd] in *.
      repeat split; try assumption. cbn [fst snd]. unfold coming in *. cbn [fst snd] in *. rewrite (Ws j).
      specialize (Ws' i). rewrite Nat.eqb_refl in Ws'. rewrite Ws' in X5. exact X5.
Qed.

Lemma world_ok chunks last os : forall w, winv chunks last w ->
  (forall io, In io os -> body_op (snd io)) ->
  forall k r io, nth_error os k = Some io -> nth_error (fst (wrun w os)) k = Some r ->
    match snd io with
    | OBody => r = RBody (match sent_body chunks last with Some b => inl b | None => inr SDisconnect end)
    | _ => r = RJson (match sent_body chunks last with
                      | Some b => inl (match b with [] => u "null" | _ => b end)
                      | None => inr SDisconnect end)
    end.
Proof.
  induction os as [|io os IH]; intros w W Ho k r x Hx Hr; [destruct k; discriminate|].
  cbn [wrun] in Hr. destruct w as (qs & c). unfold wstep in Hr.
  pose proof (body_world chunks last qs c (fst io) W) as B.
  assert (G : exists r1 w1, wstep (qs, c) io = (r1, w1) /\ winv chunks last w1 /\
     match snd io with
    | OBody => r1 = RBody (match sent_body chunks last with Some b => inl b | None => inr SDisconnect end)
    | _ => r1 = RJson (match sent_body chunks last with
                      | Some b => inl (match b with [] => u "null" | _ => b end)
                      | None => inr SDisconnect end)
    end).
  { unfold wstep. destruct (Ho io (or_introl eq_refl)) as [E|E]; rewrite E; cbn [rstep].
    - destruct (body (qs (fst io), c)) as (r0 & (q' & c')). destruct B as (B1 & B2). eexists. eexists. split; [reflexivity|]. split; [exact B2 | exact B1].
    - unfold json_text. destruct (body (qs (fst io), c)) as (r0 & (q' & c')). destruct B as (B1 & B2). eexists. eexists. split; [reflexivity|]. split; [exact B2|].
      injection B1 as ->. destruct (sent_body chunks last) as [[|]|]; reflexivity. }
  destruct G as (r1 & w1 & G1 & G2 & G3). unfold wstep in G1. rewrite G1 in Hr.
  specialize (IH w1 G2 (fun io' H => Ho io' (or_intror H))).
  destruct (wrun w1 os) as (rs & w2). cbn [fst] in *.
  destruct k as [|k].
  - cbn in Hx, Hr. injection Hx as <-. injection Hr as <-. exact G3.
  - cbn in Hx, Hr. exact (IH k r x Hx Hr).
Qed.
