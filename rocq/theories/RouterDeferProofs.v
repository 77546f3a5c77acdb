(** Proofs about deferring handlers (C15) and about methods (C16). *)
From Verif Require Import PyStr PyStrFacts PathModel PathSpec PathProofs PathMatchProofs PathRevProofs PathIncProofs PathNestProofs RouterModel RouterSpec RouterProofs.

Lemma dget_key {V} (d : dict V) k v : dget k d = Some v -> In k (dkeys d).
Proof.
  induction d as [|(a & b) d IH]; [discriminate|]. cbn [dget]. destruct (seqb_spec k a) as [->|H].
  - intros _. left. reflexivity.
  - intros X. right. apply IH. exact X.
Qed.

Lemma NoDup_dupdate {V} (e d : dict V) : NoDup (dkeys d) -> NoDup (dkeys (dupdate d e)).
Proof.
  induction e as [|(k & v) e IH] using rev_ind; intros H; [exact H|].
  unfold dupdate. rewrite fold_left_app. cbn [fold_left fst snd]. apply NoDup_dset. apply IH. exact H.
Qed.

Lemma path_search_nodup p sc child : NoDup (dkeys (sc_params sc)) -> path_search p sc = SFull child -> NoDup (dkeys (sc_params child)).
Proof.
  intros Hn. unfold path_search. destruct (pr_convs p).
  - destruct (seqb _ _); [|discriminate]. destruct (method_refused _ _); [discriminate|].
    injection 1 as <-. exact Hn.
  - destruct (rmatch _ _); [|discriminate]. destruct (transform_all _ _); [|discriminate].
    destruct (method_refused _ _); [discriminate|]. injection 1 as <-. apply NoDup_dupdate. exact Hn.
Qed.

Lemma transform_keys convs g : forall m, transform_all convs g = Some m ->
  forall n v, dget n (dupdate [] m) = Some v -> In n (dkeys convs).
Proof.
  assert (K : forall m, transform_all convs g = Some m -> forall n, In n (dkeys m) -> In n (dkeys convs)).
  { induction g as [|(k & x) g IH]; intros m H n Hn.
    - cbn in H. injection H as <-. contradiction.
    - cbn [transform_all] in H. destruct (dget k convs) as [c|] eqn:Ek; [|discriminate].
      destruct (transform c x); [|discriminate]. destruct (transform_all convs g) as [r|] eqn:Er; [|discriminate].
      injection H as <-. cbn [dkeys map fst] in Hn. destruct Hn as [<-|Hn].
      + apply dget_key in Ek. exact Ek.
      + apply (IH r eq_refl n). exact Hn. }
  intros m H n v Hv. apply (K m H). clear H K.
  induction m as [|(k & w) m IH] using rev_ind; [discriminate|].
  rewrite dget_dupdate_snoc in Hv. unfold dkeys. rewrite map_app. apply in_or_app.
  destruct (seqb_spec n k) as [->|Hne]; [right; left; reflexivity|].
  rewrite dget_dset_other in Hv by congruence. left. apply IH. exact Hv.
Qed.

Lemma path_search_binds p sc child : path_search p sc = SFull child ->
  forall n, ~ In n (binds (RPath p)) -> dget n (sc_params child) = dget n (sc_params sc).
Proof.
  unfold path_search. cbn [binds]. destruct (pr_convs p) as [|x l] eqn:E.
  - destruct (seqb _ _); [|discriminate]. destruct (method_refused _ _); [discriminate|].
    injection 1 as <-. reflexivity.
  - destruct (rmatch _ _) as [g|]; [|discriminate]. destruct (transform_all _ _) as [m|] eqn:T; [|discriminate].
    destruct (method_refused _ _); [discriminate|]. injection 1 as <-. intros n Hn.
    cbn [sc_params set_params]. rewrite dupdate_split.
    destruct (dget n (dupdate [] m)) eqn:D; [|reflexivity].
    exfalso. apply Hn. eapply transform_keys; eassumption.
Qed.

Section Handlers.
  Variable handlers : nat -> scope -> prog.

  Lemma loop_cons r rs sc st had ps :
    loop (dispatch handlers) (r :: rs) sc st had ps =
        match search r sc with
          | SNone => loop (dispatch handlers) rs sc st had ps
          | SError => LError [] st
          | SPartial => loop (dispatch handlers) rs sc st true (ps ++ [allow_header r])
          | SFull child =>
              let sc' := set_params sc (dupdate (sc_params sc) (sc_params child)) in
              match dispatch handlers r child st with
              | DSent a st' => LSent a st'
              | DSilent st' => loop (dispatch handlers) rs sc' (set_sn st' (rearm (st_sn st'))) true ps
              | DContinue st' => loop (dispatch handlers) rs sc' (set_sn st' (rearm (st_sn st'))) true ps
              | DPass qs st' => loop (dispatch handlers) rs sc' st' true (ps ++ qs)
              | DError a st' => LError a st'
              end
          end.
  Proof. reflexivity. Qed.

  (** A route that is passed over: it does not match, or its handler declines. *)
  Definition passed_over (sc : scope) (q : path_route) : Prop :=
    not_full (path_search q sc) \/
    ((exists child, path_search q sc = SFull child) /\ forall s, declines 1 (handlers (pr_id q) s)).

  (** The names captured by the routes that match and then decline. *)
  Definition captured (sc : scope) (qs : list path_route) (n : str) : Prop :=
    exists q child, In q qs /\ path_search q sc = SFull child /\ In n (binds (RPath q)).

  Lemma captured_same a b qs n : same_request a b -> captured a qs n -> captured b qs n.
  Proof.
    intros S (q & child & H1 & H2 & H3). pose proof (search_params (RPath q) a b S) as P.
    cbn [search] in P. rewrite H2 in P. destruct P as (cb & P & _).
    exists q, cb. repeat split; assumption.
  Qed.

  Lemma passed_same a b q : same_request a b -> passed_over a q -> passed_over b q.
  Proof.
    intros S H. pose proof (search_params (RPath q) a b S) as P. cbn [search] in P.
    destruct H as [[H|H]|((child & H) & D)]; rewrite H in P.
    - left. left. exact P.
    - left. right. exact P.
    - destruct P as (cb & P & _). right. split; [exists cb; exact P | exact D].
  Qed.

  Lemma defer_loop qs p rest inp0 : (forall s, always_answers (handlers (pr_id p) s)) -> forall sc s inp log had ps child0,
    NoDup (dkeys (sc_params sc)) -> Forall (passed_over sc) qs -> path_search p sc = SFull child0 -> whole s inp inp0 ->
    exists st c child,
      loop (dispatch handlers) (map RPath qs ++ RPath p :: rest) sc {| st_sn := [s]; st_in := inp; st_log := log |} had ps
        = LSent (AHandler (pr_id p)) st /\
      st_log st = log ++ c /\
      (exists before, c = before ++ [{| c_id := pr_id p; c_root := sc_root sc; c_params := sc_params child;
                  c_seen := snd (fst (fst (run_prog (handlers (pr_id p) child) [] inp0 []))) |}] /\
         Forall (fun x => exists q, In q qs /\ c_id x = pr_id q) before) /\
      same_request sc child /\
      (forall cb, path_search p (bare sc) = SFull cb -> agrees (sc_params cb) (sc_params child)) /\
      forall n, ~ captured sc qs n -> dget n (sc_params child) = dget n (sc_params child0).
  Proof.
    intros Hp. induction qs as [|q qs IH]; intros sc s inp log had ps child0 Hnd Hq Hs W.
    - cbn [map app]. rewrite loop_cons. cbn [search]. rewrite Hs. cbn [dispatch]. unfold path_dispatch. cbn [st_sn st_in st_log].
      destruct (run_answers _ (Hp child0) [s] inp []) as (seen & sn' & inp' & Hx & _).
      pose proof (run_one (handlers (pr_id p) child0) s inp inp0 [] (whole_pending _ _ _ W)) as R.
      rewrite Hx in R |- *.
      destruct (run_prog (handlers (pr_id p) child0) [] inp0 []) as ((((a & b) & c) & d) & e) eqn:R0.
      destruct R as (<- & <- & ->).
      eexists. eexists. exists child0. split; [reflexivity|]. cbn [st_log]. split; [reflexivity|].
      assert (S : same_request sc child0).
      { destruct (path_search_own p sc child0 Hs) as (cb & _ & E1 & E2 & E3 & _). repeat split; congruence. }
      split.
      + exists []. rewrite R0. cbn [fst snd app]. destruct S as (-> & _). split; [reflexivity | constructor].
      + split; [exact S|]. split; [|reflexivity].
        intros cb Hcb. destruct (path_search_own p sc child0 Hs) as (cb' & Hcb' & _ & _ & _ & Ha & _).
        rewrite Hcb in Hcb'. injection Hcb' as <-. exact Ha.
    - inversion Hq as [|? ? Hq1 Hq2]; subst. cbn [map app].
      rewrite loop_cons.
      cbn [search].
      assert (Skip : forall n, ~ captured sc (q :: qs) n -> ~ captured sc qs n).
      { intros n Hn (q' & c' & X1 & X2 & X3). apply Hn. exists q', c'. repeat split; try assumption. right. exact X1. }
      destruct Hq1 as [[E|E]|((child & E) & D)]; rewrite E.
      + destruct (IH sc s inp log had ps child0 Hnd Hq2 Hs W) as (st & c & ch & L1 & L2 & (b & L3 & L4) & L5 & L6 & L7).
        exists st, c, ch. split; [exact L1|]. split; [exact L2|]. split; [|split; [exact L5|]].
        * exists b. split; [exact L3|]. eapply Forall_impl; [|exact L4]. intros x (q' & X1 & X2). exists q'. split; [right; exact X1 | exact X2].
        * split; [exact L6|]. intros n Hn. apply L7. apply Skip. exact Hn.
      + destruct (IH sc s inp log true (ps ++ [allow_header (RPath q)]) child0 Hnd Hq2 Hs W) as (st & c & ch & L1 & L2 & (b & L3 & L4) & L5 & L6 & L7).
        exists st, c, ch. split; [exact L1|]. split; [exact L2|]. split; [|split; [exact L5|]].
        * exists b. split; [exact L3|]. eapply Forall_impl; [|exact L4]. intros x (q' & X1 & X2). exists q'. split; [right; exact X1 | exact X2].
        * split; [exact L6|]. intros n Hn. apply L7. apply Skip. exact Hn.
      + cbn [dispatch]. unfold path_dispatch. cbn [st_sn st_in st_log].
        destruct (decline_one _ (D child) s inp inp0 [] W) as (e & seen & s' & inp' & R & He & W').
        rewrite R. cbv zeta.
        set (sc2 := set_params sc (dupdate (sc_params sc) (sc_params child))).
        assert (S2 : same_request sc sc2) by (repeat split).
        assert (Hnd2 : NoDup (dkeys (sc_params sc2))) by (apply NoDup_dupdate; exact Hnd).
        set (entry := {| c_id := pr_id q; c_root := sc_root child; c_params := sc_params child; c_seen := seen |}).
        pose proof (search_params (RPath p) sc sc2 S2) as P. cbn [search] in P. rewrite Hs in P.
        destruct P as (child2 & P & _).
        assert (Q2 : Forall (passed_over sc2) qs).
        { eapply Forall_impl; [|exact Hq2]. intros x. apply passed_same. exact S2. }
        destruct (IH sc2 {| sn_repeat := true; sn_message := sn_message s' |} inp' (log ++ [entry]) true ps child2 Hnd2 Q2 P W')
          as (st & c & ch & L1 & L2 & (b & L3 & L4) & L5 & L6 & L7).
        exists st, (entry :: c), ch.
        assert (G : forall n, ~ captured sc (q :: qs) n -> dget n (sc_params ch) = dget n (sc_params child0)).
        { intros n Hn. rewrite L7.
          - destruct (path_search_own p sc2 child2 P) as (cb2 & B2 & _ & _ & _ & _ & F2).
            destruct (path_search_own p sc child0 Hs) as (cb & B & _ & _ & _ & _ & F).
            rewrite F2, F.
            assert (X : bare sc2 = bare sc) by reflexivity. rewrite X, B in B2. injection B2 as <-.
            destruct (dget n (sc_params cb)) eqn:Dn; [reflexivity|].
            unfold sc2. cbn [sc_params set_params].
            rewrite dget_dupdate by (apply (path_search_nodup q sc child); assumption).
            rewrite (path_search_binds q sc child E).
            + destruct (dget n (sc_params sc)); reflexivity.
            + intros Hin. apply Hn. exists q, child. repeat split; try assumption. left. reflexivity.
          - intros HC. apply Hn.
            apply (captured_same sc2 sc) in HC; [|repeat split].
            destruct HC as (q' & c' & X1 & X2 & X3). exists q', c'. repeat split; try assumption. right. exact X1. }
        assert (GL : (exists before, entry :: c = before ++ [{| c_id := pr_id p; c_root := sc_root sc; c_params := sc_params ch;
                  c_seen := snd (fst (fst (run_prog (handlers (pr_id p) ch) [] inp0 []))) |}] /\
              Forall (fun x => exists q', In q' (q :: qs) /\ c_id x = pr_id q') before)).
        { exists (entry :: b). split; [cbn [app]; f_equal; exact L3|]. constructor.
          - exists q. split; [left; reflexivity | reflexivity].
          - eapply Forall_impl; [|exact L4]. intros x (q' & X1 & X2). exists q'. split; [right; exact X1 | exact X2]. }
        assert (GS : same_request sc ch) by exact L5.
        rewrite <- app_assoc in L2.
        destruct e; [| |congruence]; cbn [set_sn st_sn st_in st_log rearm] in *;
          (split; [exact L1|]; split; [exact L2|]; split; [exact GL|]; split; [exact GS|]; split; [exact L6 | exact G]).
  Qed.
End Handlers.
