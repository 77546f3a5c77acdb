(** Proofs about the router model. *)
From Verif Require Import PyStr PyStrFacts PathModel PathSpec PathProofs PathMatchProofs PathRevProofs PathIncProofs PathNestProofs RouterModel RouterSpec.

(** ** Searching does not look at the parameters already in the scope *)
Definition same_request (a b : scope) : Prop :=
  sc_root a = sc_root b /\ sc_path a = sc_path b /\ sc_method a = sc_method b.

Lemma search_params r a b : same_request a b ->
  match search r a with
  | SNone => search r b = SNone
  | SError => search r b = SError
  | SPartial => search r b = SPartial
  | SFull ca => exists cb, search r b = SFull cb /\ same_request ca cb
  end.
Proof.
  intros (H1 & H2 & H3). destruct r as [p | rx convs rd cs]; cbn [search].
  - unfold path_search. rewrite H1, H2, H3.
    destruct (pr_convs p) as [|x l].
    + destruct (seqb _ _); [|reflexivity]. destruct (method_refused _ _); [reflexivity|].
      exists b. repeat split; assumption.
    + destruct (rmatch _ _); [|reflexivity]. destruct (transform_all _ _); [|reflexivity].
      destruct (method_refused _ _); [reflexivity|].
      eexists. split; [reflexivity|]. repeat split; assumption.
  - unfold include_search. rewrite H1, H2.
    destruct (rmatch _ _); [|reflexivity].
    destruct (transform_all _ _); [|reflexivity].
    eexists. split; [reflexivity|]. repeat split; assumption.
Qed.

Lemma search_bare r sc :
  match search r sc with
  | SNone => search r (bare sc) = SNone
  | SError => search r (bare sc) = SError
  | SPartial => search r (bare sc) = SPartial
  | SFull ca => exists cb, search r (bare sc) = SFull cb /\ same_request ca cb
  end.
Proof. apply search_params. repeat split. Qed.

Lemma any_match_touch rs sc :
  any_match rs sc = match first_touch rs sc with
                    | None => Some false
                    | Some r => match search r (bare sc) with SError => None | _ => Some true end
                    end.
Proof.
  unfold first_touch. induction rs as [|r rs IH]; [reflexivity|].
  cbn [any_match List.find]. pose proof (search_bare r sc) as H.
  destruct (search r sc) eqn:E.
  - rewrite H. cbn. exact IH.
  - rewrite H. cbn. rewrite H. reflexivity.
  - rewrite H. cbn. rewrite H. reflexivity.
  - destruct H as (cb & H & _). rewrite H. cbn. rewrite H. reflexivity.
Qed.

Lemma bare_eq a b : same_request a b -> bare a = bare b.
Proof. intros (H1 & H2 & H3). unfold bare, set_params. rewrite H1, H2, H3. reflexivity. Qed.

Lemma first_touch_same rs a b : same_request a b -> first_touch rs a = first_touch rs b.
Proof. intros H. unfold first_touch. rewrite (bare_eq _ _ H). reflexivity. Qed.

Lemma targets_same r a b : same_request a b -> targets a r = targets b r.
Proof.
  intros H. pose proof (bare_eq _ _ H) as Hb. destruct H as (H1 & H2 & H3).
  destruct r; cbn [targets]; rewrite Hb, ?H1, ?H2, ?H3; reflexivity.
Qed.

Lemma toggled_same rs a b : same_request a b -> toggled rs a = toggled rs b.
Proof.
  intros H. unfold toggled, other_spelling. destruct H as (H1 & H2 & H3). rewrite H1, H2.
  destruct (seqb _ _); [reflexivity|].
  rewrite (first_touch_same rs (set_path a _) (set_path b (if suffixb [slash] (get_route_path (sc_root b) (sc_path b)) then rstrip_by is_slash (sc_path b) else sc_path b ++ [slash]))).
  - destruct (first_touch _ _); [|reflexivity].
    rewrite (bare_eq (set_path a _) (set_path b (if suffixb [slash] (get_route_path (sc_root b) (sc_path b)) then rstrip_by is_slash (sc_path b) else sc_path b ++ [slash]))); [reflexivity|].
    repeat split; assumption.
  - repeat split; assumption.
Qed.

Lemma try_redirect_toggled enabled rs sc :
  try_redirect enabled false rs sc =
  match (if enabled then toggled rs sc else []) with
  | [] => RNo
  | TRedirect p :: _ => RTo p
  | _ => RFail
  end.
Proof.
  unfold try_redirect. cbn [negb andb]. destruct enabled; [|reflexivity].
  unfold toggled, redirect_path, other_spelling.
  destruct (seqb _ _); [reflexivity|].
  rewrite any_match_touch. destruct (first_touch _ _); [|reflexivity].
  destruct (search _ _); reflexivity.
Qed.

Lemma toggled_shape rs sc : toggled rs sc = [] \/ toggled rs sc = [TBroken] \/ exists p, toggled rs sc = [TRedirect p].
Proof.
  unfold toggled. destruct (other_spelling sc); [|auto].
  destruct (first_touch _ _); [|auto]. destruct (search _ _); eauto.
Qed.

(** ** Handlers *)
Lemma run_answers p : always_answers p -> forall sn inp seen,
  exists seen' sn' inp', run_prog p sn inp seen = (true, HReturn, seen', sn', inp') /\ length sn' = length sn.
Proof.
  assert (R : forall sn inp, length (snd (fst (recv sn inp))) = length sn).
  { induction sn as [|s sn IH]; intros inp; [destruct inp; reflexivity|].
    cbn [recv]. specialize (IH inp).
    destruct (sn_repeat s), (sn_message s); try reflexivity;
      destruct (recv sn inp) as ((m & r) & i); cbn in IH |- *; lia. }
  induction 1 as [|k Hk IH]; intros sn inp seen.
  - exists seen, sn, inp. split; reflexivity.
  - cbn [run_prog]. specialize (R sn inp). destruct (recv sn inp) as ((m & sn1) & inp1) eqn:E.
    cbn in R. destruct (IH m sn1 inp1 (seen ++ [m])) as (a & b & c & Hx & Hl).
    exists a, b, c. split; [exact Hx | lia].
Qed.

Fixpoint partials_of (ts : list target) : list str :=
  match ts with TPartial a :: ts' => a :: partials_of ts' | _ :: ts' => partials_of ts' | [] => [] end.

Lemma partials_app a b : partials_of (a ++ b) = partials_of a ++ partials_of b.
Proof. induction a as [|[]]; cbn; rewrite ?IHa; reflexivity. Qed.

Lemma find_app {A} (f : A -> bool) a b :
  List.find f (a ++ b) = match List.find f a with Some x => Some x | None => List.find f b end.
Proof. induction a as [|x a IH]; [reflexivity|]. cbn. destruct (f x); [reflexivity | exact IH]. Qed.

Lemma dget_dupdate_snoc {V} (d e : dict V) k v n :
  dget n (dupdate d (e ++ [(k, v)])) = dget n (dset k v (dupdate d e)).
Proof. unfold dupdate. rewrite fold_left_app. reflexivity. Qed.

Lemma dupdate_split {V} (d e : dict V) n :
  dget n (dupdate d e) = match dget n (dupdate [] e) with Some v => Some v | None => dget n d end.
Proof.
  induction e as [|(k & v) e IH] using rev_ind; [reflexivity|].
  rewrite !dget_dupdate_snoc. destruct (seqb_spec n k) as [->|H].
  - rewrite !dget_dset_same. reflexivity.
  - rewrite !dget_dset_other by congruence. exact IH.
Qed.

(** Own values survive in what the scope holds. *)
Lemma path_search_own p sc child : path_search p sc = SFull child ->
  exists cb, path_search p (bare sc) = SFull cb /\ sc_root child = sc_root sc /\
    sc_path child = sc_path sc /\ sc_method child = sc_method sc /\
    agrees (sc_params cb) (sc_params child) /\
    (forall n, dget n (sc_params child) = match dget n (sc_params cb) with Some v => Some v | None => dget n (sc_params sc) end).
Proof.
  unfold path_search, bare. cbn [sc_root sc_path sc_method set_params sc_params].
  destruct (pr_convs p) as [|x l].
  - destruct (seqb _ _); [|discriminate]. destruct (method_refused _ _); [discriminate|].
    injection 1 as <-. eexists. split; [reflexivity|]. repeat split; try reflexivity.
    intros n v H. discriminate.
  - destruct (rmatch _ _) as [g|]; [|discriminate]. destruct (transform_all _ _) as [m|]; [|discriminate].
    destruct (method_refused _ _); [discriminate|]. injection 1 as <-.
    eexists. split; [reflexivity|]. cbn [sc_root sc_path sc_method set_params sc_params].
    assert (X : forall n, dget n (dupdate (sc_params sc) m) = match dget n (dupdate [] m) with Some v => Some v | None => dget n (sc_params sc) end).
    { intros n. apply dupdate_split. }
    repeat split; try reflexivity; [|exact X].
    intros n v H. rewrite X, H. reflexivity.
Qed.

Section Handlers.
  Variable handlers : nat -> scope -> prog.
  Hypothesis answering : forall id sc, always_answers (handlers id sc).

  (** What the dispatch of a matched route amounts to, given its targets. *)
  Definition dispatch_ok (ts : list target) (st : state) (d : dispatched) : Prop :=
    match List.find final ts with
    | Some (TFull id root own) =>
        exists st' c, d = DSent (AHandler id) st' /\ st_log st' = st_log st ++ [c] /\
          c_id c = id /\ c_root c = root /\ agrees own (c_params c)
    | Some (TRedirect p) => exists st', d = DSent (ARedirect p) st' /\ st_log st' = st_log st
    | Some TBroken => exists st', d = DError [] st' /\ st_log st' = st_log st
    | Some (TPartial _) => False
    | None => exists st', d = DPass (partials_of ts) st' /\ st_log st' = st_log st
    end.

  Definition route_ok (r : route) : Prop := forall sc st child,
    search r sc = SFull child -> dispatch_ok (targets sc r) st (dispatch handlers r child st).

  Lemma path_ok p : route_ok (RPath p).
  Proof.
    intros sc st child H. cbn [search] in H.
    destruct (path_search_own p sc child H) as (cb & Hb & Hr & Hp & Hm & Ha & _).
    cbn [targets search]. rewrite Hb. unfold dispatch_ok. cbn [List.find final].
    cbn [dispatch]. unfold path_dispatch.
    destruct (run_answers _ (answering (pr_id p) child) (st_sn st) (st_in st) []) as (seen & sn' & inp' & Hx & _).
    rewrite Hx. eexists. eexists. split; [reflexivity|]. split; [reflexivity|].
    cbn. repeat split; assumption.
  Qed.

  Definition loop_ok (ts : list target) (touched : bool) (sc : scope) (st : state) (had : bool) (ps : list str) (l : loop_result) : Prop :=
    match List.find final ts with
    | Some (TFull id root own) =>
        exists st' c, l = LSent (AHandler id) st' /\ st_log st' = st_log st ++ [c] /\
          c_id c = id /\ c_root c = root /\ agrees own (c_params c)
    | Some (TRedirect p) => exists st', l = LSent (ARedirect p) st' /\ st_log st' = st_log st
    | Some TBroken => exists st', l = LError [] st' /\ st_log st' = st_log st
    | Some (TPartial _) => False
    | None => exists sc' st', l = LEnd sc' st' (had || touched)%bool (ps ++ partials_of ts) /\
                same_request sc sc' /\ st_log st' = st_log st
    end.

  Definition touched (rs : list route) (sc : scope) : bool :=
    match first_touch rs sc with Some _ => true | None => false end.

  Lemma touched_cons r rs sc : touched (r :: rs) sc = (negb (is_none (search r (bare sc))) || touched rs sc)%bool.
  Proof. unfold touched, first_touch. cbn [List.find]. destruct (is_none _); reflexivity. Qed.

  Lemma flat_same rs a b : same_request a b -> flat_map (targets a) rs = flat_map (targets b) rs.
  Proof.
    intros H. induction rs as [|r rs IH]; [reflexivity|]. cbn [flat_map].
    rewrite IH, (targets_same r a b H). reflexivity.
  Qed.

  Lemma touched_same rs a b : same_request a b -> touched rs a = touched rs b.
  Proof. intros H. unfold touched. rewrite (first_touch_same rs a b H). reflexivity. Qed.

  Lemma loop_spec rs : Forall route_ok rs -> forall sc st had ps,
    loop_ok (flat_map (targets sc) rs) (touched rs sc) sc st had ps (loop (dispatch handlers) rs sc st had ps).
  Proof.
    induction 1 as [|r rs Hr Hrs IH]; intros sc st had ps.
    - unfold loop_ok. cbn. exists sc, st. rewrite Bool.orb_false_r, app_nil_r. repeat split.
    - cbn [flat_map]. rewrite touched_cons.
      pose proof (search_bare r sc) as HB.
      change (loop (dispatch handlers) (r :: rs) sc st had ps) with
        (match search r sc with
          | SNone => loop (dispatch handlers) rs sc st had ps
          | SError => LError [] st
          | SPartial => loop (dispatch handlers) rs sc st true (ps ++ [allow_header r])
          | SFull child =>
              let sc' := set_params sc (dupdate (sc_params sc) (sc_params child)) in
              match dispatch handlers r child st with
              | DSent a st' => LSent a st'
              | DSilent st' => loop (dispatch handlers) rs sc' (set_sn st' (rearm (st_sn st'))) true ps
              | DContinue st' => loop (dispatch handlers) rs sc' (set_sn st' (rearm (st_sn st'))) true ps
              | DPass qs st' => loop (dispatch handlers) rs sc' st' true (ps ++ qs)
              | DError a st' => LError a st'
              end
          end).
      destruct (search r sc) as [| | |child] eqn:E.
      + rewrite HB. cbn [is_none negb orb].
        assert (T : targets sc r = []) by (destruct r; cbn [targets]; rewrite HB; reflexivity).
        rewrite T. cbn [app]. apply IH.
      + assert (T : targets sc r = [TBroken]) by (destruct r; cbn [targets]; rewrite HB; reflexivity).
        rewrite T. unfold loop_ok. cbn. exists st. split; reflexivity.
      + rewrite HB. cbn [is_none negb orb].
        assert (T : targets sc r = [TPartial (allow_header r)]) by (destruct r; cbn [targets]; rewrite HB; reflexivity).
        rewrite T. cbn [app]. specialize (IH sc st true (ps ++ [allow_header r])).
        unfold loop_ok in IH |- *. cbn [List.find final].
        destruct (List.find final _) as [[]|]; try exact IH.
        destruct IH as (sc' & st' & H1 & H2 & H3). exists sc', st'.
        rewrite H1. cbn [partials_of]. rewrite <- app_assoc. rewrite Bool.orb_true_r. repeat split; try assumption; apply H2.
      + destruct HB as (cb & HB & _). rewrite HB. cbn [is_none negb orb]. cbv zeta.
        specialize (Hr sc st child E). unfold dispatch_ok in Hr. unfold loop_ok. rewrite find_app.
        destruct (List.find final (targets sc r)) as [[id root own|al|p|]|] eqn:F.
        * destruct Hr as (st' & c & H1 & H2). exists st', c. rewrite H1. split; [reflexivity | exact H2].
        * contradiction.
        * destruct Hr as (st' & H1 & H2). exists st'. rewrite H1. split; [reflexivity | exact H2].
        * destruct Hr as (st' & H1 & H2). exists st'. rewrite H1. split; [reflexivity | exact H2].
        * destruct Hr as (st' & H1 & H2). rewrite H1.
          set (sc2 := set_params sc (dupdate (sc_params sc) (sc_params child))).
          assert (S : same_request sc sc2) by (repeat split).
          specialize (IH sc2 st' true (ps ++ partials_of (targets sc r))).
          rewrite <- (flat_same rs sc sc2 S), <- (touched_same rs sc sc2 S) in IH.
          unfold loop_ok in IH.
          destruct (List.find final (flat_map (targets sc) rs)) as [[id root own|al|p|]|] eqn:F2.
          -- destruct IH as (a & c & I1 & I2 & I3). exists a, c. rewrite I1, I2, H2. split; [reflexivity|]. split; [reflexivity|exact I3].
          -- contradiction.
          -- destruct IH as (a & I1 & I2). exists a. rewrite I1, I2, H2. split; reflexivity.
          -- destruct IH as (a & I1 & I2). exists a. rewrite I1, I2, H2. split; reflexivity.
          -- destruct IH as (a & b & I1 & I2 & I3). exists a, b. rewrite I1, I3, H2, partials_app, app_assoc, Bool.orb_true_r.
             split; [reflexivity|]. split; [|reflexivity].
             destruct S as (S1 & S2 & S3), I2 as (J1 & J2 & J3). repeat split; congruence.
  Qed.

  Lemma untouched_targets rs sc : touched rs sc = false -> flat_map (targets sc) rs = [].
  Proof.
    induction rs as [|r rs IH]; [reflexivity|]. rewrite touched_cons. intros H.
    apply Bool.orb_false_iff in H. destruct H as (H1 & H2). cbn [flat_map]. rewrite (IH H2), app_nil_r.
    destruct (search r (bare sc)) eqn:E; try discriminate.
    destruct r; cbn [targets]; rewrite E; reflexivity.
  Qed.

  Lemma include_ok rx convs redirect cs : Forall route_ok cs -> route_ok (RInclude rx convs redirect cs).
  Proof.
    intros Hcs sc st child H. pose proof (search_bare (RInclude rx convs redirect cs) sc) as HB. rewrite H in HB.
    destruct HB as (cb & HB & HS).
    cbn [targets]. rewrite HB.
    set (inner := {| sc_root := sc_root cb; sc_path := sc_path sc; sc_method := sc_method sc; sc_params := [] |}).
    assert (HP : sc_path child = sc_path sc /\ sc_method child = sc_method sc).
    { cbn [search] in H. destruct (include_search _ _ _ _ _) in H; try discriminate. injection H as <-. split; reflexivity. }
    assert (S : same_request child inner).
    { destruct HS as (S1 & S2 & S3), HP as (P1 & P2). repeat split; cbn; assumption. }
    pose proof (loop_spec cs Hcs child (set_sn st (fresh_sniffer :: st_sn st)) false []) as L.
    rewrite (flat_same cs child inner S), (touched_same cs child inner S) in L.
    cbn [dispatch]. unfold loop_ok in L. unfold dispatch_ok.
    destruct (touched cs inner) eqn:T; unfold touched in T; destruct (first_touch cs inner) as [r0|] eqn:FT; try discriminate.
    - destruct (List.find final (flat_map (targets inner) cs)) as [[id root own|al|p|]|] eqn:F.
      + destruct L as (a & c & L1 & L2 & L3). rewrite L1. eexists. exists c. split; [reflexivity|]. split; [exact L2 | exact L3].
      + contradiction.
      + destruct L as (a & L1 & L2). rewrite L1. eexists. split; [reflexivity | exact L2].
      + destruct L as (a & L1 & L2). rewrite L1. eexists. split; [reflexivity | exact L2].
      + destruct L as (sc' & a & L1 & L2 & L3). rewrite L1. cbn [orb app].
        unfold try_redirect. cbn [negb andb]. eexists. split; [reflexivity | exact L3].
    - assert (T' : touched cs inner = false) by (unfold touched; rewrite FT; reflexivity).
      rewrite (untouched_targets cs inner T') in L. cbn [List.find partials_of orb app] in L.
      destruct L as (sc' & a & L1 & L2 & L3). rewrite L1. rewrite try_redirect_toggled.
      assert (S' : same_request sc' inner) by (destruct S as (S1 & S2 & S3), L2 as (J1 & J2 & J3); repeat split; congruence).
      rewrite (toggled_same cs sc' inner S').
      destruct redirect.
      + destruct (toggled_shape cs inner) as [E|[E|(p & E)]]; rewrite E; cbn [List.find final partials_of];
          eexists; (split; [reflexivity | exact L3]).
      + cbn [List.find final partials_of]. eexists. split; [reflexivity | exact L3].
  Qed.

  Fixpoint every_route_ok (r : route) : route_ok r :=
    match r with
    | RPath p => path_ok p
    | RInclude rx convs rd cs =>
        include_ok rx convs rd cs
          ((fix go (l : list route) : Forall route_ok l :=
              match l with
              | [] => Forall_nil _
              | x :: l' => Forall_cons x (every_route_ok x) (go l')
              end) cs)
    end.

  Lemma all_routes_ok rs : Forall route_ok rs.
  Proof. induction rs; constructor; [apply every_route_ok | assumption]. Qed.

  Lemma first_partial ts : List.find final ts = None ->
    match hd_error ts with
    | None => partials_of ts = []
    | Some (TPartial a) => exists l, partials_of ts = a :: l
    | Some _ => False
    end.
  Proof.
    destruct ts as [|t ts]; [reflexivity|]. cbn [List.find hd_error].
    destruct t; cbn [final]; try discriminate. intros _. eexists. reflexivity.
  Qed.

  Lemma general_spec redirect rs sc inp :
    outcome_of (chosen redirect rs sc) (app_general handlers redirect rs sc inp).
  Proof.
    unfold app_general, chosen.
    pose proof (loop_spec rs (all_routes_ok rs) sc {| st_sn := [fresh_sniffer]; st_in := inp; st_log := [] |} false []) as L.
    unfold loop_ok in L.
    destruct (touched rs sc) eqn:T; unfold touched in T; destruct (first_touch rs sc) as [r0|] eqn:FT; try discriminate; cbv zeta.
    - destruct (List.find final (flat_map (targets sc) rs)) as [[id root own|al|p|]|] eqn:F.
      + destruct L as (a & c & L1 & L2 & L3). rewrite L1. cbn. repeat split. exists c. split; [exact L2 | exact L3].
      + contradiction.
      + destruct L as (a & L1 & L2). rewrite L1. cbn. repeat split. exact L2.
      + destruct L as (a & L1 & L2). rewrite L1. cbn. repeat split. exact L2.
      + destruct L as (sc' & a & L1 & L2 & L3). rewrite L1. cbn [orb app].
        unfold try_redirect. cbn [negb andb].
        pose proof (first_partial _ F) as P.
        destruct (hd_error (flat_map (targets sc) rs)) as [[]|]; try contradiction.
        * destruct P as (l & ->). cbn. repeat split. exact L3.
        * rewrite P. cbn. repeat split. exact L3.
    - assert (T' : touched rs sc = false) by (unfold touched; rewrite FT; reflexivity).
      rewrite (untouched_targets rs sc T') in L. cbn [List.find partials_of orb app] in L.
      destruct L as (sc' & a & L1 & L2 & L3). rewrite L1. rewrite try_redirect_toggled.
      rewrite <- (toggled_same rs sc sc' L2).
      destruct redirect.
      + destruct (toggled_shape rs sc) as [E|[E|(p & E)]]; rewrite E; cbn; repeat split; exact L3.
      + cbn. repeat split. exact L3.
  Qed.

  Lemma fast_spec redirect p sc inp :
    outcome_of (chosen redirect [RPath p] sc) (app_fast handlers redirect p sc inp).
  Proof.
    unfold app_fast, chosen, first_touch. cbn [List.find]. cbn [search].
    pose proof (search_bare (RPath p) sc) as HB. cbn [search] in HB.
    destruct (path_search p sc) as [| | |child] eqn:E.
    - rewrite HB. cbn [is_none negb]. rewrite try_redirect_toggled.
      destruct redirect.
      + destruct (toggled_shape [RPath p] sc) as [X|[X|(q & X)]]; rewrite X; cbn; repeat split.
      + cbn. repeat split.
    - rewrite HB. cbn [is_none negb flat_map targets search]. rewrite HB. cbn. repeat split.
    - rewrite HB. cbn [is_none negb flat_map targets search]. rewrite HB. cbn. repeat split.
    - destruct (path_search_own p sc child E) as (cb & Hb & Hr & Hp & Hm & Ha & _).
      rewrite Hb. cbn [is_none negb flat_map targets search]. rewrite Hb. cbn [app List.find final].
      destruct (run_answers _ (answering (pr_id p) child) [] inp []) as (seen & sn' & inp' & Hx & _).
      rewrite Hx. cbn. repeat split. eexists. split; [reflexivity|]. cbn. repeat split; assumption.
  Qed.

  Theorem app_spec redirect rs sc inp :
    outcome_of (chosen redirect rs sc) (router_app handlers redirect rs sc inp).
  Proof.
    unfold router_app. destruct rs as [|[p|] [|r2 rs]]; try apply general_spec. apply fast_spec.
  Qed.
End Handlers.

(** ** Readable corollaries *)
Definition not_full (s : search_result) : Prop := s = SNone \/ s = SPartial.

Lemma search_bare_not_full r sc : not_full (search r sc) -> search r (bare sc) = search r sc.
Proof. intros [H|H]; pose proof (search_bare r sc) as B; rewrite H in B; rewrite B, H; reflexivity. Qed.

Lemma not_full_targets r sc : not_full (search r sc) -> Forall (fun t => final t = false) (targets sc r).
Proof.
  intros H. pose proof (search_bare_not_full r sc H) as B.
  destruct H as [H|H]; rewrite H in B; destruct r; cbn [targets]; rewrite B; repeat constructor.
Qed.

Lemma find_none_all {A} (f : A -> bool) l : Forall (fun t => f t = false) l -> List.find f l = None.
Proof. induction 1 as [|x l H _ IH]; [reflexivity|]. cbn. rewrite H. exact IH. Qed.

Lemma Forall_flat {A B} (P : B -> Prop) (f : A -> list B) l : Forall (fun x => Forall P (f x)) l -> Forall P (flat_map f l).
Proof. induction 1; cbn; [constructor | apply Forall_app; split; assumption]. Qed.

Lemma touched_in rs r sc : In r rs -> search r sc <> SNone -> exists r', first_touch rs sc = Some r'.
Proof.
  intros Hin Hs. unfold first_touch. destruct (List.find _ rs) as [r'|] eqn:E; [eauto|].
  exfalso. pose proof (List.find_none _ _ E r Hin) as H. cbn in H.
  pose proof (search_bare r sc) as B. destruct (search r sc).
  - contradiction.
  - rewrite B in H. discriminate.
  - rewrite B in H. discriminate.
  - destruct B as (cb & B & _). rewrite B in H. discriminate.
Qed.

Lemma chosen_full redirect before p after sc child :
  Forall (fun r => not_full (search r sc)) before -> path_search p sc = SFull child ->
  exists own, chosen redirect (before ++ RPath p :: after) sc = Some (TFull (pr_id p) (sc_root sc) own).
Proof.
  intros Hb Hp. unfold chosen.
  destruct (touched_in (before ++ RPath p :: after) (RPath p) sc) as (r' & ->).
  { apply in_or_app. right. left. reflexivity. }
  { cbn [search]. rewrite Hp. discriminate. }
  cbv zeta. rewrite flat_map_app, find_app.
  rewrite find_none_all.
  - destruct (path_search_own p sc child Hp) as (cb & Hcb & _).
    cbn [flat_map targets search]. rewrite Hcb. cbn. eauto.
  - apply Forall_flat. eapply Forall_impl; [|exact Hb]. intros r. apply not_full_targets.
Qed.

Local Arguments disconnect_msg : simpl never.

(** ** Deferring: the message stream and the parameters *)
Definition same_stream (a b : list str) : Prop := forall n, nth n a disconnect_msg = nth n b disconnect_msg.

Lemma same_stream_cons m a b : same_stream (m :: a) b -> hd disconnect_msg b = m /\ same_stream a (tl b).
Proof.
  intros H. split.
  - specialize (H 0%nat). destruct b; cbn in *; auto.
  - intros n. specialize (H (S n)). cbn in H. rewrite H. destruct b; [destruct n; reflexivity | reflexivity].
Qed.

Lemma same_stream_nil b : same_stream [] b -> hd disconnect_msg b = disconnect_msg /\ same_stream [] (tl b).
Proof.
  intros H. split.
  - specialize (H 0%nat). destruct b; cbn in *; auto.
  - intros n. specialize (H (S n)). destruct b; [destruct n; reflexivity | cbn in *; rewrite <- H; destruct n; reflexivity].
Qed.

Definition pending (s : sniffer) (inp : list str) : list str :=
  if sn_repeat s then match sn_message s with Some m => m :: inp | None => inp end else inp.

Lemma recv_top inp : recv [] inp = (hd disconnect_msg inp, [], tl inp).
Proof. destruct inp; reflexivity. Qed.

Lemma recv_one s inp : exists inp',
  recv [s] inp = (hd disconnect_msg (pending s inp), [{| sn_repeat := false; sn_message := Some (hd disconnect_msg (pending s inp)) |}], inp')
  /\ inp' = tl (pending s inp).
Proof.
  destruct s as [[] [m|]]; unfold pending; cbn [sn_repeat sn_message recv]; eexists; (split; [|reflexivity]);
    try reflexivity; destruct inp; reflexivity.
Qed.

Lemma run_one p : forall s inp inp0 seen, same_stream (pending s inp) inp0 ->
  let '(sent, e, seen', _, _) := run_prog p [s] inp seen in
  let '(sent0, e0, seen0, _, _) := run_prog p [] inp0 seen in
  sent = sent0 /\ e = e0 /\ seen' = seen0.
Proof.
  induction p as [k IH | sent e]; intros s inp inp0 seen H.
  - cbn [run_prog]. destruct (recv_one s inp) as (inp' & R & I). rewrite R, recv_top.
    assert (Q : hd disconnect_msg (pending s inp) = hd disconnect_msg inp0 /\ same_stream inp' (tl inp0)).
    { subst inp'. destruct (pending s inp) as [|m l].
      - apply same_stream_nil in H. cbn [hd tl]. destruct H. split; [congruence | assumption].
      - apply same_stream_cons in H. cbn [hd tl]. destruct H. split; [congruence | assumption]. }
    destruct Q as (Q1 & Q2). rewrite Q1. apply IH. exact Q2.
  - cbn. repeat split.
Qed.

(** Between routes the sniffer still offers the whole stream. *)
Definition whole (s : sniffer) (inp inp0 : list str) : Prop :=
  (sn_message s = None /\ same_stream inp inp0) \/ (sn_repeat s = true /\ same_stream (pending s inp) inp0).

Lemma whole_pending s inp inp0 : whole s inp inp0 -> same_stream (pending s inp) inp0.
Proof. intros [(H1 & H2)|(H1 & H2)]; [|exact H2]. unfold pending. rewrite H1. destruct (sn_repeat s); exact H2. Qed.

Lemma decline_one p : declines 1 p -> forall s inp inp0 seen, whole s inp inp0 ->
  exists e seen' s' inp', run_prog p [s] inp seen = (false, e, seen', [s'], inp') /\ e <> HRaise /\
    whole {| sn_repeat := true; sn_message := sn_message s' |} inp' inp0.
Proof.
  intros Hd s inp inp0 seen W. inversion Hd as [n e He | n k Hk]; subst.
  - exists e, seen, s, inp. split; [reflexivity|]. split; [exact He|].
    destruct W as [(W1 & W2)|(W1 & W2)].
    + left. cbn. split; assumption.
    + right. split; [reflexivity|]. unfold pending in W2 |- *. cbn [sn_repeat sn_message]. rewrite W1 in W2. exact W2.
  - cbn [run_prog]. destruct (recv_one s inp) as (inp' & R & I). rewrite R.
    specialize (Hk (hd disconnect_msg (pending s inp))). inversion Hk as [n' e He Hn Hp | ]; subst n'.
    cbn [run_prog]. eexists. eexists. eexists. eexists. split; [reflexivity|]. split; [exact He|].
    right. split; [reflexivity|]. unfold pending at 1. cbn [sn_repeat sn_message].
    apply whole_pending in W. intros j. rewrite <- W. subst inp'.
    destruct (pending s inp) as [|m l]; [|reflexivity]. cbn [hd tl].
    destruct j as [|[|j]]; reflexivity.
Qed.
