From Verif Require Import PyStr PyStrFacts DepModel DepSpec.
From Verif Require HeaderProofs.

Lemma update_same {A} i (x : A) l : nth_error l i = Some x -> update i x l = l.
Proof. revert l. induction i as [|i IH]; intros [|y l] H; try discriminate H; cbn in *; [injection H as ->; reflexivity | f_equal; apply IH; exact H]. Qed.
Lemma update_length {A} i (x : A) l : length (update i x l) = length l.
Proof. revert l. induction i as [|i IH]; intros [|y l]; cbn; try reflexivity. f_equal. apply IH. Qed.
Lemma nth_update {A} i j (x : A) l : nth_error (update i x l) j = if Nat.eqb i j then match nth_error l i with Some _ => Some x | None => None end else nth_error l j.
Proof.
  revert j l. induction i as [|i IH]; intros j l; destruct l as [|y l]; cbn [update].
  - destruct j; reflexivity.
  - destruct j; reflexivity.
  - destruct (Nat.eqb_spec (S i) j) as [<-|]; reflexivity.
  - destruct j as [|j]; [reflexivity|]. cbn [nth_error Nat.eqb]. apply IH.
Qed.

Lemma from_body_same provs deps rq body p k : brings_nothing provs deps rq -> r_data rq = DMap body -> In p provs -> from_body p deps body k = k.
Proof.
  intros B D P. specialize (B body D p). unfold from_body. clear D. revert k. induction body as [|(n, v) body IH]; intros k; [reflexivity|]. cbn [fold_left fst snd].
  assert (X : smem n (param_names p) && negb (dmem n deps) = false).
  { destruct (smem n (param_names p)) eqn:E; [|reflexivity]. apply smem_In in E. specialize (B n P (or_introl eq_refl) E). cbn [andb]. apply negb_false_iff.
    apply dmem_iff. destruct (dget n deps) eqn:G; [eexists; reflexivity|]. apply dget_None_keys in G. contradiction. }
  rewrite X. apply IH. intros key P' K. apply B; [exact P' | right; exact K].
Qed.

(** ** Without cache and body values the state does not change *)
Lemma walk_state (res : nat -> list pstate -> option (outcome * list pstate * list nat)) deps l kwargs st log x st' log' :
  (forall j st o st' lg, res j st = Some (o, st', lg) -> st' = st) ->
  walk res deps l kwargs st log = Some (x, st', log') -> st' = st.
Proof.
  intros H. revert kwargs st log. induction l as [|a l IH]; intros kwargs st log; cbn [walk]; [congruence|].
  destruct (a_kind a); [|apply IH]. destruct (dget (a_name a) deps) as [j|]; [|apply IH]. destruct (res j st) as [((o & st1) & lg)|] eqn:E; [|discriminate].
  apply H in E. subst st1. destruct o; [apply IH | congruence | congruence].
Qed.

Lemma resolve_state fuel call provs deps rq : (forall p, In p provs -> p_cache p = false) -> brings_nothing provs deps rq ->
  forall i st o st' log, resolve fuel call provs deps rq i st = Some (o, st', log) -> st' = st.
Proof.
  intros NC B. induction fuel as [|f IH]; intros i st o st' log; [discriminate|]. cbn [resolve].
  destruct (nth_error provs i) as [p|] eqn:P; [|discriminate]. destruct (nth_error st i) as [s|] eqn:T; [|discriminate].
  pose proof (nth_error_In _ _ P) as IP. rewrite (NC p IP).
  assert (R : forall v st0, remember p i v st0 = st0) by (intros; unfold remember; rewrite (NC p IP); reflexivity).
  assert (U : update i {| kw := kw s; cached := cached s |} st = st) by (apply update_same; rewrite T; destruct s; reflexivity).
  assert (K : match (match p_params p with [] => DNone | _ => r_data rq end) with DMap body => from_body p deps body (kw s) | _ => kw s end = kw s).
  { destruct (p_params p); [reflexivity|]. destruct (r_data rq) eqn:D; try reflexivity. eapply from_body_same; eassumption. }
  assert (G : forall k, k = kw s ->
    (if match p_args p, k with [], [] => p_class p | _, _ => true end then
       match invoke call p k with Some v => Some (Ret v, remember p i v (update i {| kw := k; cached := cached s |} st), [i]) | None => Some (Raised, update i {| kw := k; cached := cached s |} st, []) end
     else match walk (fun j st => resolve f call provs deps rq j st) deps (p_params p) [] (update i {| kw := k; cached := cached s |} st) [] with
          | Some (inl kwargs, st2, log) => match invoke call p (inject_request p k (r_id rq) kwargs) with
             | Some v => Some (Ret (yielded v), remember p i v st2, log ++ [i]) | None => Some (Raised, st2, log) end
          | Some (inr e, st2, log) => Some (e, st2, log) | None => None end) = Some (o, st', log) -> st' = st).
  { intros k ->. rewrite U. destruct (match p_args p, kw s with [], [] => p_class p | _, _ => true end).
    - destruct (invoke call p (kw s)); rewrite ?R; congruence.
    - destruct (walk _ deps (p_params p) [] st []) as [((x & st2) & lg)|] eqn:W; [|discriminate].
      apply walk_state in W; [|intros j st0 o0 st0' lg0; apply IH]. subst st2. destruct x as [kwargs|e]; [|congruence].
      destruct (invoke call p _); rewrite ?R; congruence. }
  destruct (match p_params p with [] => DNone | _ => r_data rq end) as [body| |] eqn:D; [apply G; exact K | congruence | apply G; reflexivity].
Qed.

Lemma history_state fuel call provs deps hs : (forall p, In p provs -> p_cache p = false) -> (forall rq i, In (rq, i) hs -> brings_nothing provs deps rq) ->
  forall st os st' log, history fuel call provs deps hs st = Some (os, st', log) -> st' = st.
Proof.
  intros NC. induction hs as [|(rq, i) hs IH]; intros B st os st' log; cbn [history]; [congruence|].
  destruct (resolve fuel call provs deps rq i st) as [((o & st1) & l1)|] eqn:E; [|discriminate].
  apply resolve_state in E; [|exact NC | eapply B; left; reflexivity]. subst st1.
  destruct (history fuel call provs deps hs st) as [((os' & st2) & l2)|] eqn:H; [|discriminate]. injection 1 as <- <- <-.
  eapply IH; [|exact H]. intros rq0 i0 X. eapply B. right. exact X.
Qed.

(** ** Termination and the cache *)
Definition isome {A} (o : option A) : nat := match o with Some _ => 1 | None => 0 end.
Definition cache_of (st : list pstate) (c : nat) : option value := match nth_error st c with Some s => cached s | None => None end.

(** What a resolution does to the cache of provider [c]. *)
Definition keeps (c : nat) (st st' : list pstate) (log : list nat) : Prop :=
  length st' = length st /\ times c log + isome (cache_of st c) = isome (cache_of st' c)
  /\ (forall v, cache_of st c = Some v -> cache_of st' c = Some v).

Lemma times_app c a b : times c (a ++ b) = times c a + times c b.
Proof. unfold times. apply count_occ_app. Qed.
Lemma keeps_refl c st : keeps c st st [].
Proof. split; [reflexivity|]. split; [reflexivity | auto]. Qed.
Lemma keeps_trans c s1 s2 s3 l1 l2 : keeps c s1 s2 l1 -> keeps c s2 s3 l2 -> keeps c s1 s3 (l1 ++ l2).
Proof. intros (A1 & A2 & A3) (B1 & B2 & B3). split; [congruence|]. rewrite times_app. split; [lia | auto]. Qed.
Lemma keeps_kw c i k st s : nth_error st i = Some s -> keeps c st (update i {| kw := k; cached := cached s |} st) [].
Proof.
  intros T. assert (E : cache_of (update i {| kw := k; cached := cached s |} st) c = cache_of st c).
  { unfold cache_of. rewrite nth_update. destruct (Nat.eqb_spec i c) as [<-|]; [|reflexivity]. rewrite T. reflexivity. }
  split; [apply update_length|]. rewrite E. split; [reflexivity | auto].
Qed.

Lemma walk_keeps c bound rank (res : nat -> list pstate -> option (outcome * list pstate * list nat)) deps l n :
  (forall j st o st' lg, (rank j < bound)%nat -> res j st = Some (o, st', lg) -> keeps c st st' lg /\ (forall x, In x lg -> (rank x < bound)%nat)) ->
  (forall a j, In a l -> dget (a_name a) deps = Some j -> (rank j < bound)%nat /\ (j < n)%nat) ->
  forall kwargs st0 st log x st' log', keeps c st0 st log -> (forall x, In x log -> (rank x < bound)%nat) ->
  walk res deps l kwargs st log = Some (x, st', log') -> keeps c st0 st' log' /\ (forall x, In x log' -> (rank x < bound)%nat).
Proof.
  intros H. induction l as [|a l IH]; intros L kwargs st0 st log x st' log' K0 B0; cbn [walk].
  - injection 1 as <- <- <-. split; assumption.
  - assert (L' : forall a0 j, In a0 l -> dget (a_name a0) deps = Some j -> (rank j < bound)%nat /\ (j < n)%nat) by (intros a0 j X; apply L; right; exact X).
    destruct (a_kind a); [|apply IH; assumption]. destruct (dget (a_name a) deps) as [j|] eqn:D; [|apply IH; assumption].
    destruct (res j st) as [((o & st1) & lg)|] eqn:E; [|discriminate]. destruct (L a j (or_introl eq_refl) D) as (Lj & _). destruct (H _ _ _ _ _ Lj E) as (K1 & B1).
    assert (K2 : keeps c st0 st1 (log ++ lg)) by (eapply keeps_trans; eassumption).
    assert (B2 : forall y, In y (log ++ lg) -> (rank y < bound)%nat) by (intros y Y; apply in_app_iff in Y; destruct Y; auto).
    destruct o; [apply IH; assumption | injection 1 as <- <- <-; split; assumption | injection 1 as <- <- <-; split; assumption].
Qed.

Lemma remember_keeps p c i v st : nth_error st i <> None -> (p_cache p = true \/ i <> c) -> (i = c -> cache_of st c = None) -> keeps c st (remember p i v st) [i].
Proof.
  intros T PC N. unfold remember. destruct (nth_error st i) as [s|] eqn:E; [|congruence]. unfold keeps, times. cbn [count_occ]. destruct (Nat.eq_dec i c) as [->|X].
  - destruct PC as [PC|PC]; [|congruence]. rewrite PC. split; [apply update_length|]. rewrite (N eq_refl).
    assert (X : cache_of (update c {| kw := kw s; cached := Some v |} st) c = Some v) by (unfold cache_of; rewrite nth_update, Nat.eqb_refl, E; reflexivity).
    rewrite X. split; [reflexivity | discriminate].
  - destruct (p_cache p); [|split; [reflexivity | split; [reflexivity | auto]]]. split; [apply update_length|]. unfold cache_of. rewrite nth_update. destruct (Nat.eqb_spec i c); [contradiction|].
    split; [reflexivity | auto].
Qed.

Lemma resolve_keeps call provs deps rank rq c pc : ranked provs deps rank -> nth_error provs c = Some pc -> p_cache pc = true ->
  forall fuel i st o st' log, resolve fuel call provs deps rq i st = Some (o, st', log) ->
  keeps c st st' log /\ (forall x, In x log -> (rank x < S (rank i))%nat) /\
  (i = c -> (forall k g, call (p_fn pc) (p_args pc) k <> Some (VGen g)) -> forall v, o = Ret v -> cache_of st' c = Some v).
Proof.
  intros RK PC CC. induction fuel as [|f IH]; intros i st o st' log; [discriminate|]. cbn [resolve].
  destruct (nth_error provs i) as [p|] eqn:P; [|discriminate]. destruct (nth_error st i) as [s|] eqn:T; [|discriminate].
  destruct (if p_cache p then cached s else None) as [v|] eqn:CV.
  { injection 1 as <- <- <-. split; [apply keeps_refl|]. split; [intros x []|]. intros -> _ w W. injection W as <-. rewrite PC in P. injection P as <-. rewrite CC in CV. unfold cache_of. rewrite T. exact CV. }
  assert (NC : i = c -> cache_of st c = None) by (intros ->; rewrite PC in P; injection P as <-; rewrite CC in CV; unfold cache_of; rewrite T; exact CV).
  assert (PCC : p_cache p = true \/ i <> c) by (destruct (Nat.eq_dec i c) as [->|X]; [left; rewrite PC in P; injection P as <-; exact CC | right; exact X]).
  assert (GEN : i = c -> p = pc) by (intros ->; congruence).
  assert (RV : forall v st0, nth_error st0 i <> None -> i = c -> cache_of (remember p i v st0) c = Some v).
  { intros v st0 X Y. unfold remember. destruct PCC as [->|Z]; [|contradiction]. destruct (nth_error st0 i) as [s0|] eqn:E; [|congruence].
    unfold cache_of. rewrite nth_update, <- Y, Nat.eqb_refl, E. reflexivity. }
  assert (G : forall k,
    (if match p_args p, k with [], [] => p_class p | _, _ => true end then
       match invoke call p k with Some v => Some (Ret v, remember p i v (update i {| kw := k; cached := cached s |} st), [i]) | None => Some (Raised, update i {| kw := k; cached := cached s |} st, []) end
     else match walk (fun j st => resolve f call provs deps rq j st) deps (p_params p) [] (update i {| kw := k; cached := cached s |} st) [] with
          | Some (inl kwargs, st2, log) => match invoke call p (inject_request p k (r_id rq) kwargs) with
             | Some v => Some (Ret (yielded v), remember p i v st2, log ++ [i]) | None => Some (Raised, st2, log) end
          | Some (inr e, st2, log) => Some (e, st2, log) | None => None end) = Some (o, st', log) ->
    keeps c st st' log /\ (forall x, In x log -> (rank x < S (rank i))%nat) /\ (i = c -> (forall k g, call (p_fn pc) (p_args pc) k <> Some (VGen g)) -> forall v, o = Ret v -> cache_of st' c = Some v)).
  { intros k. set (st1 := update i {| kw := k; cached := cached s |} st). pose proof (keeps_kw c i k st s T) as K1. fold st1 in K1.
    assert (T1 : nth_error st1 i <> None) by (unfold st1; rewrite nth_update, Nat.eqb_refl, T; discriminate).
    assert (N1 : i = c -> cache_of st1 c = None).
    { intros X. destruct K1 as (_ & K1 & _). rewrite (NC X) in K1. cbn in K1. destruct (cache_of st1 c); [discriminate K1 | reflexivity]. }
    destruct (match p_args p, k with [], [] => p_class p | _, _ => true end).
    - destruct (invoke call p k) as [v|] eqn:V.
      + injection 1 as <- <- <-. split; [|split].
        * apply (keeps_trans c _ _ _ [] [i] K1). apply remember_keeps; assumption.
        * intros x [<-|[]]. lia.
        * intros X _ w W. injection W as <-. apply RV; assumption.
      + injection 1 as <- <- <-. split; [exact K1|]. split; [intros x []|]. intros _ _ w W. discriminate W.
    - destruct (walk _ deps (p_params p) [] st1 []) as [((x & st2) & lg)|] eqn:W; [|discriminate].
      assert (WK : keeps c st st2 lg /\ forall x, In x lg -> (rank x < rank i)%nat).
      { eapply (walk_keeps c (rank i) rank); [| | exact K1 | intros y [] | exact W].
        - intros j st0 o0 st0' lg0 Lj R. apply IH in R. destruct R as (R1 & R2 & _). split; [exact R1|]. intros y Y. specialize (R2 y Y). lia.
        - intros a j A D. apply (RK i p a j P A D). }
      destruct WK as (K2 & B2). destruct x as [kwargs|e].
      + assert (T2 : nth_error st2 i <> None).
        { destruct K2 as (L2 & _). apply nth_error_Some. rewrite L2. apply nth_error_Some. congruence. }
        assert (N2 : i = c -> cache_of st2 c = None).
        { intros X. destruct K2 as (_ & K2 & _). rewrite (NC X) in K2. assert (Z : times c lg = 0).
          { unfold times. apply count_occ_not_In. intros Y. specialize (B2 c Y). rewrite X in B2. lia. }
          rewrite Z in K2. cbn in K2. destruct (cache_of st2 c); [discriminate K2 | reflexivity]. }
        destruct (invoke call p _) as [v|] eqn:V.
        * injection 1 as <- <- <-. split; [|split].
          -- eapply keeps_trans; [exact K2|]. apply remember_keeps; assumption.
          -- intros y Y. apply in_app_iff in Y. destruct Y as [Y|[<-|[]]]; [specialize (B2 y Y); lia | lia].
          -- intros X GF w E. injection E as <-. rewrite RV by assumption. f_equal. unfold invoke in V. specialize (GEN X). subst p.
             destruct v; try reflexivity. exfalso. eapply GF. exact V.
        * injection 1 as <- <- <-. split; [exact K2|]. split; [intros y Y; specialize (B2 y Y); lia|]. intros _ _ w E. discriminate E.
      + injection 1 as <- <- <-. split; [exact K2|]. split; [intros y Y; specialize (B2 y Y); lia|].
        intros X _ w E. subst e. exfalso. revert W. clear. generalize (@nil (str * value)) (@nil nat) st1. induction (p_params p) as [|a l IH]; intros kwargs lg0 st0; cbn [walk]; [discriminate|].
        destruct (a_kind a); [|apply IH]. destruct (dget (a_name a) deps); [|apply IH]. destruct (resolve f call provs deps rq n st0) as [((o & s') & l')|]; [|discriminate].
        destruct o; [apply IH | discriminate | discriminate]. }
  destruct (match p_params p with [] => DNone | _ => r_data rq end) as [body| |]; [apply G | | apply G].
  injection 1 as <- <- <-. split; [apply keeps_refl|]. split; [intros x []|]. intros _ _ w W. discriminate W.
Qed.

Lemma remember_length p i v st : length (remember p i v st) = length st.
Proof. unfold remember. destruct (p_cache p); [|reflexivity]. destruct (nth_error st i); [apply update_length | reflexivity]. Qed.

Lemma walk_total (res : nat -> list pstate -> option (outcome * list pstate * list nat)) deps l n :
  (forall a j, In a l -> dget (a_name a) deps = Some j -> forall st, length st = n -> exists o st' lg, res j st = Some (o, st', lg) /\ length st' = n) ->
  forall kwargs st log, length st = n -> exists x st' log', walk res deps l kwargs st log = Some (x, st', log') /\ length st' = n.
Proof.
  induction l as [|a l IH]; intros H kwargs st log L; cbn [walk]; [eexists; eexists; eexists; split; [reflexivity | exact L]|].
  assert (H' : forall a0 j, In a0 l -> dget (a_name a0) deps = Some j -> forall st, length st = n -> exists o st' lg, res j st = Some (o, st', lg) /\ length st' = n) by (intros a0 j X; apply H; right; exact X).
  destruct (a_kind a); [|apply IH; assumption]. destruct (dget (a_name a) deps) as [j|] eqn:D; [|apply IH; assumption].
  destruct (H a j (or_introl eq_refl) D st L) as (o & st1 & lg & -> & L1). destruct o; [apply IH; assumption | |]; eexists; eexists; eexists; (split; [reflexivity | exact L1]).
Qed.

Lemma resolve_total call provs deps rank rq : ranked provs deps rank ->
  forall fuel i st, (rank i < fuel)%nat -> (i < length provs)%nat -> length st = length provs ->
  exists o st' log, resolve fuel call provs deps rq i st = Some (o, st', log) /\ length st' = length provs.
Proof.
  intros RK. induction fuel as [|f IH]; intros i st F I L; [lia|]. cbn [resolve].
  destruct (nth_error provs i) as [p|] eqn:P; [|apply nth_error_None in P; lia]. destruct (nth_error st i) as [s|] eqn:T; [|apply nth_error_None in T; lia].
  destruct (if p_cache p then cached s else None) as [v|]; [eexists; eexists; eexists; split; [reflexivity | exact L]|].
  assert (G : forall k, exists o st' log,
    (if match p_args p, k with [], [] => p_class p | _, _ => true end then
       match invoke call p k with Some v => Some (Ret v, remember p i v (update i {| kw := k; cached := cached s |} st), [i]) | None => Some (Raised, update i {| kw := k; cached := cached s |} st, []) end
     else match walk (fun j st => resolve f call provs deps rq j st) deps (p_params p) [] (update i {| kw := k; cached := cached s |} st) [] with
          | Some (inl kwargs, st2, log) => match invoke call p (inject_request p k (r_id rq) kwargs) with
             | Some v => Some (Ret (yielded v), remember p i v st2, log ++ [i]) | None => Some (Raised, st2, log) end
          | Some (inr e, st2, log) => Some (e, st2, log) | None => None end) = Some (o, st', log) /\ length st' = length provs).
  { intros k. set (st1 := update i {| kw := k; cached := cached s |} st). assert (L1 : length st1 = length provs) by (unfold st1; rewrite update_length; exact L).
    destruct (match p_args p, k with [], [] => p_class p | _, _ => true end).
    - destruct (invoke call p k); eexists; eexists; eexists; (split; [reflexivity|]); [rewrite remember_length; exact L1 | exact L1].
    - destruct (walk_total (fun j st => resolve f call provs deps rq j st) deps (p_params p) (length provs)) with (kwargs := @nil (str * value)) (st := st1) (log := @nil nat) as (x & st2 & lg & W & L2).
      + intros a j A D st0 L0. destruct (RK i p a j P A D). apply IH; [lia | assumption | exact L0].
      + exact L1.
      + rewrite W. destruct x; [|eexists; eexists; eexists; split; [reflexivity | exact L2]].
        destruct (invoke call p _); eexists; eexists; eexists; (split; [reflexivity|]); [rewrite remember_length; exact L2 | exact L2]. }
  destruct (match p_params p with [] => DNone | _ => r_data rq end) as [body| |]; [apply G | | apply G]. eexists; eexists; eexists; split; [reflexivity | exact L].
Qed.

Lemma start_length provs : length (start provs) = length provs.
Proof. apply map_length. Qed.
Lemma start_cache provs c : cache_of (start provs) c = None.
Proof. unfold cache_of, start. rewrite nth_error_map. destruct (nth_error provs c); reflexivity. Qed.

Lemma history_keeps call provs deps rank c pc fuel : ranked provs deps rank -> nth_error provs c = Some pc -> p_cache pc = true ->
  forall hs st os st' log, history fuel call provs deps hs st = Some (os, st', log) -> keeps c st st' log.
Proof.
  intros RK PC CC. induction hs as [|(rq, i) hs IH]; intros st os st' log; cbn [history].
  - injection 1 as <- <- <-. apply keeps_refl.
  - destruct (resolve fuel call provs deps rq i st) as [((o & st1) & l1)|] eqn:E; [|discriminate].
    destruct (history fuel call provs deps hs st1) as [((os' & st2) & l2)|] eqn:H; [|discriminate]. injection 1 as <- <- <-.
    eapply keeps_trans; [|eapply IH; exact H]. eapply resolve_keeps in E; [|eassumption|eassumption|eassumption]. apply E.
Qed.

(** Once stored, the value is returned. *)
Lemma resolve_hit fuel call provs deps rq c pc v st o st' log : nth_error provs c = Some pc -> p_cache pc = true -> cache_of st c = Some v ->
  resolve fuel call provs deps rq c st = Some (o, st', log) -> o = Ret v.
Proof.
  intros PC CC V. destruct fuel as [|f]; [discriminate|]. cbn [resolve]. rewrite PC. unfold cache_of in V. destruct (nth_error st c) as [s|]; [|discriminate]. rewrite CC, V. congruence.
Qed.

Lemma history_first call provs deps rank c pc fuel : ranked provs deps rank -> nth_error provs c = Some pc -> p_cache pc = true ->
  (forall k g, call (p_fn pc) (p_args pc) k <> Some (VGen g)) ->
  forall hs st os st' log, history fuel call provs deps hs st = Some (os, st', log) ->
  (forall v0, cache_of st c = Some v0 -> forall n rq o, nth_error hs n = Some (rq, c) -> nth_error os n = Some o -> o = Ret v0) /\
  (forall a b ra rb va vb, nth_error hs a = Some (ra, c) -> nth_error hs b = Some (rb, c) -> nth_error os a = Some (Ret va) -> nth_error os b = Some (Ret vb) -> va = vb).
Proof.
  intros RK PC CC NG. induction hs as [|(rq, i) hs IH]; intros st os st' log; cbn [history].
  - injection 1 as <- <- <-. split; [intros v0 _ [|n]; discriminate | intros [|a]; discriminate].
  - destruct (resolve fuel call provs deps rq i st) as [((o & st1) & l1)|] eqn:E; [|discriminate].
    destruct (history fuel call provs deps hs st1) as [((os' & st2) & l2)|] eqn:H; [|discriminate]. injection 1 as <- <- <-.
    destruct (IH _ _ _ _ H) as (I1 & I2). pose proof E as E'. eapply resolve_keeps in E'; [|eassumption|eassumption|eassumption]. destruct E' as ((_ & _ & KV) & _ & RV). split.
    + intros v0 V [|n] rq0 o0 A B.
      * injection A as <- ->. injection B as <-. eapply resolve_hit; eassumption.
      * eapply I1; [apply KV; exact V | exact A | exact B].
    + intros [|a] [|b] ra rb va vb A B C D; cbn [nth_error] in *.
      * congruence.
      * injection A as <- ->. injection C as ->. specialize (RV eq_refl NG va eq_refl). specialize (I1 va RV b rb _ B D). congruence.
      * injection B as <- ->. injection D as ->. specialize (RV eq_refl NG vb eq_refl). specialize (I1 vb RV a ra _ A C). congruence.
      * exact (I2 a b ra rb va vb A B C D).
Qed.

(** ** Arguments by name *)
Lemma walk_args (res : nat -> list pstate -> option (outcome * list pstate * list nat)) deps l :
  NoDup (map a_name l) -> forall kwargs st log kwargs' st' log', walk res deps l kwargs st log = Some (inl kwargs', st', log') ->
  (forall n, ~ In n (map a_name l) -> dget n kwargs' = dget n kwargs) /\
  (forall n, dget n deps = None -> dget n kwargs' = dget n kwargs) /\
  (forall a j, In a l -> a_kind a = Plain -> dget (a_name a) deps = Some j -> exists v s1 s2 lg, res j s1 = Some (Ret v, s2, lg) /\ dget (a_name a) kwargs' = Some v).
Proof.
  induction l as [|a l IH]; intros ND kwargs st log kwargs' st' log'; cbn [walk].
  - injection 1 as <- <- <-. split; [reflexivity|]. split; [reflexivity | intros a j []].
  - inversion ND as [|? ? N1 N2]; subst.
    assert (SKIP : (a_kind a = Var \/ dget (a_name a) deps = None) -> walk res deps l kwargs st log = Some (inl kwargs', st', log') ->
      (forall n, ~ In n (map a_name (a :: l)) -> dget n kwargs' = dget n kwargs) /\ (forall n, dget n deps = None -> dget n kwargs' = dget n kwargs) /\
      (forall a0 j, In a0 (a :: l) -> a_kind a0 = Plain -> dget (a_name a0) deps = Some j -> exists v s1 s2 lg, res j s1 = Some (Ret v, s2, lg) /\ dget (a_name a0) kwargs' = Some v)).
    { intros SK W. destruct (IH N2 _ _ _ _ _ _ W) as (A & B & C). split; [intros n X; apply A; intros Y; apply X; right; exact Y|]. split; [exact B|].
      intros a0 j [<-|X] K D; [destruct SK; congruence | eapply C; eassumption]. }
    destruct (a_kind a) eqn:K; [|apply SKIP; left; reflexivity]. destruct (dget (a_name a) deps) as [j|] eqn:D; [|apply SKIP; right; reflexivity]. clear SKIP.
    destruct (res j st) as [((o & st1) & lg)|] eqn:E; [|discriminate]. destruct o as [v| |]; [|discriminate|discriminate]. intros W.
    destruct (IH N2 _ _ _ _ _ _ W) as (A & B & C). split; [|split].
    + intros n X. rewrite A by (intros Y; apply X; right; exact Y). apply dget_dset_other. intros ->. apply X. left. reflexivity.
    + intros n X. rewrite (B n X). apply dget_dset_other. intros ->. congruence.
    + intros a0 j0 [<-|X] K0 D0; [|eapply C; eassumption]. rewrite D in D0. injection D0 as <-. exists v, st, st1, lg. split; [exact E|].
      rewrite (A _ N1). apply dget_dset_same.
Qed.

(** ** Constants *)
Lemma py_eq_trans a b c : py_eq a b = true -> py_eq b c = true -> py_eq a c = true.
Proof.
  unfold py_eq. destruct (num a) eqn:A, (num b) eqn:B; try discriminate; destruct (num c) eqn:C; try discriminate.
  - rewrite !Z.eqb_eq. congruence.
  - destruct a, b; try discriminate; destruct c; try discriminate; try reflexivity. intros X Y. apply seqb_eq in X. apply seqb_eq in Y. apply seqb_eq. congruence.
Qed.
Lemma py_eq_refl c : (forall l, c <> KList l) -> py_eq c c = true.
Proof. intros H. destruct c as [|b|z|s|l]; cbn; [reflexivity | apply Z.eqb_refl | apply Z.eqb_refl | apply seqb_eq; reflexivity | exfalso; apply (H l); reflexivity]. Qed.

Lemma take_out_spec c cache e r : take_out c cache = Some (e, r) -> py_eq c (fst e) = true /\ In e cache /\ forall x, In x r -> In x cache.
Proof.
  revert r. induction cache as [|y cache IH]; intros r; cbn [take_out]; [discriminate|]. destruct (py_eq c (fst y)) eqn:E.
  - injection 1 as <- <-. split; [exact E|]. split; [left; reflexivity | intros x X; right; exact X].
  - destruct (take_out c cache) as [(e' & r')|]; [|discriminate]. injection 1 as <- <-. destruct (IH _ eq_refl) as (A & B & C). split; [exact A|]. split; [right; exact B|].
    intros x [<-|X]; [left; reflexivity | right; apply C; exact X].
Qed.

Lemma firstn_In {A} n (l : list A) x : In x (firstn n l) -> In x l.
Proof. intros X. rewrite <- (firstn_skipn n l). apply in_or_app. left. exact X. Qed.
Opaque maxsize.
Lemma wrap_inv c cache v cache' : (forall e, In e cache -> py_eq (fst e) (snd e) = true) -> wrap_constant c cache = Some (v, cache') ->
  py_eq c v = true /\ (forall e, In e cache' -> py_eq (fst e) (snd e) = true).
Proof.
  intros I. unfold wrap_constant. destruct c as [|b|z|s|l] eqn:EC; [| | | |discriminate]; rewrite <- EC in *;
  (destruct (take_out c cache) as [(e & r)|] eqn:T;
   [ injection 1 as <- <-; destruct (take_out_spec _ _ _ _ T) as (A & B & C); split; [eapply py_eq_trans; [exact A | apply I; exact B]|]; intros x [<-|X]; [apply I; exact B | apply I, C; exact X]
   | injection 1 as <- <-; assert (R : py_eq c c = true) by (apply py_eq_refl; intros l; rewrite EC; discriminate); split; [exact R|]; intros x X;
     apply firstn_In in X; destruct X as [<-|X]; [exact R | apply I; exact X]]).
Qed.

Fixpoint wrap_all (cs : list const) (cache : list (const * const)) : option (list const) :=
  match cs with
  | [] => Some []
  | c :: r => match wrap_constant c cache with
              | Some (v, cache') => option_map (cons v) (wrap_all r cache')
              | None => None
              end
  end.
Lemma wrap_all_eq cs : forall cache vs, (forall e, In e cache -> py_eq (fst e) (snd e) = true) -> wrap_all cs cache = Some vs -> Forall2 (fun c v => py_eq c v = true) cs vs.
Proof.
  induction cs as [|c cs IH]; intros cache vs I; cbn [wrap_all]; [injection 1 as <-; constructor|].
  destruct (wrap_constant c cache) as [(v & cache')|] eqn:W; [|discriminate]. destruct (wrap_inv _ _ _ _ I W) as (A & B).
  destruct (wrap_all cs cache') as [vs'|] eqn:R; [|discriminate]. injection 1 as <-. constructor; [exact A | eapply IH; eassumption].
Qed.
Lemma py_eq_exact c v : num c = None -> py_eq c v = true -> v = c.
Proof.
  unfold py_eq. intros ->. destruct (num v); [discriminate|]. destruct c, v; try discriminate; [reflexivity|]. intros H. apply seqb_eq in H. congruence.
Qed.
