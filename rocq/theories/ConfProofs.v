(** Proofs about the settings system. *)
From Coq Require Import List NArith ZArith Bool Lia.
From Verif Require Import PyStr PyStrFacts EnvProofs ConfModel ConfSpec.
Import ListNotations.

Lemma some_inj {A} (x y : A) : Some x = Some y -> x = y.
Proof. congruence. Qed.

(** ** Attributes *)
Lemma set_get i k v i' : setattr i k v = Good i' ->
  kind i' = kind i /\ getattr i' k = v /\ dget k (props (kind i)) = None /\
  forall k', k' <> k -> getattr i' k' = getattr i k'.
Proof.
  unfold setattr, dmem, getattr. intros H. destruct (dget k (props (kind i))) eqn:E; [discriminate H|].
  injection H as <-. cbn [kind own]. rewrite E, dget_dset_same.
  refine (conj eq_refl (conj eq_refl (conj eq_refl _))). intros k' N. rewrite dget_dset_other by exact N. reflexivity.
Qed.

Lemma set_ok i k v : dget k (props (kind i)) = None -> exists i', setattr i k v = Good i'.
Proof. intros E. unfold setattr, dmem. rewrite E. eexists. reflexivity. Qed.

Lemma setattrs_get kw : forall i i', setattrs i kw = Good i' ->
  kind i' = kind i /\
  forall k, getattr i' k = match dget k (rev kw) with Some v => v | None => getattr i k end.
Proof.
  induction kw as [|(k, v) kw IH] using rev_ind; intros i i' H.
  - injection H as <-. split; reflexivity.
  - assert (A : exists i1, setattrs i kw = Good i1 /\ setattr i1 k v = Good i').
    { clear IH. revert i H. induction kw as [|(k0, v0) kw IH]; intros i H.
      - cbn in H. destruct (setattr i k v) as [i1|] eqn:E; [|discriminate H]. injection H as <-. exists i. split; [reflexivity|exact E].
      - cbn [app setattrs] in *. destruct (setattr i k0 v0); [|discriminate H]. apply IH. exact H. }
    destruct A as (i1 & A & B). destruct (IH _ _ A) as (K & G). destruct (set_get _ _ _ _ B) as (K' & G1 & _ & G2).
    split; [congruence|]. intros k'. rewrite rev_app_distr. cbn [rev app dget].
    destruct (seqb_spec k' k) as [->|N]; [exact G1|]. rewrite G2 by exact N. apply G.
Qed.

Lemma setattrs_ok kw : forall i, (exists i', setattrs i kw = Good i') <->
  forall k, In k (dkeys kw) -> dget k (props (kind i)) = None.
Proof.
  induction kw as [|(k, v) kw IH]; intros i; cbn [setattrs dkeys map fst].
  - split; [intros _ k []|intros _; eexists; reflexivity].
  - split.
    + intros (i' & H). destruct (setattr i k v) as [i1|] eqn:E; [|discriminate H].
      destruct (set_get _ _ _ _ E) as (K & _ & P & _).
      intros k' [<-|I]; [exact P|]. rewrite <- K. refine (proj1 (IH i1) _ k' I). exists i'. exact H.
    + intros H. destruct (set_ok i k v (H k (or_introl eq_refl))) as (i1 & E). rewrite E.
      apply IH. intros k' I. rewrite (proj1 (set_get _ _ _ _ E)). apply H. right. exact I.
Qed.

Section W.
  Variable construct : nat -> str -> option value.
  Variable env : dict str.
  Notation cast := (cast construct).
  Notation cast1 := (cast1 construct).
  Notation load := (load construct env).
  Notation make := (make construct env).
  Notation means := (means construct).
  Notation initial := (initial construct env).
  Notation run := (run construct env).
  Notation enter := (enter construct env).

  (** ** Casting *)
  Lemma cast1_means t s v : (forall ts, t <> TUnion ts) -> cast1 s t = Some v <-> means t s v.
  Proof.
    intros U. destruct t; cbn [ConfModel.cast1].
    - split.
      + intros H. apply some_inj in H. subst v. destruct (smem (lower s) truths) eqn:E.
        * apply m_true. apply smem_In. exact E.
        * apply m_false. apply smem_not_In. exact E.
      + intros H. inversion H as [s' I|s' I| | | | | ]; subst; apply f_equal, f_equal.
        * apply smem_In. exact I.
        * apply smem_not_In. exact I.
    - split.
      + destruct (int_parse s) eqn:E; [|discriminate]. intros H. injection H as <-. apply m_int. exact E.
      + intros H. inversion H; subst. match goal with E : int_parse s = _ |- _ => rewrite E end. reflexivity.
    - split; [intros H; injection H as <-; constructor|intros H; inversion H; reflexivity].
    - split; [intros H; injection H as <-; constructor|intros H; inversion H; reflexivity].
    - split; [discriminate|intros H; inversion H].
    - destruct (U ts eq_refl).
    - split; [apply m_class|intros H; inversion H; assumption].
  Qed.

  Lemma members_one ts t : members ts = [t] -> exists a b, ts = a ++ t :: b /\ t <> TNoneType /\
    forall t', In t' (a ++ b) -> t' = TNoneType.
  Proof.
    assert (Z : forall l, members l = [] -> forall t', In t' l -> t' = TNoneType).
    { induction l as [|x l IH]; intros H t' I; [destruct I|]. cbn in H. destruct x; try discriminate H.
      destruct I as [<-|I]; [reflexivity|]. apply IH; assumption. }
    induction ts as [|x ts IH]; intros H; [discriminate H|]. cbn [members filter] in H.
    destruct x; try (injection H as <- H; exists [], ts; refine (conj eq_refl (conj _ _)); [discriminate|apply Z; exact H]).
    destruct (IH H) as (a & b & -> & N & A). exists (TNoneType :: a), b. refine (conj eq_refl (conj N _)).
    intros t' [<-|I]; [reflexivity|]. apply A. exact I.
  Qed.

  Lemma members_of a b t : (forall t', In t' (a ++ b) -> t' = TNoneType) -> t <> TNoneType ->
    members (a ++ t :: b) = [t].
  Proof.
    intros H N. assert (Z : forall l, (forall t', In t' l -> t' = TNoneType) -> members l = []).
    { induction l as [|x l IH]; intros A; [reflexivity|]. cbn. rewrite (A x (or_introl eq_refl)). apply IH.
      intros t' I. apply A. right. exact I. }
    unfold members. rewrite filter_app. fold (members a). rewrite Z by (intros; apply H, in_or_app; auto).
    cbn [app filter]. destruct t; try (fold (members b); rewrite Z by (intros; apply H, in_or_app; auto); reflexivity).
    destruct (N eq_refl).
  Qed.

  Lemma cast_means t s v : cast s t = Good v <-> means t s v.
  Proof.
    destruct t; unfold ConfModel.cast;
      try (rewrite <- cast1_means by discriminate;
           match goal with |- context [cast1 ?s ?t] => destruct (cast1 s t) end;
           split; intros H; [injection H as <-; reflexivity|injection H as <-; reflexivity|discriminate H|discriminate H]).
    split.
    - intros H. destruct (members ts) as [|t [|? ?]] eqn:E; try discriminate H.
      destruct (cast1 s t) as [v'|] eqn:C; [|discriminate H]. injection H as <-.
      destruct (members_one _ _ E) as (a & b & -> & N & A). apply m_optional; [exact A|exact N| |].
      + intros ts ->. discriminate C.
      + apply cast1_means; [|exact C]. intros ts ->. discriminate C.
    - intros H. inversion H as [| | | | | |a b t s' v' A N U M]; subst. rewrite (members_of _ _ _ A N).
      apply cast1_means in M; [|exact U]. rewrite M. reflexivity.
  Qed.

  Lemma means_unique t s v v' : means t s v -> means t s v' -> v = v'.
  Proof. intros A B. apply cast_means in A, B. congruence. Qed.

  (** ** Construction *)
  Definition fits (i : inst) (kt : str * ty) : Prop :=
    dget (fst kt) (props (kind i)) = None /\
    forall s, dget (upper (fst kt)) env = Some s -> exists v, means (snd kt) s v.

  Lemma load_ok hs : forall i, (exists i', load hs i = Good i') <-> Forall (fits i) hs.
  Proof.
    induction hs as [|(k, t) hs IH]; intros i; cbn [ConfModel.load]; [split; [constructor|intros _; eexists; reflexivity]|].
    assert (K : forall i1, kind i1 = kind i -> Forall (fits i1) hs <-> Forall (fits i) hs).
    { intros i1 E. unfold fits. rewrite E. reflexivity. }
    split.
    - intros (i' & H). destruct (dget (upper k) env) as [s|] eqn:E.
      + destruct (cast s t) as [v|] eqn:C; [|discriminate H]. destruct (setattr i k v) as [i1|] eqn:S1; [|discriminate H].
        destruct (set_get _ _ _ _ S1) as (K1 & _ & P & _). apply Forall_cons.
        * split; [exact P|]. cbn [fst snd]. intros s' E'. rewrite E in E'. injection E' as <-. exists v. apply cast_means. exact C.
        * apply (K i1 K1). apply IH. exists i'. exact H.
      + destruct (setattr i k (getattr i k)) as [i1|] eqn:S1; [|discriminate H].
        destruct (set_get _ _ _ _ S1) as (K1 & _ & P & _). apply Forall_cons.
        * split; [exact P|]. cbn [fst snd]. intros s' E'. congruence.
        * apply (K i1 K1). apply IH. exists i'. exact H.
    - intros H. pose proof (Forall_inv H) as (P & Q). apply Forall_inv_tail in H. cbn [fst snd] in P, Q.
      assert (A : exists v, match dget (upper k) env with Some s => cast s t | None => Good (getattr i k) end = Good v).
      { destruct (dget (upper k) env) as [s|]; [|eexists; reflexivity]. destruct (Q s eq_refl) as (v & M). exists v. apply cast_means. exact M. }
      destruct A as (v & ->). destruct (set_ok i k v P) as (i1 & S1). rewrite S1. apply IH.
      apply (K i1 (proj1 (set_get _ _ _ _ S1))). exact H.
  Qed.

  Lemma load_get hs : forall i i', NoDup (map fst hs) -> load hs i = Good i' ->
    kind i' = kind i /\
    (forall k, ~ In k (map fst hs) -> getattr i' k = getattr i k) /\
    forall k t, In (k, t) hs ->
      match dget (upper k) env with Some s => means t s (getattr i' k) | None => getattr i' k = getattr i k end.
  Proof.
    induction hs as [|(k, t) hs IH]; intros i i' ND H; cbn [ConfModel.load] in H.
    - injection H as <-. refine (conj eq_refl (conj (fun _ _ => eq_refl) _)). intros k t [].
    - cbn [map fst] in ND. apply NoDup_cons_iff in ND as (NI & ND).
      destruct (match dget (upper k) env with Some s => cast s t | None => Good (getattr i k) end) as [v|] eqn:E; [|discriminate H].
      destruct (setattr i k v) as [i1|] eqn:S1; [|discriminate H].
      destruct (set_get _ _ _ _ S1) as (K1 & G1 & _ & G2). destruct (IH _ _ ND H) as (K2 & O & A).
      refine (conj _ (conj _ _)); [congruence| |].
      + intros k' N. cbn [map fst In] in N. rewrite O by tauto. apply G2. intros ->. apply N. left. reflexivity.
      + intros k' t' [X|I].
        * injection X as <- <-. rewrite (O k NI), G1. destruct (dget (upper k) env) as [s|]; [apply cast_means; exact E|congruence].
        * specialize (A k' t' I). assert (N : k' <> k) by (intros ->; apply NI; apply in_map with (f := fst) in I; exact I).
          destruct (dget (upper k') env); [exact A|]. rewrite A. apply G2. exact N.
  Qed.

  Lemma make_initial c kw i : NoDup (map fst (hints c)) -> NoDup (dkeys kw) -> make c kw = Good i ->
    kind i = c /\
    (forall k t, In (k, t) (hints c) -> initial c kw k t (getattr i k)) /\
    forall k v, ~ In k (map fst (hints c)) -> dget k kw = Some v -> getattr i k = v.
  Proof.
    intros NH NK H. unfold ConfModel.make in H.
    destruct (setattrs {| kind := c; own := [] |} kw) as [i1|] eqn:S1; [|discriminate H].
    pose proof (proj1 (load_ok (hints c) i1) (ex_intro _ i H)) as OK. rewrite Forall_forall in OK.
    destruct (setattrs_get _ _ _ S1) as (K1 & G1). cbn [kind] in K1. destruct (load_get _ _ _ NH H) as (K2 & O & A).
    assert (R : forall k, dget k (rev kw) = dget k kw) by (intros k; rewrite <- last_rev; apply last_nodup; exact NK).
    refine (conj _ (conj _ _)); [congruence| |].
    - intros k t I. specialize (A k t I). destruct (OK _ I) as (P & _). cbn [fst] in P. rewrite K1 in P.
      specialize (G1 k). rewrite R in G1. unfold getattr at 2 in G1. cbn [kind own dget] in G1. rewrite P in G1.
      destruct (dget (upper k) env) as [s|] eqn:E; [exact (i_env _ _ _ _ _ _ _ _ E A)|]. rewrite A, G1.
      destruct (dget k kw) as [v|] eqn:E1; [apply i_kw; assumption|].
      destruct (dget k (defaults c)) as [v|] eqn:E2; [apply i_default; assumption|apply i_none; assumption].
    - intros k v NI E. rewrite O by exact NI. rewrite G1, R, E. reflexivity.
  Qed.

  Lemma make_ok c kw : (exists i, make c kw = Good i) <->
    (forall k, In k (dkeys kw) \/ In k (map fst (hints c)) -> dget k (props c) = None) /\
    (forall k t s, In (k, t) (hints c) -> dget (upper k) env = Some s -> exists v, means t s v).
  Proof.
    unfold ConfModel.make. split.
    - intros (i & H). destruct (setattrs {| kind := c; own := [] |} kw) as [i1|] eqn:S1; [|discriminate H].
      destruct (setattrs_get _ _ _ S1) as (K1 & _). cbn [kind] in K1.
      pose proof (proj1 (setattrs_ok kw _) (ex_intro _ i1 S1)) as A. cbn [kind] in A.
      pose proof (proj1 (load_ok (hints c) i1) (ex_intro _ i H)) as OK. rewrite Forall_forall in OK. unfold fits in OK. rewrite K1 in OK.
      split.
      + intros k [I|I]; [apply A; exact I|]. apply in_map_iff in I as ((k' & t) & <- & I). exact (proj1 (OK _ I)).
      + intros k t s I E. exact (proj2 (OK _ I) s E).
    - intros (A & B). destruct (proj2 (setattrs_ok kw {| kind := c; own := [] |})) as (i1 & S1).
      + intros k I. apply A. left. exact I.
      + rewrite S1. destruct (setattrs_get _ _ _ S1) as (K1 & _). cbn [kind] in K1. apply load_ok, Forall_forall.
        intros (k, t) I. unfold fits. rewrite K1. cbn [fst snd]. split.
        * apply A. right. apply in_map with (f := fst) in I. exact I.
        * intros s E. exact (B k t s I E).
  Qed.

  (** ** Dumps *)
  Lemma dump_fold i up xn ks : forall d k v,
    (up = true -> forall a b, In a ks -> In b ks -> upper a = upper b -> a = b) ->
    (forall k', In k' ks -> dget (if up then upper k' else k') d = None) ->
    dget k (fold_left (dump_one i xn up) ks d) = Some v <->
    dget k d = Some v \/
    exists k', In k' ks /\ k = (if up then upper k' else k') /\ v = getattr i k' /\ (xn = true -> v <> VNone).
  Proof.
    induction ks as [|x ks IH] using rev_ind; intros d k v U F.
    - cbn. split; [auto|intros [H|(? & [] & _)]; exact H].
    - rewrite fold_left_app. cbn [fold_left].
      assert (U' : up = true -> forall a b, In a ks -> In b ks -> upper a = upper b -> a = b).
      { intros E a b A B. apply U; [exact E| |]; apply in_or_app; auto. }
      assert (F' : forall k', In k' ks -> dget (if up then upper k' else k') d = None).
      { intros k' I. apply F, in_or_app. auto. }
      specialize (IH d k). set (D := fold_left (dump_one i xn up) ks d) in *.
      unfold dump_one. cbv zeta.
      destruct (xn && is_none (getattr i x)) eqn:X.
      + rewrite (IH v U' F'). split; (intros [H|(k' & I & R)]; [left; exact H|right; exists k'; split; [|exact R]]).
        * apply in_or_app. auto.
        * apply in_app_or in I as [I|[<-|[]]]; [exact I|]. exfalso. destruct R as (_ & -> & R). apply andb_true_iff in X as (-> & X).
          apply (R eq_refl). destruct (getattr i x); try discriminate X. reflexivity.
      + set (kx := if up then upper x else x). destruct (seqb_spec k kx) as [->|N].
        * rewrite dget_dset_same. split.
          -- intros H. injection H as <-. right. exists x. refine (conj _ (conj eq_refl (conj eq_refl _))); [apply in_or_app; right; left; reflexivity|].
             intros -> E. rewrite E in X. discriminate X.
          -- intros [H|(k' & I & E & -> & _)].
             ++ exfalso. assert (FX : dget kx d = None) by (apply F, in_or_app; right; left; reflexivity). congruence.
             ++ f_equal. f_equal. unfold kx in E. destruct up; [|exact E]. apply (U eq_refl); [|exact I|exact E].
                apply in_or_app. right. left. reflexivity.
        * rewrite dget_dset_other by exact N. rewrite (IH v U' F'). split; (intros [H|(k' & I & R)]; [left; exact H|right; exists k'; split; [|exact R]]).
          -- apply in_or_app. auto.
          -- apply in_app_or in I as [I|[<-|[]]]; [exact I|]. exfalso. apply N. exact (proj1 R).
  Qed.

  Lemma dump_plain i k : dget k (dump i false false [] false) =
    (if smem k (map fst (hints (kind i))) then Some (getattr i k) else None).
  Proof.
    unfold dump. cbv zeta. set (ks := map fst (hints (kind i))).
    assert (FL : filter (fun k => negb (smem k [])) ks = ks).
    { clear. induction ks as [|x ks IH]; [reflexivity|]. cbn in *. rewrite IH. reflexivity. }
    rewrite FL. pose proof (fun v => dump_fold i false false ks [] k v) as F.
    destruct (smem k ks) eqn:E.
    - apply smem_In in E. apply F; [discriminate|reflexivity|]. right. exists k. refine (conj E (conj eq_refl (conj eq_refl _))). discriminate.
    - destruct (dget k _) as [v|] eqn:G; [|reflexivity]. exfalso. specialize (F v). assert (F1 := proj1 (F ltac:(discriminate) (fun _ _ => eq_refl)) eq_refl). clear G. rename F1 into G.
      destruct G as [G|(k' & I & -> & _)]; [discriminate G|]. apply smem_not_In in E. exact (E I).
  Qed.

  Lemma dump_nodup i : NoDup (dkeys (dump i false false [] false)).
  Proof.
    unfold dump. cbv zeta. set (ks := filter _ _). clearbody ks.
    induction ks as [|x ks IH] using rev_ind; [constructor|]. rewrite fold_left_app. cbn [fold_left]. unfold dump_one at 1. cbv zeta.
    rewrite andb_false_l. apply PathNestProofs.NoDup_dset. exact IH.
  Qed.

  (** ** Overriding *)
  Lemma enter_inv o opts w w' : enter o opts w = Good w' ->
    exists i', make (kind (obj w (current w))) (dupdate (dump (obj w (current w)) false false [] false) opts) = Good i' /\
      heap w' = heap w ++ [i'] /\ base w' = base w /\ cur w' = Some (length (heap w)) /\
      managers w' = managers w ++ [{| before := cur w; left_ := false |}] /\
      slot w' o = Some (length (managers w)) /\ (forall o', o' <> o -> slot w' o' = slot w o') /\ reads w' = reads w.
  Proof.
    unfold ConfModel.enter. cbv zeta. destruct (make _ _) as [i'|] eqn:E; [|discriminate]. intros H. injection H as <-.
    exists i'. cbn [heap base cur managers slot reads]. rewrite Nat.eqb_refl. repeat (split; [reflexivity|]). split; [|reflexivity].
    intros o' N. apply Nat.eqb_neq in N. rewrite N. reflexivity.
  Qed.

  Lemma entered o opts w w' k t : NoDup (map fst (hints (kind (obj w (current w))))) -> NoDup (dkeys opts) ->
    In (k, t) (hints (kind (obj w (current w)))) -> dget (upper k) env = None -> enter o opts w = Good w' ->
    kind (obj w' (current w')) = kind (obj w (current w)) /\
    getattr (obj w' (current w')) k = match dget k opts with Some v => v | None => getattr (obj w (current w)) k end.
  Proof.
    intros NH NK I E H. destruct (enter_inv _ _ _ _ H) as (i' & M & HP & _ & CU & _).
    assert (OB : obj w' (current w') = i').
    { unfold obj, current. rewrite CU, HP, app_nth2, Nat.sub_diag by lia. reflexivity. }
    rewrite OB. set (i := obj w (current w)) in *.
    assert (ND : NoDup (dkeys (dupdate (dump i false false [] false) opts))) by (apply RouterDeferProofs.NoDup_dupdate, dump_nodup).
    destruct (make_initial _ _ _ NH ND M) as (K & A & _). split; [exact K|]. specialize (A k t I).
    rewrite <- (last_nodup _ k NK), last_rev.
    assert (G : dget k (dupdate (dump i false false [] false) opts) = Some (match dget k (rev opts) with Some v => v | None => getattr i k end)).
    { rewrite dget_dupdate, dump_plain. destruct (dget k (rev opts)); [reflexivity|].
      replace (smem k (map fst (hints (kind i)))) with true; [reflexivity|]. symmetry. apply smem_In. apply in_map with (f := fst) in I. exact I. }
    inversion A; congruence.
  Qed.

  (** ** Leaving *)
  Lemma replace_length {A} n (x : A) l : length (replace_nth n x l) = length l.
  Proof. revert n. induction l as [|y l IH]; intros [|n]; cbn; auto. Qed.
  Lemma replace_app {A} n (x : A) l l' : length l <= n -> replace_nth n x (l ++ l') = l ++ replace_nth (n - length l) x l'.
  Proof.
    revert n. induction l as [|y l IH]; intros n H; cbn [length app] in *; [rewrite Nat.sub_0_r; reflexivity|].
    destruct n as [|n]; [lia|]. cbn. rewrite IH by lia. reflexivity.
  Qed.
  Lemma replace_nth_other {A} n m (x d : A) l : m <> n -> nth m (replace_nth n x l) d = nth m l d.
  Proof. revert n m. induction l as [|y l IH]; intros [|n] [|m] H; cbn; auto; try lia. Qed.

  Lemma assign_inv w n k v w' : assign w n k v = Good w' ->
    cur w' = cur w /\ base w' = base w /\ managers w' = managers w /\ slot w' = slot w /\ reads w' = reads w /\
    length (heap w') = length (heap w) /\ (forall m, m <> n -> obj w' m = obj w m).
  Proof.
    unfold assign. destruct (setattr _ k v) as [i|]; [|discriminate]. intros H. injection H as <-. unfold obj.
    cbn [with_heap heap cur base managers slot reads]. repeat (split; [reflexivity|]). split; [apply replace_length|].
    intros m N. apply replace_nth_other. exact N.
  Qed.

  Lemma run_frame p : separate p -> forall w w' f, run p w = (w', f) ->
    cur w' = cur w /\ base w' = base w /\ (exists ms, managers w' = managers w ++ ms) /\
    forall o, ~ uses o p -> slot w' o = slot w o.
  Proof.
    induction p as [|k|k v| |p IHp q IHq|p IH|o opts p IH|sm p IH|sm infer]; intros SP w w' f H; cbn [ConfModel.run separate uses] in *.
    - injection H as <- <-. repeat split. exists []. rewrite app_nil_r. reflexivity.
    - injection H as <- <-. unfold note. repeat split. exists []. cbn. rewrite app_nil_r. reflexivity.
    - destruct (assign w (current w) k v) as [w1|] eqn:E; injection H as <- <-.
      + destruct (assign_inv _ _ _ _ _ E) as (A & B & C & D & _). refine (conj A (conj B (conj _ _))); [exists []; rewrite app_nil_r; exact C|].
        intros o _. rewrite D. reflexivity.
      + repeat split. exists []. rewrite app_nil_r. reflexivity.
    - injection H as <- <-. repeat split. exists []. rewrite app_nil_r. reflexivity.
    - destruct SP as (SP & SQ). destruct (run p w) as [w1 g] eqn:E. destruct (IHp SP _ _ _ E) as (A & B & (ms & C) & D).
      destruct g as [g|].
      + injection H as <- <-. refine (conj A (conj B (conj (ex_intro _ ms C) _))). intros o N. apply D. tauto.
      + destruct (IHq SQ _ _ _ H) as (A' & B' & (ms' & C') & D'). refine (conj _ (conj _ (conj _ _))); [congruence|congruence| |].
        * exists (ms ++ ms'). rewrite C', C, app_assoc. reflexivity.
        * intros o N. rewrite D', D by tauto. reflexivity.
    - injection H as <- <-. destruct (run p w) as [w1 g] eqn:E. exact (IH SP _ _ _ E).
    - destruct SP as (NU & SP). destruct (enter o opts w) as [w1|g] eqn:E; injection H as <- <-.
      + destruct (enter_inv _ _ _ _ E) as (i' & _ & _ & B1 & _ & M1 & S1 & O1 & _).
        destruct (run p w1) as [w2 g] eqn:R. destruct (IH SP _ _ _ R) as (A & B & (ms & C) & D). cbn [fst].
        assert (SL : slot w2 o = Some (length (managers w))) by (rewrite (D o NU); exact S1).
        assert (MG : managers w2 = managers w ++ {| before := cur w; left_ := false |} :: ms) by (rewrite C, M1, <- app_assoc; reflexivity).
        unfold leave. rewrite SL, MG, nth_error_app2, Nat.sub_diag by lia. cbn [nth_error left_ before cur base managers slot].
        refine (conj eq_refl (conj _ (conj _ _))); [congruence| |].
        * rewrite replace_app by lia. eexists. reflexivity.
        * intros o' N. rewrite D by tauto. apply O1. intros ->. apply N. left. reflexivity.
      + repeat split. exists []. rewrite app_nil_r. reflexivity.
    - set (c := Some _) in H. injection H as <- <-. destruct (run p (with_cur w c)) as [w1 g] eqn:E.
      destruct (IH SP _ _ _ E) as (_ & B & (ms & C) & D). cbn [fst with_cur cur base managers slot] in *.
      exact (conj eq_refl (conj B (conj (ex_intro _ ms C) D))).
    - destruct (sets_infer infer); [|injection H as <- <-; repeat split; exists []; rewrite app_nil_r; reflexivity].
      set (n := match sm with Some n => n | None => current w end) in H.
      destruct (assign w n (u "infer_body") infer) as [w1|] eqn:E; injection H as <- <-.
      + destruct (assign_inv _ _ _ _ _ E) as (A & B & C & D & _). refine (conj A (conj B (conj _ _))); [exists []; rewrite app_nil_r; exact C|].
        intros o _. rewrite D. reflexivity.
      + repeat split. exists []. rewrite app_nil_r. reflexivity.
  Qed.

  (** A program that brings in no application's settings writes at most to the object it started with. *)
  Lemma leave_objects o w : heap (leave o w) = heap w /\ reads (leave o w) = reads w.
  Proof. unfold leave. destruct (slot w o); [|auto]. destruct (nth_error _ _) as [g|]; [|auto]. destruct (left_ g); auto. Qed.

  Lemma leave_cur w o opts p w1 w2 g : ~ uses o p -> separate p ->
    enter o opts w = Good w1 -> run p w1 = (w2, g) -> cur (leave o w2) = cur w.
  Proof.
    intros NU SP E R. assert (X : run (POver o opts p) w = (leave o w2, g)) by (cbn [ConfModel.run]; rewrite E, R; reflexivity).
    apply run_frame in X; [exact (proj1 X)|]. split; assumption.
  Qed.

  Lemma run_writes p : appless p -> separate p -> forall w w' f, run p w = (w', f) -> current w < length (heap w) ->
    length (heap w) <= length (heap w') /\ forall m, m < length (heap w) -> m <> current w -> obj w' m = obj w m.
  Proof.
    induction p as [|k|k v| |p IHp q IHq|p IH|o opts p IH|sm p IH|sm infer]; intros AP SP w w' f H L; cbn [ConfModel.run appless] in *.
    - injection H as <- <-. auto.
    - injection H as <- <-. auto.
    - destruct (assign w (current w) k v) as [w1|] eqn:E; injection H as <- <-; [|auto].
      destruct (assign_inv _ _ _ _ _ E) as (_ & _ & _ & _ & _ & LE & O). split; [lia|]. intros m _ N. apply O. exact N.
    - injection H as <- <-. auto.
    - destruct AP as (AP & AQ). cbn [separate] in SP. destruct SP as (SP & SQ). destruct (run p w) as [w1 g] eqn:E.
      pose proof (run_frame p SP _ _ _ E) as (CU & BA & _). destruct (IHp AP SP _ _ _ E L) as (LE & O).
      assert (CR : current w1 = current w) by (unfold current; rewrite CU, BA; reflexivity).
      destruct g as [g|]; [injection H as <- <-; auto|]. destruct (IHq AQ SQ _ _ _ H) as (LE' & O'); [rewrite CR; lia|].
      split; [lia|]. intros m M N. rewrite O', O by (try rewrite CR; auto; lia). reflexivity.
    - injection H as <- <-. destruct (run p w) as [w1 g] eqn:E. exact (IH AP SP _ _ _ E L).
    - destruct (enter o opts w) as [w1|g] eqn:E; injection H as <- <-; [|auto].
      cbn [separate] in SP. destruct SP as (NU & SP). destruct (enter_inv _ _ _ _ E) as (i' & _ & HP & B1 & C1 & _).
      destruct (run p w1) as [w2 g] eqn:R. cbn [fst]. assert (CR : current w1 = length (heap w)) by (unfold current; rewrite C1; reflexivity).
      destruct (IH AP SP _ _ _ R) as (LE & O); [rewrite CR, HP, app_length; cbn; lia|]. rewrite HP, app_length in LE, O. cbn [length] in LE, O.
      destruct (leave_objects o w2) as (LH & _). unfold obj at 1. rewrite LH. split; [lia|]. intros m M N.
      change (nth m (heap w2) nobody) with (obj w2 m). rewrite O by (rewrite ?CR; lia). unfold obj. rewrite HP, app_nth1 by lia. reflexivity.
    - destruct AP as (-> & AP). injection H as <- <-. destruct (run p (with_cur w (Some (current w)))) as [w1 g] eqn:E.
      exact (IH AP SP _ _ _ E L).
    - subst sm. destruct (sets_infer infer); [|injection H as <- <-; auto].
      destruct (assign w (current w) (u "infer_body") infer) as [w1|] eqn:E; injection H as <- <-; [|auto].
      destruct (assign_inv _ _ _ _ _ E) as (_ & _ & _ & _ & _ & LE & O). split; [lia|]. intros m _ N. apply O. exact N.
  Qed.
End W.
