(** C43: the memory cache. *)
From Verif Require Import PyStr PyStrFacts CacheModel CacheSpec.

Section Cache.
Context {V : Type} (dumps : V -> option str) (loads : str -> option V).
Let run := cache_run dumps loads.
(** Every operation ends the effect of earlier sets of a key, sets it, or leaves them. *)
Lemma last_set_snoc key (h : list (Z * cop V)) t o t0 v ttl :
  last_set key (h ++ [(t, o)]) t0 v ttl <-> (t = t0 /\ o = CSet key v ttl) \/ (~ ends key o /\ last_set key h t0 v ttl).
Proof.
  split.
  - intros (pre & post & E & P). destruct (@exists_last _ ((t0, CSet key v ttl) :: post) ltac:(discriminate)) as (l & x & L).
    rewrite L in E. rewrite app_assoc in E. apply app_inj_tail in E. destruct E as [E <-]. destruct l as [|y l].
    + cbn in L. assert (X : (t0, CSet key v ttl) = (t, o)) by congruence. injection X as <- <-. left. auto.
    + cbn [app] in L. injection L as <- L. right. split; [apply (P t); rewrite L; apply in_or_app; right; left; reflexivity|].
      exists pre, l. split; [exact E|]. intros t' o' I. apply (P t'). rewrite L. apply in_or_app. left. exact I.
  - intros [[-> ->]|[N (pre & post & -> & P)]].
    + exists h, []. split; [reflexivity|]. intros ? ? [].
    + exists pre, (post ++ [(t, o)]). split; [rewrite <- app_assoc; reflexivity|]. intros t' o' I. apply in_app_or in I as [I|[I|[]]]; [exact (P t' o' I)|]. injection I as <- <-. exact N.
Qed.
Lemma in_order_snoc (h : list (Z * cop V)) t o now : in_order (h ++ [(t, o)]) now -> in_order h t /\ (t <= now)%Z.
Proof.
  induction h as [|(a, b) h IH]; cbn [app in_order]; [intros [H _]; auto|]. intros (A & B & C). destruct (IH C) as [I1 I2]. split; [|exact I2]. split; [|split; [|exact I1]].
  - apply (B t o). apply in_or_app. right. left. reflexivity.
  - intros t' o' I. apply (B t' o'). apply in_or_app. left. exact I.
Qed.
Lemma in_order_later (h : list (Z * cop V)) t now : in_order h t -> (t <= now)%Z -> in_order h now.
Proof. induction h as [|(a, b) h IH]; [trivial|]. cbn [in_order]. intros (A & B & C) L. split; [lia|]. split; [exact B|]. exact (IH C L). Qed.
Definition expires (t0 : Z) (ttl : option Z) : option Z := match ttl with Some d => if Z.eqb d 0 then None else Some (t0 + d)%Z | None => None end.
(** What the store tells of a key. *)
Definition tells (h : list (Z * cop V)) (now : Z) (key : str) : Prop :=
  match dget key (run h) with
  | Some (data, e) => exists t0 v ttl, last_set key h t0 v ttl /\ dumps v = Some data /\ e = expires t0 ttl
  | None => forall t0 v ttl, last_set key h t0 v ttl -> exists e, expires t0 ttl = Some e /\ (e < now)%Z
  end.
Lemma run_tells (h : list (Z * cop V)) : (forall t k v ttl, In (t, CSet k v ttl) h -> exists d, dumps v = Some d) ->
  forall now, in_order h now -> forall key, tells h now key.
Proof.
  induction h as [|(t, o) h IH] using rev_ind; intros D now O key.
  - unfold tells. cbn. intros t0 v ttl (pre & post & E & _). destruct pre; discriminate E.
  - destruct (in_order_snoc _ _ _ _ O) as [O1 L]. assert (T := IH (fun a b c d I => D a b c d (in_or_app _ _ _ (or_introl I))) t O1 key).
    unfold tells in *. unfold run, cache_run in *. rewrite fold_left_app. cbn [fold_left]. set (s := fold_left (cache_step dumps loads) h []) in *. clearbody s.
    assert (KEEP : ~ ends key o -> match dget key s with Some (data, e) => exists t0 v ttl, last_set key (h ++ [(t, o)]) t0 v ttl /\ dumps v = Some data /\ e = expires t0 ttl
                                   | None => forall t0 v ttl, last_set key (h ++ [(t, o)]) t0 v ttl -> exists e, expires t0 ttl = Some e /\ (e < now)%Z end).
    { intros NE. destruct (dget key s) as [(data, e)|].
      - destruct T as (t0 & v & ttl & LS & E1 & E2). exists t0, v, ttl. split; [|auto]. apply last_set_snoc. right. auto.
      - intros t0 v ttl LS. apply last_set_snoc in LS. destruct LS as [[-> ->]|[_ LS]]; [contradiction NE; reflexivity|]. destruct (T t0 v ttl LS) as (e & E1 & E2). exists e. split; [exact E1|lia]. }
    unfold cache_step. cbn [fst snd]. destruct o as [k v ttl|k|k].
    + unfold cache_set. destruct (D t k v ttl) as (data & E); [apply in_or_app; right; left; reflexivity|]. rewrite E. destruct (seqb_spec key k) as [<-|N].
      * rewrite dget_dset_same. exists t, v, ttl. split; [apply last_set_snoc; left; auto|]. auto.
      * rewrite dget_dset_other by exact N. apply KEEP. cbn. congruence.
    + unfold cache_get. specialize (KEEP (fun x => x)). destruct (dget k s) as [(data, e)|] eqn:G; [|exact KEEP].
      destruct (match e with Some e0 => (e0 <? t)%Z | None => false end) eqn:X; [|exact KEEP]. cbn [fst]. unfold cache_delete. destruct (seqb_spec key k) as [<-|N].
      * rewrite dget_ddel_same. rewrite G in KEEP. intros t0 v ttl LS. destruct KEEP as (t1 & v1 & ttl1 & LS1 & _ & E1).
        assert (U : t1 = t0 /\ v1 = v /\ ttl1 = ttl).
        { apply last_set_snoc in LS. apply last_set_snoc in LS1. destruct LS as [[_ LS]|[_ LS]]; [discriminate LS|]. destruct LS1 as [[_ LS1]|[_ LS1]]; [discriminate LS1|].
          clear - LS LS1. induction h as [|(a, b) h IH] using rev_ind; [destruct LS as (p & q & E & _); destruct p; discriminate E|].
          apply last_set_snoc in LS. apply last_set_snoc in LS1. destruct LS as [[-> ->]|[N LS]].
          - destruct LS1 as [[-> E]|[N _]]; [injection E as -> ->; auto|]. contradiction N. reflexivity.
          - destruct LS1 as [[-> ->]|[_ LS1]]; [contradiction N; reflexivity|]. apply IH; assumption. }
        destruct U as (-> & -> & ->). rewrite <- E1. destruct e as [e0|]; [|discriminate X]. apply Z.ltb_lt in X. exists e0. split; [reflexivity|lia].
      * rewrite dget_ddel_other by exact N. exact KEEP.
    + unfold cache_delete. destruct (seqb_spec key k) as [<-|N].
      * rewrite dget_ddel_same. intros t0 v ttl LS. apply last_set_snoc in LS. destruct LS as [[_ LS]|[NE _]]; [discriminate LS|]. contradiction NE. reflexivity.
      * rewrite dget_ddel_other by exact N. apply KEEP. cbn. congruence.
Qed.
End Cache.

(** After any history on a clock that does not go back, a get finds the value of the last set, if it was not
    deleted and its lifetime has not elapsed, and nothing otherwise. *)
Definition C43_statement : Prop := forall V (dumps : V -> option str) (loads : str -> option V) h now key,
  (forall v, exists d, dumps v = Some d /\ loads d = Some v) -> in_order h now ->
  forall v, snd (cache_get loads now key (cache_run dumps loads h)) = Some v <-> alive key h now v.
(** A lifetime of 0 never elapses. *)
Theorem C43_refuted : ~ C43_statement.
Proof.
  intros H. specialize (H str Some Some [(0%Z, CSet (u "k") (u "v") (Some 0%Z))] 1%Z (u "k")).
  destruct (H (fun v => ex_intro _ v (conj eq_refl eq_refl)) ltac:(cbn; repeat split; [lia|intros ? ? []]) (u "v")) as [A _].
  destruct (A ltac:(vm_compute; reflexivity)) as (t0 & ttl & (pre & post & E & _) & L). destruct pre as [|p pre].
  - injection E as <- <- _. cbn in L. lia.
  - destruct pre; discriminate E.
Qed.
Print Assumptions C43_refuted.
(** For lifetimes other than 0, and values that serialise and come back. *)
Theorem C43_get_partial : forall V (dumps : V -> option str) (loads : str -> option V) h now key,
  (forall t k v ttl, In (t, CSet k v ttl) h -> ttl <> Some 0%Z /\ exists d, dumps v = Some d /\ loads d = Some v) -> in_order h now ->
  forall v, snd (cache_get loads now key (cache_run dumps loads h)) = Some v <-> alive key h now v.
Proof.
  intros V dumps loads h now key D O v.
  assert (T := run_tells dumps loads h (fun t k v ttl I => match proj2 (D t k v ttl I) with ex_intro _ d (conj E _) => ex_intro _ d E end) now O key).
  assert (UN : forall t0 v ttl, last_set key h t0 v ttl -> ttl <> Some 0%Z /\ exists d, dumps v = Some d /\ loads d = Some v).
  { intros t0 w ttl (pre & post & -> & _). apply (D t0 key w ttl). apply in_or_app. right. left. reflexivity. }
  assert (U : forall t0 v ttl t1 v1 ttl1, last_set key h t0 v ttl -> last_set key h t1 v1 ttl1 -> t1 = t0 /\ v1 = v /\ ttl1 = ttl).
  { clear. intros t0 v ttl t1 v1 ttl1 LS LS1. induction h as [|(a, b) h IH] using rev_ind; [destruct LS as (p & q & E & _); destruct p; discriminate E|].
    apply last_set_snoc in LS. apply last_set_snoc in LS1. destruct LS as [[-> ->]|[N LS]].
    - destruct LS1 as [[-> E]|[N _]]; [injection E as -> ->; auto|]. contradiction N. reflexivity.
    - destruct LS1 as [[-> ->]|[_ LS1]]; [contradiction N; reflexivity|]. apply IH; assumption. }
  assert (EX : forall t0 ttl, ttl <> Some 0%Z -> (match expires t0 ttl with Some e => (e <? now)%Z | None => false end) = false <-> lives t0 ttl now).
  { intros t0 [d|] N0; cbn; [|tauto]. destruct (Z.eqb_spec d 0) as [->|_]; [contradiction N0; reflexivity|]. rewrite Z.ltb_ge. tauto. }
  unfold tells in T. unfold cache_get. destruct (dget key (cache_run dumps loads h)) as [(data, e)|].
  - destruct T as (t0 & w & ttl & LS & E1 & ->). destruct (UN _ _ _ LS) as [N0 (d & E2 & E3)]. assert (d = data) by congruence. subst d.
    specialize (EX t0 ttl N0). destruct (match expires t0 ttl with Some e => (e <? now)%Z | None => false end); cbn [snd].
    + split; [discriminate|]. intros (t1 & ttl1 & LS1 & L). destruct (U _ _ _ _ _ _ LS LS1) as (-> & -> & ->). apply EX in L. discriminate L.
    + rewrite E3. split.
      * intros E. assert (w = v) by congruence. subst w. exists t0, ttl. split; [exact LS|]. apply EX. reflexivity.
      * intros (t1 & ttl1 & LS1 & _). destruct (U _ _ _ _ _ _ LS LS1) as (_ & -> & _). reflexivity.
  - cbn [snd]. split; [discriminate|]. intros (t1 & ttl1 & LS1 & L). exfalso. destruct (T _ _ _ LS1) as (e & E1 & E2). destruct (UN _ _ _ LS1) as [N0 _].
    apply (EX t1 ttl1 N0) in L. rewrite E1 in L. apply Z.ltb_ge in L. lia.
Qed.
Print Assumptions C43_get_partial.
Example C43_case : let h := [(0, CSet (u "k") (u "v") (Some 5)); (1, CSet (u "l") (u "w") None); (3, CGet (u "k")); (6, CGet (u "k")); (7, CDelete (u "l")); (8, CSet (u "l") (u "x") None)]%Z in
  in_order h 9%Z /\ (forall t k v ttl, In (t, CSet k v ttl) h -> ttl <> Some 0%Z)
  /\ snd (cache_get Some 5 (u "k") (cache_run Some Some (firstn 3 h))) = Some (u "v") /\ snd (cache_get Some 9 (u "k") (cache_run Some Some h)) = None
  /\ snd (cache_get Some 9 (u "l") (cache_run Some Some h)) = Some (u "x").
Proof.
  cbn zeta. split; [cbn; repeat split; try lia; intros t o I; repeat destruct I as [I|I]; try (injection I as <- _; lia); destruct I|]. split; [|repeat split; vm_compute; reflexivity].
  intros t k v ttl I. cbn [In] in I. repeat (destruct I as [I|I]; [first [discriminate I|injection I as <- <- <- <-; discriminate]|]). destruct I.
Qed.
