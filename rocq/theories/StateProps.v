(** C323, C324: what is put in the state of applications, requests and websockets. *)
From Verif Require Import PyStr PyStrFacts StateModel StateSpec StateProofs.
From Coq Require Import Lia.

(** C323: over any history with ordinary names every state is a map, connections over one scope share theirs, and
    copies are independent. *)
Theorem C323 ops : (forall o k, In o ops -> uses o k -> ordinary k) -> history no_maps ops (run empty_world ops).
Proof. intros U. apply run_R; [apply R_empty|]. right. split; [intros d []|exact U]. Qed.
Print Assumptions C323.

(** The maps leave no choice of what the operations give. *)
Definition alike (a b : maps) : Prop :=
  (forall q k, at_ a q k = at_ b q k) /\ owns a = owns b /\ nscopes a = nscopes b /\ over a = over b.
Lemma last_value_one l k x y : last_value l k x -> last_value l k y -> x = y.
Proof.
  intros [[-> NX]|(a & v & b & -> & E & B)] [[-> NY]|(a' & v' & b' & -> & E' & B')].
  - reflexivity.
  - exfalso. apply (NX v'). rewrite E'. apply in_elt.
  - exfalso. apply (NY v). rewrite E. apply in_elt.
  - f_equal. rewrite E in E'. clear E. revert a' E'. induction a as [|e a IH]; intros [|e' a'] E; cbn in E.
    + injection E as -> _. reflexivity.
    + exfalso. injection E as _ E. apply (B v'). rewrite E. apply in_elt.
    + exfalso. injection E as -> E. apply (B' v). rewrite <- E. apply in_elt.
    + injection E as _ E. eapply IH; exact E.
Qed.
Lemma only_at_one a b a' b' q k x : alike a b -> only_at a a' q k x -> only_at b b' q k x -> alike a' b'.
Proof.
  intros (AT & OW & SC & OV) (E1 & O1 & W1 & S1 & V1) (E2 & O2 & W2 & S2 & V2). split; [|split; [congruence|split; congruence]].
  intros q' k'. destruct (place_dec q' q) as [->|N]; [|rewrite O1, O2 by auto; apply AT].
  destruct (list_eq_dec N.eq_dec k' k) as [->|NK]; [congruence|]. rewrite O1, O2 by auto. apply AT.
Qed.
Lemma more_at a b a' b' q f g : alike a b -> more a a' q f -> more b b' q g -> (forall k, f k = g k) ->
  (forall q' k, at_ a' q' k = at_ b' q' k) /\ over a' = over b'.
Proof.
  intros (AT & OW & SC & OV) (E1 & O1 & V1) (E2 & O2 & V2) FG. split; [|congruence].
  intros q' k. destruct (place_dec q' q) as [->|N]; [now rewrite E1, E2|]. rewrite O1, O2 by assumption. apply AT.
Qed.
Lemma does_one a b o a' b' x y : alike a b -> (forall k, uses o k -> ordinary k) -> does a o a' x -> does b o b' y -> x = y /\ alike a' b'.
Proof.
  intros AL U D1 D2. pose proof AL as (AT & OW & SC & OV).
  assert (PL : forall h, place_of a h = place_of b h) by (intros [i|c]; unfold place_of; [now rewrite OW|now rewrite OV]).
  destruct o as [init|s| |h k v|h k|h k|h k|h|h]; cbn [does] in D1, D2; try rewrite (PL h) in D1.
  - destruct D1 as (-> & W1 & S1 & f & M1 & F), D2 as (-> & W2 & S2 & g & M2 & G). split; [reflexivity|]. rewrite SC in M1.
    destruct (more_at _ _ _ _ _ _ _ AL M1 M2) as [A O]; [|split; [exact A|split; [congruence|split; [congruence|exact O]]]].
    intros k. eapply last_value_one; [apply F|apply G].
  - destruct D1 as [(L1 & -> & ->)|(L1 & -> & ->)], D2 as [(L2 & -> & ->)|(L2 & -> & ->)]; try lia; (split; [reflexivity|]); [|exact AL].
    split; [exact AT|]. cbn. split; [exact OW|]. split; [exact SC|congruence].
  - destruct D1 as (-> & W1 & S1 & M1), D2 as (-> & W2 & S2 & M2). split; [congruence|]. rewrite OW in M1.
    destruct (more_at _ _ _ _ _ _ _ AL M1 M2) as [A O]; [reflexivity|split; [exact A|split; [congruence|split; [congruence|exact O]]]].
  - destruct (place_of b h) as [q|].
    + destruct D1 as [-> D1], D2 as [-> D2]. split; [reflexivity|]. eapply only_at_one; eassumption.
    + destruct D1 as [-> ->], D2 as [-> ->]. auto.
  - destruct D1 as [-> D1], D2 as [-> D2]. split; [|exact AL]. destruct (place_of b h) as [q|]; [|congruence]. rewrite AT in D1.
    destruct (at_ b q k); [congruence|]. rewrite D1, D2; [reflexivity|now apply U..].
  - destruct D1 as [-> D1], D2 as [-> D2]. split; [|exact AL]. destruct (place_of b h) as [q|]; [|congruence]. rewrite AT in D1.
    destruct (at_ b q k); congruence.
  - destruct (place_of b h) as [q|].
    + rewrite AT in D1. destruct (at_ b q k); destruct D1 as [-> D1], D2 as [-> D2]; (split; [reflexivity|]); [eapply only_at_one; eassumption|].
      subst. exact AL.
    + destruct D1 as [-> ->], D2 as [-> ->]. auto.
  - destruct D1 as [-> D1], D2 as [-> D2]. split; [|exact AL]. destruct (place_of b h) as [q|]; [|congruence].
    destruct D1 as (n1 & ND1 & I1 & ->), D2 as (n2 & ND2 & I2 & ->). f_equal. apply Nat.le_antisymm; apply NoDup_incl_length; try assumption; intros k I.
    + apply I2. rewrite <- AT. now apply I1.
    + apply I1. rewrite AT. now apply I2.
  - destruct (place_of b h) as [q|].
    + destruct D1 as (-> & W1 & S1 & M1), D2 as (-> & W2 & S2 & M2). split; [congruence|]. rewrite OW in M1.
      destruct (more_at _ _ _ _ _ _ _ AL M1 M2) as [A O]; [intros k; apply AT|split; [exact A|split; [congruence|split; [congruence|exact O]]]].
    + destruct D1 as [-> ->], D2 as [-> ->]. auto.
Qed.
Theorem C323_determined ops xs ys : (forall o k, In o ops -> uses o k -> ordinary k) ->
  history no_maps ops xs -> history no_maps ops ys -> xs = ys.
Proof.
  intros U. assert (A : alike no_maps no_maps) by (split; auto). revert A. generalize no_maps at 1 3 as a. generalize no_maps as b.
  revert xs ys U. induction ops as [|o ops IH]; intros xs ys U b a A H1 H2.
  { inversion H1; inversion H2; reflexivity. }
  inversion H1 as [|m1 o1 m1' x1 ops1 xs1 D1 T1]; subst. inversion H2 as [|m2 o2 m2' x2 ops2 xs2 D2 T2]; subst.
  destruct (does_one _ _ _ _ _ _ _ A (fun k => U o k (or_introl eq_refl)) D1 D2) as [-> A']. f_equal.
  exact (IH _ _ (fun o' k I => U o' k (or_intror I)) _ _ A' T1 T2).
Qed.
Print Assumptions C323_determined.

(** Two requests over one scope share their state; the copy of the first goes its own way. *)
Definition sample : list op :=
  [OScope None; OConn 0; OConn 0; OSet (Conn 0) (u "user") (Plain 7); OGet (Conn 1) (u "user"); OCopy (Conn 1);
   ODel (Own 0) (u "user"); OLen (Own 0); OItem (Conn 0) (u "user"); OGet (Own 0) (u "user")].
Lemma ordinary_user : ordinary (u "user").
Proof. split; [discriminate|intros r E; discriminate E]. Qed.
Example C323_case : (forall o k, In o sample -> uses o k -> ordinary k) /\
  run empty_world sample = [RNone; RNone; RNone; RNone; RVal (Plain 7); ROwn 0; RNone; RLen 0; RVal (Plain 7); RAttributeError].
Proof.
  split; [|reflexivity]. intros o k I. cbn in I.
  repeat (destruct I as [<- | I]; [cbn; intros U; first [destruct U; fail | subst k; apply ordinary_user | contradiction]|]). destruct I.
Qed.

(** C324: any name can be used. *)
Definition C324_statement : Prop := forall ops, history no_maps ops (run empty_world ops).
(** A value under "_state" takes the place of all others for [len], [del], [copy] and reading items. *)
Definition hides : list op := [ONew; OSet (Own 0) (u "a") (Plain 1); OSet (Own 0) (u "_state") (Plain 2); OItem (Own 0) (u "a")].
Theorem C324_refuted : ~ C324_statement.
Proof.
  intros H. specialize (H hides). cbn in H.
  inversion H as [|m0 o0 m1 x0 ops0 xs0 D0 H0]; subst. destruct D0 as (_ & W1 & _ & _).
  inversion H0 as [|a o1 m2 x1 ops1 xs1 D1 H1]; subst. cbn in D1. rewrite W1 in D1. cbn in D1. destruct D1 as [_ (_ & _ & W2 & _)].
  inversion H1 as [|a o2 m3 x2 ops2 xs2 D2 H2]; subst. cbn in D2. rewrite W2, W1 in D2. cbn in D2. destruct D2 as [_ (_ & _ & W3 & _)].
  inversion H2 as [|a o3 m4 x3 ops3 xs3 D3 H3]; subst. cbn in D3. rewrite W3, W2, W1 in D3. cbn in D3. destruct D3 as [_ D3].
  destruct (at_ m3 _ _); discriminate D3.
Qed.
Print Assumptions C324_refuted.
(** A value under "copy" takes the place of the method. *)
Theorem C324_copy_refuted : ~ history no_maps [ONew; OSet (Own 0) (u "copy") (Plain 1); OCopy (Own 0)]
  (run empty_world [ONew; OSet (Own 0) (u "copy") (Plain 1); OCopy (Own 0)]).
Proof.
  intros H. cbn in H.
  inversion H as [|m0 o0 m1 x0 ops0 xs0 D0 H0]; subst. destruct D0 as (_ & W1 & _ & _).
  inversion H0 as [|a o1 m2 x1 ops1 xs1 D1 H1]; subst. cbn in D1. rewrite W1 in D1. cbn in D1. destruct D1 as [_ (_ & _ & W2 & _)].
  inversion H1 as [|a o2 m3 x2 ops2 xs2 D2 H2]; subst. cbn in D2. rewrite W2, W1 in D2. cbn in D2. now destruct D2 as [D2 _].
Qed.
Print Assumptions C324_copy_refuted.
(** Setting and getting attributes is right with any names.  Missing: the other operations after a special name. *)
Theorem C324_partial ops : (forall o, In o ops -> attribute o) -> history no_maps ops (run empty_world ops).
Proof. intros A. apply run_R; [apply R_empty|]. left. exact A. Qed.
Print Assumptions C324_partial.
Example C324_case : (forall o, In o [ONew; OSet (Own 0) (u "_state") (Plain 2); OGet (Own 0) (u "_state")] -> attribute o) /\
  run empty_world [ONew; OSet (Own 0) (u "_state") (Plain 2); OGet (Own 0) (u "_state")] = [ROwn 0; RNone; RVal (Plain 2)].
Proof. split; [|reflexivity]. intros o [<- |[<- |[<- |[]]]]; exact I. Qed.
