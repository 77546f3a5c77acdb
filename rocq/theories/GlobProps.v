(** The property C123. *)
From Verif Require Import PyStr PyStrFacts GlobModel GlobSpec.

(** ** C123.  Requests have states of their own, whatever else runs at the same time. *)
Definition C123_statement : Prop := forall es : list (event nat), run initial es = spec_run nothing es.
(** Refuted by a function that returns the same dict for every request. *)
Theorem C123_refuted : ~ C123_statement.
Proof.
  intros S. specialize (S [Make [(u "hits", 0)]; Spawn 0 1; Spawn 0 2; Enter 1 (Some (Same 0)); Enter 2 (Some (Same 0)); Write 1 (u "hits") 5; Read 2 (u "hits")]). vm_compute in S. discriminate S.
Qed.
Print Assumptions C123_refuted.
(** Refuted, without one, by a handler that runs in a thread: what it writes is not there for the middleware. *)
Definition C123_tasks_statement : Prop := forall es : list (event nat), (forall t a, ~ In (Enter t (Some (Same a))) es) -> run initial es = spec_run nothing es.
Theorem C123_tasks_refuted : ~ C123_tasks_statement.
Proof.
  intros S. specialize (S [Spawn 0 1; Enter 1 None; Spawn 1 2; Write 2 (u "user") 5; Read 2 (u "user"); Read 1 (u "user")]).
  assert (X : run initial [Spawn 0 1; Enter 1 None; Spawn 1 2; Write 2 (u "user") 5; Read 2 (u "user"); Read 1 (u "user")] = [Done; Done; Done; Done; Value 5; AttributeErr]) by reflexivity.
  rewrite X in S. vm_compute in S. discriminate S. intros t a. cbn. intuition discriminate.
Qed.
Print Assumptions C123_tasks_refuted.
(** And by a name. *)
Definition C123_names_statement : Prop := forall (k : str) (v : nat), run initial [Enter 1 None; Write 1 k v; Read 1 k] = [Done; Done; Value v].
Theorem C123_names_refuted : ~ C123_names_statement.
Proof. intros S. specialize (S (u "store") 5). vm_compute in S. discriminate S. Qed.
Print Assumptions C123_names_refuted.

Section Refine.
Context {V : Type}.
Implicit Types (s : state V) (w : world V).
(** [m] says where a store is, once it has been created. *)
Definition related (m : nat -> option nat) (w : world V) (v : gvar) (x : option nat) : Prop :=
  match v, x with
  | Unset, None => True
  | Active, Some n => n < total w /\ m n = None
  | Ref a, Some n => n < total w /\ m n = Some a
  | _, _ => False
  end.
Record refines (m : nat -> option nat) (s : state V) (w : world V) : Prop := {
  r_vars : forall t, Forall2 (related m w) (vars s t) (inside w t);
  r_inj : forall n n' a, m n = Some a -> m n' = Some a -> n = n';
  r_old : forall n a, m n = Some a -> n < total w /\ a < length (heap s) /\ nth a (heap s) [] = stores w n;
  r_new : forall n, n < total w -> m n = None -> stores w n = [];
  r_one : forall n t i t' i', n < total w -> m n = None -> nth_error (inside w t) i = Some (Some n) -> nth_error (inside w t') i' = Some (Some n) -> t = t' /\ i = i';
  r_used : forall n, In n (used w) -> m n <> None }.
Lemma Forall2_weaken {A B} (P Q : A -> B -> Prop) l l' : (forall a b, P a b -> Q a b) -> Forall2 P l l' -> Forall2 Q l l'.
Proof. intros H F. induction F; constructor; auto. Qed.
Lemma at_same {A} f n (x : A) : at_ f n x n = x.
Proof. unfold at_. rewrite Nat.eqb_refl. reflexivity. Qed.
Lemma at_other {A} f n m (x : A) : n <> m -> at_ f n x m = f m.
Proof. intros N. unfold at_. apply Nat.eqb_neq in N. rewrite N. reflexivity. Qed.
Lemma put_same {A} f n (x : A) : put f n x n = x.
Proof. unfold put. rewrite Nat.eqb_refl. reflexivity. Qed.
Lemma put_other {A} f n m (x : A) : n <> m -> put f n x m = f m.
Proof. intros N. unfold put. rewrite Nat.eqb_sym. apply Nat.eqb_neq in N. rewrite N. reflexivity. Qed.
Lemma update_length (h : list (dict V)) a d : length (update h a d) = length h.
Proof. revert a. induction h as [|x h IH]; intros [|a]; cbn; auto. Qed.
Lemma update_same (h : list (dict V)) a d : a < length h -> nth a (update h a d) [] = d.
Proof. revert a. induction h as [|x h IH]; intros [|a] L; cbn in *; try lia; auto. apply IH. lia. Qed.
Lemma update_other (h : list (dict V)) a b d : a <> b -> nth b (update h a d) [] = nth b h [].
Proof. revert a b. induction h as [|x h IH]; intros [|a] [|b] N; cbn; try congruence; auto. Qed.
Lemma nth_grown (h : list (dict V)) x a : a < length h -> nth a (h ++ [x]) [] = nth a h [].
Proof. intros L. apply app_nth1, L. Qed.
Lemma current_related m s w t : refines m s w -> related m w (current s t) (here w t).
Proof. intros R. assert (F := r_vars _ _ _ R t). unfold current, here. destruct F; [exact I | assumption]. Qed.

(** The state is created when first used, in the place the specification has for it. *)
Lemma created m s w t n : refines m s w -> here w t = Some n ->
  exists a s1 m1, get_or_create s t = Some (a, s1) /\ m1 n = Some a /\ refines m1 s1 w /\ (forall k, m k <> None -> m1 k = m k).
Proof.
  intros R H. assert (C := current_related m s w t R). rewrite H in C. unfold get_or_create. destruct (current s t) as [| |a] eqn:E; cbn [related] in C; [contradiction| |].
  - destruct C as [L N]. set (a := length (heap s)). exists a. eexists. exists (at_ m n (Some a)). split; [reflexivity|]. split; [apply at_same|].
    assert (HD : exists rest, inside w t = Some n :: rest) by (unfold here in H; destruct (inside w t) as [|x l]; [discriminate | exists l; congruence]). destruct HD as (rest & HD).
    assert (OLD : forall k, m k <> None -> at_ m n (Some a) k = m k) by (intros k K; apply at_other; intros <-; congruence).
    split; [|exact OLD]. destruct R as [RV RI RO RN R1 RU]. split; cbn [heap vars].
    + intros t'. destruct (Nat.eq_dec t t') as [<-|D].
      * rewrite put_same. specialize (RV t). rewrite HD in *. destruct (vars s t) as [|v vs] eqn:EV; [inversion RV|]. assert (RV' : Forall2 (related m w) vs rest) by (inversion RV; assumption). clear RV. rename RV' into RV. cbn [tl]. constructor.
        { cbn [related]. split; [exact L | apply at_same]. }
        assert (X : forall i, nth_error rest i <> Some (Some n)).
        { intros i Hi. destruct (R1 n t 0 t (S i) L N) as [_ B]; [rewrite HD; reflexivity | rewrite HD; exact Hi | discriminate B]. }
        clear -RV X. induction RV as [|v x vs xs A F IH]; constructor; [|apply IH; intros i; exact (X (S i))].
        destruct v, x as [k|]; cbn [related] in *; auto; (assert (n <> k) by (intros <-; exact (X 0 eq_refl))); rewrite at_other by assumption; exact A.
      * rewrite put_other by exact D. specialize (RV t').
        assert (X : forall i, nth_error (inside w t') i <> Some (Some n)).
        { intros i Hi. destruct (R1 n t 0 t' i L N) as [B _]; [rewrite HD; reflexivity | exact Hi | congruence]. }
        clear -RV X. induction RV as [|v x vs xs A F IH]; constructor; [|apply IH; intros i; exact (X (S i))].
        destruct v, x as [k|]; cbn [related] in *; auto; (assert (n <> k) by (intros <-; exact (X 0 eq_refl))); rewrite at_other by assumption; exact A.
    + intros k k' b. unfold at_. destruct (Nat.eqb_spec n k) as [<-|K], (Nat.eqb_spec n k') as [<-|K']; intros A B; auto.
      * injection A as <-. destruct (RO _ _ B) as (_ & X & _). unfold a in X. lia.
      * injection B as <-. destruct (RO _ _ A) as (_ & X & _). unfold a in X. lia.
      * eapply RI; eassumption.
    + intros k b. unfold at_. rewrite app_length. cbn [length]. destruct (Nat.eqb_spec n k) as [<-|K]; intros A.
      * injection A as <-. split; [exact L|]. split; [unfold a; lia|]. unfold a. rewrite app_nth2, Nat.sub_diag by lia. cbn. symmetry. apply RN; assumption.
      * destruct (RO _ _ A) as (X & Y & Z). split; [exact X|]. split; [lia|]. rewrite nth_grown by exact Y. exact Z.
    + intros k K. unfold at_. destruct (Nat.eqb n k); [discriminate | apply RN; exact K].
    + intros k t1 i t2 j K. unfold at_. destruct (Nat.eqb n k); [discriminate | apply R1; exact K].
    + intros k U. unfold at_. destruct (Nat.eqb n k); [discriminate | apply RU; exact U].
  - destruct C as [L N]. exists a, s, m. auto.
Qed.
(** A change to a created store. *)
Lemma changed m s w n a d : refines m s w -> m n = Some a -> refines m (store s a d) (change w n d).
Proof.
  intros [RV RI RO RN R1 RU] M. destruct (RO _ _ M) as (L & LA & C). split; cbn [store change heap vars stores total inside used].
  - exact RV.
  - exact RI.
  - intros k b A. rewrite update_length. destruct (RO _ _ A) as (X & Y & Z). split; [exact X|]. split; [exact Y|]. destruct (Nat.eq_dec n k) as [<-|K].
    + assert (b = a) as -> by congruence. rewrite at_same. apply update_same, LA.
    + rewrite at_other by exact K. rewrite update_other; [exact Z|]. intros <-. apply K. eapply RI; eassumption.
  - intros k K N. rewrite at_other; [apply RN; assumption | intros <-; congruence].
  - exact R1.
  - intros k [<-|U]; [congruence | apply RU; exact U].
Qed.
Lemma unchanged m s w n a : refines m s w -> m n = Some a -> refines m s (change w n (stores w n)).
Proof.
  intros [RV RI RO RN R1 RU] M. split; cbn [change stores total inside used]; auto.
  - intros k b A. destruct (RO _ _ A) as (X & Y & Z). split; [exact X|]. split; [exact Y|]. destruct (Nat.eq_dec n k) as [<-|K]; [rewrite at_same | rewrite at_other by exact K]; exact Z.
  - intros k K N. destruct (Nat.eq_dec n k) as [<-|D]; [congruence|]. rewrite at_other by exact D. apply RN; assumption.
  - intros k [<-|U]; [congruence | apply RU; exact U].
Qed.
Lemma one_step m s w e : refines m s w -> careful_event w e -> snd (step s e) = snd (spec_step w e) /\ exists m', refines m' (fst (step s e)) (fst (spec_step w e)).
Proof.
  intros R C. destruct e as [d|p t|t p|t|t k v|t k|t k|t k|t]; cbn [step spec_step careful_event] in *.
  - split; [reflexivity|]. exists m. destruct R as [RV RI RO RN R1 RU]. split; cbn; auto.
    intros n a A. destruct (RO _ _ A) as (X & Y & Z). rewrite app_length. split; [exact X|]. split; [lia|]. rewrite nth_grown by exact Y. exact Z.
  - split; [reflexivity|]. exists m. assert (CR := current_related m s w p R). destruct R as [RV RI RO RN R1 RU]. split; cbn [fst heap vars total stores inside used]; auto.
    + intros t'. destruct (Nat.eq_dec t t') as [<-|D]; [rewrite put_same, at_same; repeat constructor; exact CR | rewrite put_other, at_other by exact D; apply RV].
    + assert (X : forall n t1 i, m n = None -> nth_error (at_ (inside w) t [here w p] t1) i = Some (Some n) -> t1 <> t /\ nth_error (inside w t1) i = Some (Some n)).
      { intros n t1 i N Hi. destruct (Nat.eq_dec t t1) as [<-|D].
        - rewrite at_same in Hi. destruct i as [|i]; [|destruct i; discriminate Hi]. exfalso. cbn in Hi. injection Hi as Hi. rewrite Hi in C. exact (RU n C N).
        - rewrite at_other in Hi by exact D. auto. }
      intros n t1 i t2 j L N A B. apply X in A, B; auto. apply (R1 n t1 i t2 j L N); tauto.
  - destruct p as [[d|a]|]; [|destruct C|].
    + split; [reflexivity|]. set (n := total w). set (a := length (heap s)). exists (at_ m n (Some a)). destruct R as [RV RI RO RN R1 RU].
      assert (NM : forall k, m k <> None -> k <> n) by (intros k K ->; destruct (m n) as [b|] eqn:E; [destruct (RO _ _ E) as (X & _); unfold n in X; lia | congruence]).
      split; cbn [fst heap vars total stores inside used given].
      * assert (REL : forall v x, related m w v x -> related (at_ m n (Some a)) {| total := S n; stores := at_ (stores w) n d; inside := at_ (inside w) t (Some n :: inside w t); own := own w; used := n :: used w |} v x).
        { intros v [k|]; destruct v; cbn [related total]; auto; intros [L M]; (split; [unfold n; lia|]); (rewrite at_other; [exact M | unfold n; lia]). }
        intros t'. destruct (Nat.eq_dec t t') as [<-|D].
        -- rewrite put_same, at_same. constructor; [cbn [related total]; split; [lia | apply at_same]|]. eapply Forall2_weaken; [exact REL | apply RV].
        -- rewrite put_other, at_other by exact D. eapply Forall2_weaken; [exact REL | apply RV].
      * intros k k' b. unfold at_. destruct (Nat.eqb_spec n k) as [<-|K], (Nat.eqb_spec n k') as [<-|K']; intros A B; auto.
        { injection A as <-. destruct (RO _ _ B) as (_ & X & _). unfold a in X. lia. } { injection B as <-. destruct (RO _ _ A) as (_ & X & _). unfold a in X. lia. }
        eapply RI; eassumption.
      * intros k b. rewrite app_length. cbn [length]. unfold at_ at 1. destruct (Nat.eqb_spec n k) as [<-|K]; intros A.
        { injection A as <-. split; [lia|]. split; [unfold a; lia|]. rewrite at_same. unfold a. rewrite app_nth2, Nat.sub_diag by lia. reflexivity. }
        destruct (RO _ _ A) as (X & Y & Z). split; [unfold n; lia|]. split; [lia|]. rewrite nth_grown by exact Y. rewrite at_other by exact K. exact Z.
      * intros k L. unfold at_ at 1. destruct (Nat.eqb_spec n k) as [<-|K]; [discriminate|]. intros N. rewrite at_other by exact K. apply RN; [unfold n in *; lia | exact N].
      * intros k t1 i t2 j L. unfold at_ at 1. destruct (Nat.eqb_spec n k) as [<-|K]; [discriminate|]. intros N.
        assert (X : forall t1 i, nth_error (at_ (inside w) t (Some n :: inside w t) t1) i = Some (Some k) -> nth_error (inside w t1) (if Nat.eqb t t1 then pred i else i) = Some (Some k) /\ (t = t1 -> i <> 0)).
        { clear -K. intros t1 i. unfold at_. destruct (Nat.eqb_spec t t1) as [->|D]; [|intros Hi; split; [exact Hi | congruence]].
          destruct i as [|i]; cbn; [congruence|]. intros Hi. split; [exact Hi | discriminate]. }
        intros A B. apply X in A, B. assert (L' : k < total w) by (unfold n in *; lia). destruct (R1 k _ _ _ _ L' N (proj1 A) (proj1 B)) as [-> E]. split; [reflexivity|].
        destruct (Nat.eqb_spec t t2) as [->|D]; [|exact E]. destruct A as [_ A], B as [_ B]. specialize (A eq_refl). specialize (B eq_refl). lia.
      * intros k [<-|U]; [rewrite at_same; discriminate|]. rewrite at_other; [apply RU; exact U|]. intros E. exact (NM k (RU k U) (eq_sym E)).
    + split; [reflexivity|]. set (n := total w). exists m. destruct R as [RV RI RO RN R1 RU].
      assert (MN : m n = None) by (destruct (m n) as [b|] eqn:E; [destruct (RO _ _ E) as (X & _); unfold n in X; lia | reflexivity]).
      assert (INS : forall t i k, nth_error (inside w t) i = Some (Some k) -> k < n).
      { intros t1 i k Hi. specialize (RV t1). clear -RV Hi. revert i Hi. unfold n. induction RV as [|v x vs xs A F IH]; intros [|i] Hi; cbn in Hi; try discriminate; [|eapply IH; exact Hi].
        injection Hi as ->. destruct v; cbn [related] in A; tauto. }
      split; cbn [fst heap vars total stores inside used given].
      * assert (REL : forall v x, related m w v x -> related m {| total := S n; stores := at_ (stores w) n []; inside := at_ (inside w) t (Some n :: inside w t); own := own w; used := used w |} v x).
        { intros v [k|]; destruct v; cbn [related total]; auto; intros [L M]; (split; [unfold n; lia | exact M]). }
        intros t'. destruct (Nat.eq_dec t t') as [<-|D].
        -- rewrite put_same, at_same. constructor; [cbn [related total]; split; [lia | exact MN]|]. eapply Forall2_weaken; [exact REL | apply RV].
        -- rewrite put_other, at_other by exact D. eapply Forall2_weaken; [exact REL | apply RV].
      * exact RI.
      * intros k b A. destruct (RO _ _ A) as (X & Y & Z). split; [unfold n; lia|]. split; [exact Y|]. rewrite at_other; [exact Z | unfold n; lia].
      * intros k L N. unfold at_. destruct (Nat.eqb_spec n k) as [<-|K]; [reflexivity|]. apply RN; [unfold n in *; lia | exact N].
      * intros k t1 i t2 j L N.
        assert (X : forall t1 i, nth_error (at_ (inside w) t (Some n :: inside w t) t1) i = Some (Some k) -> (k = n /\ t1 = t /\ i = 0) \/
          (k < n /\ nth_error (inside w t1) (if Nat.eqb t t1 then pred i else i) = Some (Some k) /\ (t = t1 -> i <> 0))).
        { clear -INS. intros t1 i. unfold at_. destruct (Nat.eqb_spec t t1) as [->|D]; [|intros Hi; right; split; [eapply INS; exact Hi|]; split; [exact Hi | congruence]].
          destruct i as [|i]; cbn; [intros [= <-]; left; auto|]. intros Hi. right. split; [eapply INS; exact Hi|]. split; [exact Hi | discriminate]. }
        intros A B. apply X in A, B. destruct A as [(A1 & A2 & A3)|(A0 & A)], B as [(B1 & B2 & B3)|(B0 & B)]; [split; congruence | lia | lia |].
        destruct (R1 k _ _ _ _ A0 N (proj1 A) (proj1 B)) as [-> E]. split; [reflexivity|].
        destruct (Nat.eqb_spec t t2) as [->|D]; [|exact E]. destruct A as [_ A], B as [_ B]. specialize (A eq_refl). specialize (B eq_refl). lia.
      * exact RU.
  - split; [reflexivity|]. exists m. destruct R as [RV RI RO RN R1 RU]. split; cbn [fst heap vars total stores inside used]; auto.
    + intros t'. destruct (Nat.eq_dec t t') as [<-|D]; [rewrite put_same, at_same; destruct (RV t); [constructor | assumption] | rewrite put_other, at_other by exact D; apply RV].
    + assert (X : forall n t1 i, nth_error (at_ (inside w) t (tl (inside w t)) t1) i = Some (Some n) -> nth_error (inside w t1) (if Nat.eqb t t1 then S i else i) = Some (Some n)).
      { clear. intros n t1 i. unfold at_. destruct (Nat.eqb_spec t t1) as [->|D]; [|auto]. destruct (inside w t1); cbn [tl nth_error]; [destruct i; discriminate | auto]. }
      intros n t1 i t2 j L N A B. apply X in A, B. destruct (R1 n _ _ _ _ L N A B) as [-> E]. split; [reflexivity|]. destruct (Nat.eqb t t2); lia.
  - destruct (here w t) as [n|] eqn:H.
    + destruct (created m s w t n R H) as (a & s1 & m1 & -> & M & R1 & _). split; [reflexivity|]. exists m1. cbn [fst].
      assert (E : contents s1 a = stores w n) by apply (r_old _ _ _ R1 _ _ M). rewrite E. apply changed; assumption.
    + assert (CR := current_related m s w t R). rewrite H in CR. unfold get_or_create. destruct (current s t); [|destruct CR|destruct CR]. split; [reflexivity|]. exists m. exact R.
  - destruct (here w t) as [n|] eqn:H.
    + destruct (created m s w t n R H) as (a & s1 & m1 & -> & M & R1 & _).
      assert (E : contents s1 a = stores w n) by apply (r_old _ _ _ R1 _ _ M). cbn [fst snd]. rewrite E.
      change attributes with [u "store"; u "copy"; u "clear"; u "_context"]. rewrite (proj2 (smem_not_In _ _) C). split; [reflexivity|]. exists m1. eapply unchanged; eassumption.
    + assert (CR := current_related m s w t R). rewrite H in CR. unfold get_or_create. destruct (current s t); [|destruct CR|destruct CR]. split; [reflexivity|]. exists m. exact R.
  - destruct (here w t) as [n|] eqn:H.
    + destruct (created m s w t n R H) as (a & s1 & m1 & -> & M & R1 & _).
      assert (E : contents s1 a = stores w n) by apply (r_old _ _ _ R1 _ _ M). cbn [fst snd]. rewrite E. split; [reflexivity|]. exists m1. eapply unchanged; eassumption.
    + assert (CR := current_related m s w t R). rewrite H in CR. unfold get_or_create. destruct (current s t); [|destruct CR|destruct CR]. split; [reflexivity|]. exists m. exact R.
  - destruct (here w t) as [n|] eqn:H.
    + destruct (created m s w t n R H) as (a & s1 & m1 & -> & M & R1 & _).
      assert (E : contents s1 a = stores w n) by apply (r_old _ _ _ R1 _ _ M). rewrite E. destruct (dget k (stores w n)) as [v|]; cbn [fst snd]; (split; [reflexivity|]); exists m1; [apply changed; assumption | eapply unchanged; eassumption].
    + assert (CR := current_related m s w t R). rewrite H in CR. unfold get_or_create. destruct (current s t); [|destruct CR|destruct CR]. split; [reflexivity|]. exists m. exact R.
  - destruct (here w t) as [n|] eqn:H.
    + destruct (created m s w t n R H) as (a & s1 & m1 & -> & M & R1 & _).
      assert (E : contents s1 a = stores w n) by apply (r_old _ _ _ R1 _ _ M). cbn [fst snd]. rewrite E. split; [reflexivity|]. exists m1. eapply unchanged; eassumption.
    + assert (CR := current_related m s w t R). rewrite H in CR. unfold get_or_create. destruct (current s t); [|destruct CR|destruct CR]. split; [reflexivity|]. exists m. exact R.
Qed.
Lemma at_start : refines (fun _ => None) (@initial V) nothing.
Proof. split; cbn; try discriminate; try lia; auto. Qed.
End Refine.

(** Proved for programs that take care: for any number of tasks, requests and child applications, in any order. *)
Theorem C123_partial : forall V (es : list (event V)), careful nothing es -> run initial es = spec_run nothing es.
Proof.
  intros V es. assert (G : forall es m (s : state V) w, refines m s w -> careful w es -> run s es = spec_run w es).
  { clear es. induction es as [|e es IH]; intros m s w R C; [reflexivity|]. destruct C as [C1 C]. destruct (one_step m s w e R C1) as (O & m' & R'). cbn [run spec_run]. f_equal; [exact O | eapply IH; eassumption]. }
  intros C. eapply G; [apply at_start | exact C].
Qed.
Print Assumptions C123_partial.
Definition busy : list (event nat) :=
  [Spawn 0 1; Spawn 0 2; Read 2 (u "x"); Enter 1 None; Enter 2 (Some (New [(u "x", 7)])); Write 1 (u "x") 1; Spawn 1 3; Enter 1 None; Read 1 (u "x"); Write 3 (u "y") 2; Leave 1; Read 1 (u "y"); Read 2 (u "x"); Delete 1 (u "x"); Size 3; Leave 1; Item 1 (u "y")].
Example C123_case : careful nothing busy /\ spec_run nothing busy =
  [Done; Done; LookupErr; Done; Done; Done; Done; Done; AttributeErr; Done; Done; Value 2; Value 7; Done; Count 1; Done; LookupErr].
Proof. split; [|reflexivity]. cbn. intuition discriminate. Qed.
