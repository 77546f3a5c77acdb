From Coq Require Import List Arith Lia Bool Permutation.
Import ListNotations.
From Verif Require Import ScopeModel ScopeSpec.

Lemma ssize_app a b : ssize (a ++ b) = ssize a + ssize b.
Proof. induction a as [|c a IH]; [reflexivity|]. cbn [app ssize fold_right]. fold (ssize (a ++ b)) (ssize a). lia. Qed.
Lemma ssize_rev a : ssize (rev a) = ssize a.
Proof. induction a as [|c a IH]; [reflexivity|]. cbn [rev]. rewrite ssize_app, IH. cbn [ssize fold_right]. fold (ssize a). lia. Qed.

(** ** PureScope *)
Lemma aclose_total fuel stack : ssize stack < fuel -> aclose fuel stack <> None.
Proof.
  revert stack. induction fuel as [|f IH]; intros stack L; [lia|]. destruct stack as [|[i adds e] rest]; [discriminate|].
  cbn [ssize fold_right csize] in L. fold (ssize adds) (ssize rest) in L. cbn [aclose].
  assert (X : aclose f (rev adds ++ rest) <> None) by (apply IH; rewrite ssize_app, ssize_rev; lia).
  destruct e; try discriminate; destruct (aclose f (rev adds ++ rest)) as [((a & b) & c)|]; (discriminate || congruence).
Qed.

Lemma concat_perm {A} (l l' : list (list A)) : Permutation l l' -> Permutation (concat l) (concat l').
Proof.
  intros P. induction P; cbn [concat]; [constructor | apply Permutation_app_head; assumption | | eapply Permutation_trans; eassumption].
  rewrite !app_assoc. apply Permutation_app_tail. apply Permutation_app_comm.
Qed.

Lemma ids_push adds rest : Permutation (concat (map all_ids (rev adds ++ rest))) (concat (map all_ids adds) ++ concat (map all_ids rest)).
Proof.
  rewrite map_app, concat_app. apply Permutation_app_tail. apply concat_perm. apply Permutation_map. apply Permutation_sym, Permutation_rev.
Qed.

Lemma aclose_perm fuel stack log kept x : aclose fuel stack = Some (log, kept, x) ->
  Permutation (log ++ concat (map all_ids kept)) (concat (map all_ids stack)) /\ (x = false -> kept = []).
Proof.
  revert stack log kept x. induction fuel as [|f IH]; intros stack log kept x; [discriminate|]. destruct stack as [|[i adds e] rest]; cbn [aclose].
  - injection 1 as <- <- <-. split; [constructor | reflexivity].
  - assert (G : match aclose f (rev adds ++ rest) with Some (log0, kept0, x0) => Some (i :: log0, kept0, x0) | None => None end = Some (log, kept, x) ->
      Permutation (log ++ concat (map all_ids kept)) (concat (map all_ids (Cleanup i adds e :: rest))) /\ (x = false -> kept = [])).
    { destruct (aclose f (rev adds ++ rest)) as [((a & b) & c)|] eqn:E; [|discriminate]. injection 1 as <- <- <-. destruct (IH _ _ _ _ E) as (P & K). split; [|exact K].
      cbn [map concat all_ids app]. constructor. eapply Permutation_trans; [exact P|]. apply ids_push. }
    destruct e; [exact G | exact G |]. injection 1 as <- <- <-. split; [|discriminate]. cbn [map concat all_ids app]. constructor. apply ids_push.
Qed.

Lemma aclose_lifo fuel stack : ssize stack < fuel -> forallb (never is_cancelled) stack = true ->
  aclose fuel stack = Some (concat (map lifo stack), [], false).
Proof.
  revert stack. induction fuel as [|f IH]; intros stack L N; [lia|]. destruct stack as [|[i adds e] rest]; [reflexivity|].
  cbn [ssize fold_right csize] in L. fold (ssize adds) (ssize rest) in L. cbn [forallb never] in N. rewrite !andb_true_iff in N. destruct N as ((N1 & N2) & N3).
  cbn [aclose]. assert (X : aclose f (rev adds ++ rest) = Some (concat (map lifo (rev adds ++ rest)), [], false)).
  { apply IH; [rewrite ssize_app, ssize_rev; lia|]. rewrite forallb_app, N3, andb_true_r. rewrite forallb_forall in N2 |- *. intros c Hc. apply N2. apply in_rev. exact Hc. }
  rewrite X. cbn [map concat lifo]. rewrite map_app, concat_app, map_rev. destruct e; [reflexivity | reflexivity | discriminate N1].
Qed.

Lemma adds_stack cs s : fold_left pstep (map PAdd cs) s = (rev cs ++ fst s, snd s).
Proof.
  revert s. induction cs as [|c cs IH]; intros s; [destruct s; reflexivity|]. cbn [map fold_left pstep rev]. rewrite IH. cbn [fst snd]. rewrite <- app_assoc. reflexivity.
Qed.

Lemma prun_perm ops : Permutation (snd (prun ops) ++ concat (map all_ids (fst (prun ops)))) (concat (map all_ids (added ops))).
Proof.
  induction ops as [|o ops IH] using rev_ind; [constructor|]. unfold prun, added in *. rewrite fold_left_app, flat_map_app, map_app, concat_app. cbn [fold_left flat_map].
  destruct (fold_left pstep ops ([], [])) as (st & lg). cbn [fst snd] in IH. destruct o as [c|]; cbn [pstep fst snd].
  - cbn [map concat app]. rewrite app_nil_r. eapply Permutation_trans; [apply Permutation_app_head, Permutation_app_comm|]. rewrite app_assoc. apply Permutation_app_tail. exact IH.
  - unfold pclose. destruct (aclose (S (ssize st)) st) as [((a & b) & c)|] eqn:E.
    + cbn [fst snd map concat app]. rewrite app_nil_r. apply aclose_perm in E. destruct E as (P & _). rewrite <- app_assoc.
      eapply Permutation_trans; [apply Permutation_app_head, P | exact IH].
    + cbn [fst snd map concat]. rewrite app_nil_r. exact IH.
Qed.

(** ** Requests *)
Lemma rclose_fine fuel queue : ssize queue < fuel -> forallb (never is_error) queue = true ->
  exists log more, rclose fuel queue = Some (log, more, false) /\ Permutation log (concat (map all_ids queue)) /\ (exists l, log = map cid queue ++ l)
    /\ Permutation (map cid queue ++ map cid more) log.
Proof.
  revert queue. induction fuel as [|f IH]; intros queue L N; [lia|]. destruct queue as [|[i adds e] rest].
  - exists [], []. split; [reflexivity|]. split; [constructor|]. split; [exists []; reflexivity | constructor].
  - cbn [ssize fold_right csize] in L. fold (ssize adds) (ssize rest) in L. cbn [forallb never] in N. rewrite !andb_true_iff in N. destruct N as ((N1 & N2) & N3).
    destruct (IH (rest ++ adds)) as (log & more & E & P & (l & F) & Q); [rewrite ssize_app; lia | rewrite forallb_app, N2, N3; reflexivity|].
    exists (i :: log), (adds ++ more). cbn [rclose]. destruct e; [|discriminate N1|discriminate N1]. rewrite E. split; [reflexivity|]. split; [|split].
    + cbn [map concat all_ids app]. constructor. eapply Permutation_trans; [exact P|]. rewrite map_app, concat_app. apply Permutation_app_comm.
    + exists (map cid adds ++ l). cbn [map cid app]. f_equal. rewrite F, map_app, <- app_assoc. reflexivity.
    + cbn [map cid app]. constructor. rewrite map_app, app_assoc, <- map_app. exact Q.
Qed.

(** ** Generators *)
Lemma setups n : flat_map (fun r : nat * (gstate * list gevent) => snd (snd r)) (map (fun i => (i, handle_provide i)) (seq 0 n)) = map Setup (seq 0 n).
Proof. generalize 0. induction n as [|n IH]; intros s; [reflexivity|]. cbn [seq map flat_map handle_provide gnext snd fst app]. f_equal. apply IH. Qed.
Lemma teardowns n : flat_map (fun r : nat * (gstate * list gevent) => snd (gclose (fst r) (fst (snd r)))) (map (fun i => (i, handle_provide i)) (seq 0 n)) = map Teardown (seq 0 n).
Proof. generalize 0. induction n as [|n IH]; intros s; [reflexivity|]. cbn [seq map flat_map handle_provide gnext gclose snd fst app]. f_equal. apply IH. Qed.

Lemma websocket_ok n : used_while_open n (websocket_program n).
Proof.
  unfold websocket_program. rewrite setups, teardowns. exists (map Setup (seq 0 n)), (map Teardown (seq 0 n)). split; [reflexivity|]. split.
  - intros i L. split; [apply in_map, in_seq; lia|]. split; [|apply in_map, in_seq; lia]. rewrite in_map_iff. intros (x & E & _). discriminate E.
  - assert (D : forall (f : nat -> gevent) l, (forall a b, f a = f b -> a = b) -> NoDup l -> NoDup (map f l)) by (intros f l; apply FinFun.Injective_map_NoDup).
    apply NoDup_Add with (a := Use) (l := map Setup (seq 0 n) ++ map Teardown (seq 0 n)); [apply Add_app|]. split.
    + assert (A : forall l, NoDup (map Setup (seq 0 n)) -> NoDup l -> (forall x, In x (map Setup (seq 0 n)) -> ~ In x l) -> NoDup (map Setup (seq 0 n) ++ l)).
      { clear. intros l. generalize (map Setup (seq 0 n)). induction l0 as [|a l0 IH]; [intros; assumption|]. intros N1 N2 X. inversion N1; subst. cbn. constructor.
        - rewrite in_app_iff. intros [H|H]; [contradiction | exact (X a (or_introl eq_refl) H)].
        - apply IH; [assumption | assumption | intros x Hx; apply X; right; exact Hx]. }
      apply A; [apply D; [intros a b H; injection H; auto | apply seq_NoDup] | apply D; [intros a b H; injection H; auto | apply seq_NoDup] |].
      intros x Hx Hy. apply in_map_iff in Hx. apply in_map_iff in Hy. destruct Hx as (a & <- & _). destruct Hy as (b & H & _). discriminate H.
    + rewrite in_app_iff, !in_map_iff. intros [(x & H & _)|(x & H & _)]; discriminate H.
Qed.

(** ** ScopeManager *)
Lemma skey_eqb_eq a b : skey_eqb a b = true <-> a = b.
Proof.
  destruct a as (s & n), b as (t & m). unfold skey_eqb. cbn [fst snd]. rewrite andb_true_iff, Nat.eqb_eq.
  split; [intros (H & ->); destruct s, t; (discriminate H || reflexivity) | intros H; injection H as -> ->; split; [destruct t; reflexivity | reflexivity]].
Qed.
Lemma scope_eqb_eq a b : scope_eqb a b = true <-> a = b.
Proof. destruct a, b; cbn; split; (reflexivity || discriminate). Qed.

Lemma lookup_cons k k' v d : lookup k ((k', v) :: d) = if skey_eqb k k' then Some v else lookup k d.
Proof. reflexivity. Qed.
Lemma lookup_filter k s d : lookup k (filter (fun e => negb (scope_eqb (fst (fst e)) s)) d) = if scope_eqb (fst k) s then None else lookup k d.
Proof.
  induction d as [|(k', v) d IH]; [destruct (scope_eqb _ _); reflexivity|]. cbn [filter fst]. destruct (scope_eqb (fst k') s) eqn:E; cbn [negb].
  - rewrite IH. rewrite lookup_cons. destruct (skey_eqb k k') eqn:K; [|reflexivity]. apply skey_eqb_eq in K. subst k'. rewrite E. reflexivity.
  - rewrite !lookup_cons, IH. destruct (skey_eqb k k') eqn:K; [|reflexivity]. apply skey_eqb_eq in K. subst k'. rewrite E. reflexivity.
Qed.

Lemma nth_update {A} i j (x : A) l : nth_error (update i x l) j = if Nat.eqb i j then match nth_error l i with Some _ => Some x | None => None end else nth_error l j.
Proof.
  revert j l. induction i as [|i IH]; intros j l; destruct l as [|y l]; cbn [update].
  - destruct j; reflexivity.
  - destruct j; reflexivity.
  - destruct (Nat.eqb_spec (S i) j) as [<-|]; [reflexivity|]. reflexivity.
  - destruct j as [|j]; [reflexivity|]. cbn [nth_error Nat.eqb]. apply IH.
Qed.

Lemma snoc_split {A} (l : list A) e l1 x l2 : l ++ [e] = l1 ++ x :: l2 ->
  (l2 = [] /\ e = x /\ l1 = l) \/ exists r, l2 = r ++ [e] /\ l = l1 ++ x :: r.
Proof.
  intros H. destruct l2 as [|y l2] using rev_ind.
  - left. apply app_inj_tail in H. destruct H as (-> & ->). split; [reflexivity | split; reflexivity].
  - right. clear IHl2. change (x :: l2 ++ [y]) with ((x :: l2) ++ [y]) in H. rewrite app_assoc in H. apply app_inj_tail in H. destruct H as (-> & ->).
    exists l2. split; reflexivity.
Qed.

Record own (m : manager) : Prop := {
  own_inst : forall k v, lookup k (instances m) = Some v -> In (Made k v) (log m);
  own_task : forall i k v, nth_error (tasks m) i = Some (TMaking k v) -> In (Made k v) (log m);
  own_got : forall k v, In (Got k v) (log m) -> In (Made k v) (log m) }.

Lemma own_step m a : own m -> own (sstep m a).
Proof.
  intros [I T G]. destruct a as [i|s]; cbn [sstep].
  - destruct (nth_error (tasks m) i) as [[k|k v|]|] eqn:E; [| |split; assumption|split; assumption].
    + assert (MK : own {| instances := instances m; tasks := update i (TMaking k (next m)) (tasks m); next := S (next m); log := log m ++ [Made k (next m)] |}).
      { split; cbn [instances tasks log].
        - intros k' v' H. apply in_or_app. left. apply I. exact H.
        - intros j k' v'. rewrite nth_update, E. destruct (Nat.eqb i j); [intros H; injection H as <- <-; apply in_or_app; right; left; reflexivity | intros H; apply in_or_app; left; eapply T; exact H].
        - intros k' v' H. apply in_app_iff in H. destruct H as [H|[H|[]]]; [apply in_or_app; left; apply G; exact H | discriminate H]. }
      destruct (scope_eqb (fst k) SRequest); [exact MK|]. destruct (lookup k (instances m)) as [v|] eqn:L; [|exact MK]. split; cbn [instances tasks log].
      * intros k' v' H. apply in_or_app. left. apply I. exact H.
      * intros j k' v'. rewrite nth_update, E. destruct (Nat.eqb i j); [discriminate | intros H; apply in_or_app; left; eapply T; exact H].
      * intros k' v' H. apply in_or_app. left. apply in_app_iff in H. destruct H as [H|[H|[]]]; [apply G; exact H | injection H as <- <-; apply I; exact L].
    + split; cbn [instances tasks log].
      * intros k' v' H. apply in_or_app. left. destruct (scope_eqb (fst k) SRequest); [apply I; exact H|]. rewrite lookup_cons in H.
        destruct (skey_eqb k' k) eqn:K; [|apply I; exact H]. apply skey_eqb_eq in K. subst k'. injection H as <-. eapply T. exact E.
      * intros j k' v'. rewrite nth_update, E. destruct (Nat.eqb i j); [discriminate | intros H; apply in_or_app; left; eapply T; exact H].
      * intros k' v' H. apply in_or_app. left. apply in_app_iff in H. destruct H as [H|[H|[]]]; [apply G; exact H | injection H as <- <-; eapply T; exact E].
  - split; cbn [instances tasks log].
    + intros k v H. apply in_or_app. left. apply I. destruct s as [s|]; [|discriminate H]. rewrite lookup_filter in H. destruct (scope_eqb (fst k) s); [discriminate | exact H].
    + intros i k v H. apply in_or_app. left. eapply T. exact H.
    + intros k v H. apply in_or_app. left. apply in_app_iff in H. destruct H as [H|[H|[]]]; [apply G; exact H | discriminate H].
Qed.

Lemma own_fresh calls : own (fresh calls).
Proof.
  split; cbn [fresh instances tasks log]; [discriminate | | intros k v []]. intros i k v H. apply nth_error_In in H. apply in_map_iff in H. destruct H as (x & H & _). discriminate H.
Qed.
Lemma own_run calls acts : own (srun calls acts).
Proof.
  unfold srun. generalize (own_fresh calls). generalize (fresh calls). induction acts as [|a acts IH]; intros m H; [exact H|]. cbn [fold_left]. apply IH. apply own_step. exact H.
Qed.

Definition quiet (k : skey) (l : list event) : Prop := forall e, In e l -> ~ clears k e.
Record once (m : manager) : Prop := {
  once_got : forall k v l1 l2, fst k <> SRequest -> log m = l1 ++ Got k v :: l2 -> quiet k l2 -> lookup k (instances m) = Some v;
  once_made : forall k v l1 l2, fst k <> SRequest -> log m = l1 ++ Made k v :: l2 -> quiet k l2 ->
    lookup k (instances m) = Some v \/ exists i, nth_error (tasks m) i = Some (TMaking k v);
  once_wait : forall i k v, fst k <> SRequest -> nth_error (tasks m) i = Some (TMaking k v) -> lookup k (instances m) = None;
  once_same : forall k v w l1 l2 l3, fst k <> SRequest -> log m = l1 ++ Got k v :: l2 ++ Got k w :: l3 -> quiet k l2 -> v = w;
  once_one : forall k v w l1 l2 l3, fst k <> SRequest -> log m = l1 ++ Made k v :: l2 ++ Made k w :: l3 -> quiet k l2 -> False }.

Lemma quiet_snoc k l e : quiet k (l ++ [e]) -> quiet k l.
Proof. intros H x Hx. apply H. apply in_or_app. left. exact Hx. Qed.

Lemma not_request (k : skey) : scope_eqb (fst k) SRequest = false <-> fst k <> SRequest.
Proof. rewrite <- scope_eqb_eq. destruct (scope_eqb (fst k) SRequest); split; congruence. Qed.

Lemma pair_split {A} (l : list A) e l1 x l2 y l3 : l ++ [e] = l1 ++ x :: l2 ++ y :: l3 ->
  (l3 = [] /\ e = y /\ l = l1 ++ x :: l2) \/ exists r, l = l1 ++ x :: l2 ++ y :: r.
Proof.
  intros H. change (x :: l2 ++ y :: l3) with ((x :: l2) ++ y :: l3) in H. rewrite app_assoc in H. apply snoc_split in H. destruct H as [(A1 & B & C)|(r & _ & C)].
  - left. split; [exact A1|]. split; [exact B|]. symmetry. exact C.
  - right. exists r. rewrite C, <- app_assoc. reflexivity.
Qed.

Lemma once_step m a : once m -> ~ overlapping m -> ~ overlapping (sstep m a) -> once (sstep m a).
Proof.
  intros H NO NO'. destruct a as [i|s].
  - cbn [sstep] in *. destruct (nth_error (tasks m) i) as [[k|k v|]|] eqn:E; [| |exact H|exact H].
    + assert (MK : (scope_eqb (fst k) SRequest = true \/ lookup k (instances m) = None) ->
        ~ overlapping {| instances := instances m; tasks := update i (TMaking k (next m)) (tasks m); next := S (next m); log := log m ++ [Made k (next m)] |} ->
        once {| instances := instances m; tasks := update i (TMaking k (next m)) (tasks m); next := S (next m); log := log m ++ [Made k (next m)] |}).
      { intros L NOV. destruct H as [HG HM HW HS HO]. split; cbn [instances tasks log].
        - intros k' v' l1 l2 R D Q. apply snoc_split in D. destruct D as [(_ & D & _)|(r & -> & D)]; [discriminate D|]. eapply HG; [exact R | exact D | eapply quiet_snoc; exact Q].
        - intros k' v' l1 l2 R D Q. apply snoc_split in D. destruct D as [(_ & D & _)|(r & -> & D)].
          + injection D as <- <-. right. exists i. rewrite nth_update, Nat.eqb_refl, E. reflexivity.
          + destruct (HM k' v' l1 r R D (quiet_snoc _ _ _ Q)) as [X|(j & X)]; [left; exact X|]. right. exists j. rewrite nth_update.
            destruct (Nat.eqb_spec i j) as [<-|]; [congruence | exact X].
        - intros j k' v' R X. rewrite nth_update, E in X. destruct (Nat.eqb_spec i j) as [<-|].
          + injection X as <- <-. destruct L as [L|L]; [apply scope_eqb_eq in L; contradiction | exact L].
          + eapply HW; [exact R | exact X].
        - intros k' v' w' l1 l2 l3 R D Q. apply pair_split in D. destruct D as [(_ & D & _)|(r & D)]; [discriminate D|]. eapply HS; [exact R | exact D | exact Q].
        - intros k' v' w' l1 l2 l3 R D Q. apply pair_split in D. destruct D as [(_ & D & D2)|(r & D)]; [|eapply HO; [exact R | exact D | exact Q]].
          injection D as <- <-. destruct (HM k v' l1 l2 R D2 Q) as [X|(j & X)].
          + destruct L as [L|L]; [apply scope_eqb_eq in L; contradiction | congruence].
          + apply NOV. exists i, j, k, (next m), v'. cbn [tasks]. split; [intros <-; congruence|]. rewrite !nth_update, Nat.eqb_refl, E. split; [reflexivity|].
            destruct (Nat.eqb_spec i j) as [<-|]; [congruence | exact X]. }
      destruct (scope_eqb (fst k) SRequest) eqn:SR; [apply MK; [left; reflexivity | exact NO']|].
      destruct (lookup k (instances m)) as [v|] eqn:L; [|apply MK; [right; reflexivity | exact NO']].
      destruct H as [HG HM HW HS HO]. split; cbn [instances tasks log].
      * intros k' v' l1 l2 R D Q. apply snoc_split in D. destruct D as [(_ & D & _)|(r & -> & D)]; [injection D as <- <-; exact L|].
        eapply HG; [exact R | exact D | eapply quiet_snoc; exact Q].
      * intros k' v' l1 l2 R D Q. apply snoc_split in D. destruct D as [(_ & D & _)|(r & -> & D)]; [discriminate D|].
        destruct (HM k' v' l1 r R D (quiet_snoc _ _ _ Q)) as [X|(j & X)]; [left; exact X|]. right. exists j. rewrite nth_update.
        destruct (Nat.eqb_spec i j) as [<-|]; [congruence | exact X].
      * intros j k' v' R X. rewrite nth_update, E in X. destruct (Nat.eqb i j); [discriminate X|]. eapply HW; [exact R | exact X].
      * intros k' v' w' l1 l2 l3 R D Q. apply pair_split in D. destruct D as [(_ & D & D2)|(r & D)]; [|eapply HS; [exact R | exact D | exact Q]].
        injection D as <- <-. pose proof (HG k v' l1 l2 R D2 Q). congruence.
      * intros k' v' w' l1 l2 l3 R D Q. apply pair_split in D. destruct D as [(_ & D & D2)|(r & D)]; [discriminate D|]. eapply HO; [exact R | exact D | exact Q].
    + destruct H as [HG HM HW HS HO]. split; cbn [instances tasks log].
      * intros k' v' l1 l2 R D Q. apply snoc_split in D. destruct D as [(_ & D & _)|(r & -> & D)].
        -- injection D as <- <-. apply not_request in R. rewrite R, lookup_cons. assert (X : skey_eqb k k = true) by (apply skey_eqb_eq; reflexivity). rewrite X. reflexivity.
        -- pose proof (HG k' v' l1 r R D (quiet_snoc _ _ _ Q)) as X. destruct (scope_eqb (fst k) SRequest) eqn:SR; [exact X|]. rewrite lookup_cons.
           destruct (skey_eqb k' k) eqn:K; [|exact X]. apply skey_eqb_eq in K. subst k'. pose proof (HW i k v R E). congruence.
      * intros k' v' l1 l2 R D Q. apply snoc_split in D. destruct D as [(_ & D & _)|(r & -> & D)]; [discriminate D|].
        destruct (scope_eqb (fst k) SRequest) eqn:SR.
        -- destruct (HM k' v' l1 r R D (quiet_snoc _ _ _ Q)) as [X|(j & X)]; [left; exact X|]. right. exists j. rewrite nth_update.
           destruct (Nat.eqb_spec i j) as [<-|]; [|exact X]. rewrite E in X. injection X as -> ->. apply not_request in R. congruence.
        -- rewrite lookup_cons. destruct (HM k' v' l1 r R D (quiet_snoc _ _ _ Q)) as [X|(j & X)].
           ++ destruct (skey_eqb k' k) eqn:K; [|left; exact X]. apply skey_eqb_eq in K. subst k'. pose proof (HW i k v R E). congruence.
           ++ destruct (Nat.eq_dec i j) as [<-|N].
              ** rewrite E in X. injection X as -> ->. left. assert (Y : skey_eqb k' k' = true) by (apply skey_eqb_eq; reflexivity). rewrite Y. reflexivity.
              ** destruct (skey_eqb k' k) eqn:K.
                 --- apply skey_eqb_eq in K. subst k'. exfalso. apply NO. exists i, j, k, v, v'. split; [exact N|]. split; [exact E | exact X].
                 --- right. exists j. rewrite nth_update. destruct (Nat.eqb_spec i j); [contradiction | exact X].
      * intros j k' v' R X. rewrite nth_update, E in X. destruct (Nat.eqb_spec i j) as [<-|N]; [discriminate X|].
        pose proof (HW j k' v' R X) as Y. destruct (scope_eqb (fst k) SRequest); [exact Y|]. rewrite lookup_cons. destruct (skey_eqb k' k) eqn:K; [|exact Y].
        apply skey_eqb_eq in K. subst k'. exfalso. apply NO. exists i, j, k, v, v'. split; [exact N|]. split; [exact E | exact X].
      * intros k' v' w' l1 l2 l3 R D Q. apply pair_split in D. destruct D as [(_ & D & D2)|(r & D)]; [|eapply HS; [exact R | exact D | exact Q]].
        injection D as <- <-. pose proof (HG k v' l1 l2 R D2 Q). pose proof (HW i k v R E). congruence.
      * intros k' v' w' l1 l2 l3 R D Q. apply pair_split in D. destruct D as [(_ & D & D2)|(r & D)]; [discriminate D|]. eapply HO; [exact R | exact D | exact Q].
  - cbn [sstep] in *. destruct H as [HG HM HW HS HO].
    assert (LK : forall k l e, quiet k (l ++ [e]) -> e = Cleared s ->
      lookup k match s with Some s0 => filter (fun e => negb (scope_eqb (fst (fst e)) s0)) (instances m) | None => [] end = lookup k (instances m)).
    { intros k l e Q ->. specialize (Q (Cleared s)). destruct s as [s|].
      - rewrite lookup_filter. destruct (scope_eqb (fst k) s) eqn:X; [|reflexivity]. apply scope_eqb_eq in X. exfalso. apply Q; [apply in_or_app; right; left; reflexivity | right; rewrite X; reflexivity].
      - exfalso. apply Q; [apply in_or_app; right; left; reflexivity | left; reflexivity]. }
    split; cbn [instances tasks log].
    + intros k' v' l1 l2 R D Q. apply snoc_split in D. destruct D as [(_ & D & _)|(r & -> & D)]; [discriminate D|]. rewrite (LK k' r _ Q eq_refl).
      eapply HG; [exact R | exact D | eapply quiet_snoc; exact Q].
    + intros k' v' l1 l2 R D Q. apply snoc_split in D. destruct D as [(_ & D & _)|(r & -> & D)]; [discriminate D|]. rewrite (LK k' r _ Q eq_refl).
      eapply HM; [exact R | exact D | eapply quiet_snoc; exact Q].
    + intros j k' v' R X. pose proof (HW j k' v' R X) as Y. destruct s as [s|]; [|reflexivity]. rewrite lookup_filter, Y. destruct (scope_eqb _ _); reflexivity.
    + intros k' v' w' l1 l2 l3 R D Q. apply pair_split in D. destruct D as [(_ & D & D2)|(r & D)]; [discriminate D|]. eapply HS; [exact R | exact D | exact Q].
    + intros k' v' w' l1 l2 l3 R D Q. apply pair_split in D. destruct D as [(_ & D & D2)|(r & D)]; [discriminate D|]. eapply HO; [exact R | exact D | exact Q].
Qed.

Lemma once_run calls acts : never_overlap calls acts -> once (srun calls acts).
Proof.
  induction acts as [|a acts IH] using rev_ind; intros N.
  - split; cbn; try (intros; match goal with H : [] = ?l ++ _ |- _ => destruct l; discriminate H end). intros i k v _ H. apply nth_error_In in H. apply in_map_iff in H. destruct H as (x & H & _). discriminate H.
  - assert (X : srun calls (acts ++ [a]) = sstep (srun calls acts) a) by (unfold srun; rewrite fold_left_app; reflexivity).
    rewrite X. apply once_step.
    + apply IH. intros pre post D. apply (N pre (post ++ [a])). rewrite D, app_assoc. reflexivity.
    + apply (N acts [a]). reflexivity.
    + rewrite <- X. apply (N (acts ++ [a]) []). symmetry. apply app_nil_r.
Qed.
