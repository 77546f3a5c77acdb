(** Proofs about exception handling. *)
From Verif Require Import PyStr Asgi ExcModel ExcSpec.
From Coq Require Import Lia.

Lemma key_eqb_eq : forall a b, key_eqb a b = true <-> a = b.
Proof.
  intros [x|x] [y|y]; cbn [key_eqb]; split; intros H; try discriminate.
  - apply Z.eqb_eq in H. congruence.
  - injection H as ->. apply Z.eqb_refl.
  - apply PeanoNat.Nat.eqb_eq in H. congruence.
  - injection H as ->. apply PeanoNat.Nat.eqb_refl.
Qed.
Lemma aget_In : forall {V} k (v : V) t, aget key_eqb k t = Some v -> In (k, v) t.
Proof.
  intros V k v t. induction t as [|(k', v') t IH]; cbn [aget]; [discriminate|]. destruct (key_eqb k k') eqn:E; intros H.
  - apply key_eqb_eq in E. left. congruence.
  - right. apply IH. exact H.
Qed.
Lemma aget_of_In : forall {V} k (v : V) t, NoDup (map fst t) -> In (k, v) t -> aget key_eqb k t = Some v.
Proof.
  intros V k v t. induction t as [|(k', v') t IH]; cbn [aget map fst]; intros N []; inversion N as [|? ? N1 N2]; subst.
  - injection H as -> ->. rewrite (proj2 (key_eqb_eq k k) eq_refl). reflexivity.
  - destruct (key_eqb k k') eqn:E; [|apply IH; assumption]. apply key_eqb_eq in E. subst. exfalso. apply N1. apply (in_map fst) in H. exact H.
Qed.
Lemma aget_None : forall {V} k (t : list (key * V)), aget key_eqb k t = None -> forall v, ~ In (k, v) t.
Proof.
  intros V k t. induction t as [|(k', v') t IH]; cbn [aget]; [intros _ v []|]. destruct (key_eqb k k') eqn:E; [discriminate|]. intros H v [X|X].
  - injection X as -> ->. rewrite (proj2 (key_eqb_eq k k) eq_refl) in E. discriminate.
  - apply (IH H v X).
Qed.
Lemma aget_key_None : forall {V} k (t : list (key * V)), ~ In k (map fst t) -> aget key_eqb k t = None.
Proof.
  intros V k t N. destruct (aget key_eqb k t) as [v|] eqn:E; [|reflexivity]. apply aget_In in E. exfalso. apply N. apply (in_map fst) in E. exact E.
Qed.
Section Assoc.
Context {K V : Type} (eqb : K -> K -> bool) (eqb_eq : forall a b, eqb a b = true <-> a = b).
Lemma aget_aset : forall k k' (v : V) d, aget eqb k (aset eqb k' v d) = if eqb k k' then Some v else aget eqb k d.
Proof.
  intros k k' v d. induction d as [|(x, w) d IH]; cbn [aset aget]; [reflexivity|].
  destruct (eqb k' x) eqn:E; cbn [aget].
  - apply eqb_eq in E. subst x. destruct (eqb k k'); reflexivity.
  - rewrite IH. destruct (eqb k x) eqn:F; [|reflexivity]. apply eqb_eq in F. subst x. destruct (eqb k k') eqn:G; [|reflexivity].
    apply eqb_eq in G. subst k'. rewrite (proj2 (eqb_eq k k) eq_refl) in E. discriminate.
Qed.
End Assoc.

Lemma tables_from : forall t ts, NoDup (map fst t) ->
  (forall c, aget Nat.eqb c (fst (fold_left add_handler t ts)) = match aget key_eqb (KClass c) t with Some n => Some (User n) | None => aget Nat.eqb c (fst ts) end) /\
  (forall z, aget Z.eqb z (snd (fold_left add_handler t ts)) = match aget key_eqb (KStatus z) t with Some n => Some (User n) | None => aget Z.eqb z (snd ts) end).
Proof.
  induction t as [|(k, n) t IH]; intros ts N; [split; reflexivity|]. cbn [map fst] in N. inversion N as [|? ? N1 N2]; subst. cbn [fold_left]. destruct (IH (add_handler ts (k, n)) N2) as (A & B). split.
  - intros c. rewrite A. cbn [aget]. destruct k as [z|d]; cbn [add_handler fst snd key_eqb]; [reflexivity|].
    destruct (Nat.eqb c d) eqn:E.
    + apply PeanoNat.Nat.eqb_eq in E. subst d. rewrite aget_key_None by exact N1. rewrite (aget_aset Nat.eqb PeanoNat.Nat.eqb_eq), PeanoNat.Nat.eqb_refl. reflexivity.
    + destruct (aget key_eqb (KClass c) t); [reflexivity|]. rewrite (aget_aset Nat.eqb PeanoNat.Nat.eqb_eq), E. reflexivity.
  - intros c. rewrite B. cbn [aget]. destruct k as [d|z]; cbn [add_handler fst snd key_eqb]; [|reflexivity].
    destruct (Z.eqb c d) eqn:E.
    + apply Z.eqb_eq in E. subst d. rewrite aget_key_None by exact N1. rewrite (aget_aset Z.eqb Z.eqb_eq), Z.eqb_refl. reflexivity.
    + destruct (aget key_eqb (KStatus c) t); [reflexivity|]. rewrite (aget_aset Z.eqb Z.eqb_eq), E. reflexivity.
Qed.
Lemma class_lookup : forall t c h, NoDup (map fst t) -> aget Nat.eqb c (fst (tables t)) = Some h <-> handles_class t c h.
Proof.
  intros t c h N. unfold tables. rewrite (proj1 (tables_from t _ N) c). cbn [fst aget].
  destruct (aget key_eqb (KClass c) t) as [n|] eqn:E.
  - split; [intros X; injection X as <-; apply hc_user, aget_In, E|]. apply aget_In in E. intros X. inversion X as [n' H|H H'|H H']; subst; [|exfalso; apply (H' n E)|exfalso; apply (H' n E)].
    apply (aget_of_In _ _ _ N) in E. apply (aget_of_In _ _ _ N) in H. congruence.
  - pose proof (aget_None _ _ E) as E'. split.
    + destruct (Nat.eqb c cHTTP) eqn:C; [apply PeanoNat.Nat.eqb_eq in C; intros X; injection X as <-; apply hc_http; assumption|].
      destruct (Nat.eqb c cWS) eqn:D; [apply PeanoNat.Nat.eqb_eq in D; intros X; injection X as <-; apply hc_ws; assumption | discriminate].
    + intros X. inversion X as [n' H|H H'|H H']; subst; [exfalso; apply (E' _ H) | reflexivity | reflexivity].
Qed.
Lemma status_lookup : forall t z h, NoDup (map fst t) -> aget Z.eqb z (snd (tables t)) = Some h <-> exists n, h = User n /\ In (KStatus z, n) t.
Proof.
  intros t z h N. unfold tables. rewrite (proj2 (tables_from t _ N) z). cbn [snd aget].
  destruct (aget key_eqb (KStatus z) t) as [n|] eqn:E.
  - apply aget_In in E as E'. split; [intros X; injection X as <-; exists n; auto|]. intros (n' & -> & H). apply (aget_of_In _ _ _ N) in H. congruence.
  - split; [discriminate|]. intros (n & _ & H). exfalso. apply (aget_None _ _ E n H).
Qed.
Lemma status_of_fun : forall e z, status_of e z <-> z = status_or_500 e.
Proof.
  intros e z. unfold status_or_500. split.
  - intros [z' E N|E|[E|E]]; rewrite E; try reflexivity. apply Z.eqb_neq in N. rewrite N. reflexivity.
  - intros ->. destruct (e_status e) as [| |x] eqn:E; [apply so_none; auto | apply so_none; auto |].
    destruct (Z.eqb x 0) eqn:X; [apply Z.eqb_eq in X; subst; apply so_zero; exact E | apply so_number; [exact E | apply Z.eqb_neq; exact X]].
Qed.
Lemma is_http_In : forall e, is_http e = true <-> In cHTTP (e_mro e).
Proof.
  intros e. unfold is_http. rewrite existsb_exists. split.
  - intros (x & H & E). apply PeanoNat.Nat.eqb_eq in E. subst. exact H.
  - intros H. exists cHTTP. split; [exact H | reflexivity].
Qed.
Lemma by_class_spec : forall t, NoDup (map fst t) -> forall mro,
  match by_class (fst (tables t)) mro with
  | Some h => exists before c after, mro = before ++ c :: after /\ (forall c' h', In c' before -> ~ handles_class t c' h') /\ handles_class t c h
  | None => forall c h, In c mro -> ~ handles_class t c h
  end.
Proof.
  intros t N mro. induction mro as [|c mro IH]; cbn [by_class]; [intros c h []|]. destruct (aget Nat.eqb c (fst (tables t))) as [h|] eqn:E.
  - exists [], c, mro. split; [reflexivity|]. split; [intros c' h' []|]. apply class_lookup; assumption.
  - assert (NC : forall h, ~ handles_class t c h) by (intros h H; apply class_lookup in H; [congruence | exact N]).
    destruct (by_class (fst (tables t)) mro) as [h|].
    + destruct IH as (b & c' & a & -> & A & B). exists (c :: b), c', a. split; [reflexivity|]. split; [|exact B]. intros x h' [<-|X]; [apply NC | apply A; exact X].
    + intros x h [<-|X]; [apply NC | apply IH; exact X].
Qed.
Lemma lookup_chosen : forall t e h, NoDup (map fst t) -> lookup (tables t) e = Some h <-> chosen t e h.
Proof.
  intros t e h N. unfold lookup.
  assert (BS : forall n, (if is_http e then aget Z.eqb (status_or_500 e) (snd (tables t)) else None) = Some (User n) <-> by_status t e n).
  { intros n. destruct (is_http e) eqn:H.
    - rewrite status_lookup by exact N. split.
      + intros (m & E & I). injection E as ->. split; [apply is_http_In; exact H|]. exists (status_or_500 e). split; [apply status_of_fun; reflexivity | exact I].
      + intros (_ & z & S & I). apply status_of_fun in S. subst z. exists n. auto.
    - split; [discriminate|]. intros (I & _). apply is_http_In in I. congruence. }
  destruct (if is_http e then _ else None) as [g|] eqn:G.
  - assert (exists n, g = User n) as (n & ->).
    { destruct (is_http e); [|discriminate]. apply status_lookup in G; [|exact N]. destruct G as (n & -> & _). exists n. reflexivity. }
    pose proof (proj1 (BS n) eq_refl) as B. split.
    + intros X. injection X as <-. apply ch_status. exact B.
    + intros [m M|b c a h' NB]; [|exfalso; apply (NB n B)]. apply BS in M. congruence.
  - assert (NB : forall n, ~ by_status t e n) by (intros n B; apply BS in B; discriminate).
    pose proof (by_class_spec t N (e_mro e)) as C. destruct (by_class (fst (tables t)) (e_mro e)) as [g|].
    + destruct C as (b & c & a & E & A & B). split.
      * intros X. injection X as <-. apply (ch_class t e b c a g); assumption.
      * intros [n H|b' c' a' h' _ E' A' B']; [exfalso; apply (NB n H)|].
        assert (b = b' /\ c = c').
        { rewrite E in E'. clear -E' A B A' B'. revert b' E' A'. induction b as [|x b IH]; intros [|y b'] E' A'; cbn [app] in E'.
          - injection E' as <- _. auto.
          - injection E' as <- _. exfalso. apply (A' c g (or_introl eq_refl) B).
          - injection E' as -> _. exfalso. apply (A c' h' (or_introl eq_refl) B').
          - injection E' as -> E'. destruct (IH (fun c' h' I => A c' h' (or_intror I)) b' E' (fun c' h' I => A' c' h' (or_intror I))) as (-> & ->). auto. }
        destruct H as (_ & ->). apply class_lookup in B, B'; try exact N. congruence.
    + split; [discriminate|]. intros [n H|b c a h' _ E A B]; [exfalso; apply (NB n H)|]. exfalso. apply (C c h'); [rewrite E; apply in_elt | exact B].
Qed.
Lemma lookup_none : forall t e, NoDup (map fst t) -> lookup (tables t) e = None <-> forall h, ~ chosen t e h.
Proof.
  intros t e N. split.
  - intros E h H. apply lookup_chosen in H; [congruence | exact N].
  - intros H. destruct (lookup (tables t) e) as [h|] eqn:E; [|reflexivity]. apply lookup_chosen in E; [|exact N]. exfalso. apply (H h E).
Qed.

Lemma started_iff : forall ms, started ms = true <-> has_started ms.
Proof.
  intros ms. unfold started, has_started. rewrite existsb_exists. split.
  - intros ([st h|b m] & I & E); [exists st, h; exact I | discriminate].
  - intros (st & h & I). exists (AStart st h). auto.
Qed.
Lemma not_started : forall ms, started ms = false <-> starts ms = 0.
Proof.
  intros ms. unfold started, starts. induction ms as [|[st h|b m] ms IH]; cbn [existsb filter is_start length].
  - split; reflexivity.
  - split; discriminate.
  - exact IH.
Qed.
Lemma starts_app : forall a b, starts (a ++ b) = starts a + starts b.
Proof. intros a b. unfold starts. rewrite filter_app, app_length. reflexivity. Qed.

Lemma other_nodup : forall t, NoDup (map fst t) -> NoDup (map fst (other_handlers t)).
Proof.
  intros t. unfold other_handlers. induction t as [|(k, n) t IH]; cbn [filter map fst]; intros N; [constructor|]. inversion N as [|? ? N1 N2]; subst.
  destruct (negb _); [|apply IH; exact N2]. cbn [map fst]. constructor; [|apply IH; exact N2]. intros X. apply N1. apply in_map_iff in X. destruct X as ((k', n') & E & I). apply filter_In in I. apply in_map_iff. exists (k', n'). split; [exact E | apply I].
Qed.
Lemma other_same : forall t, ~ In (KStatus 500) (map fst t) -> ~ In (KClass cException) (map fst t) -> other_handlers t = t /\ error_handler t = None.
Proof.
  intros t A B. split.
  - unfold other_handlers. induction t as [|(k, n) t IH]; [reflexivity|]. cbn [filter map fst In] in *.
    assert (k <> KStatus 500) by (intros ->; apply A; auto). assert (k <> KClass cException) by (intros ->; apply B; auto).
    destruct (key_eqb k (KStatus 500)) eqn:E; [apply key_eqb_eq in E; contradiction|]. destruct (key_eqb k (KClass cException)) eqn:F; [apply key_eqb_eq in F; contradiction|].
    cbn [orb negb]. rewrite IH; [reflexivity | intros X; apply A; auto | intros X; apply B; auto].
  - unfold error_handler. rewrite !aget_key_None by assumption. reflexivity.
Qed.

(** One response. *)
Lemma act_one : forall en h e, sober en -> fits e ->
  match act en h e with Gives ms o => one_response ms /\ (forall e', o = Some e' -> fits e') | Raises e' => fits e' end.
Proof.
  intros en [n| |] e (S & P) R; cbn [act]; [apply S; exact R | | exact P]. unfold http_default. unfold fits in R. destruct (e_response e) as [r|].
  - split; [exact R | intros e' X; discriminate X].
  - destruct (match e_status e with Has z => _ | _ => _ end); (split; [unfold one_response, starts; cbn; lia | intros e' X; discriminate X]).
Qed.
Definition run_ok (r : run) : Prop := one_response (fst r) /\ forall e, snd r = Some e -> fits e.
Lemma respond_one : forall ms r, started ms = false ->
  match r with Gives m o => one_response m /\ (forall e', o = Some e' -> fits e') | Raises e' => fits e' end -> run_ok (respond ms r).
Proof.
  intros ms [m o|e] S R; cbn [respond]; split; cbn [fst snd]; apply not_started in S.
  - unfold one_response. rewrite starts_app, S. apply R.
  - apply R.
  - unfold one_response. lia.
  - intros e' E. injection E as <-. exact R.
Qed.
Lemma exception_ok : forall en t r, sober en -> run_ok r -> run_ok (exception_middleware en t r).
Proof.
  intros en t (ms & [e|]) S (A & B); cbn [exception_middleware]; [|split; assumption]. destruct (lookup (tables t) e) as [h|]; [|split; assumption].
  destruct (started ms) eqn:ST; [split; assumption|]. apply respond_one; [exact ST|]. apply act_one; [exact S | apply B; reflexivity].
Qed.
Lemma wrapper_ok : forall en t eh r, sober en -> run_ok r -> run_ok (endpoint_wrapper en t eh r).
Proof.
  intros en t eh (ms & [e|]) S (A & B); cbn [endpoint_wrapper]; [|split; assumption]. cbn [fst snd] in *. specialize (B e eq_refl).
  assert (K : run_ok (ms, Some e)) by (split; [exact A | intros e' E; injection E as <-; exact B]).
  destruct (lookup (tables t) e) as [h|].
  - pose proof (act_one en h e S B) as H. destruct (started ms) eqn:ST; [|apply respond_one; assumption].
    destruct (act en h e) as [m o|e']; [exact K|]. split; [exact A | intros x E; injection E as <-; exact H].
  - destruct (started ms); [|exact K]. destruct eh as [n|]; [|exact K]. pose proof (act_one en (User n) e S B) as H. cbn [act] in H. destruct (acts en n e) as [m o|e']; [exact K|]. split; [exact A | intros x E; injection E as <-; exact H].
Qed.
Lemma lilya_ok : forall en t r, sober en -> run_ok r -> run_ok (lilya_middleware en t r).
Proof.
  intros en t (ms & [e|]) S (A & B); cbn [lilya_middleware]; [|split; assumption]. cbn [fst snd] in *. specialize (B e eq_refl).
  destruct (started ms) eqn:ST; [split; [exact A | intros x E; injection E as <-; exact B]|].
  match goal with |- run_ok (match ?x with Some _ => _ | None => _ end) => destruct x as [n|] end.
  - destruct (coroutine en n); [apply respond_one; [exact ST | apply (act_one en (User n) e S B)] | split; [exact A | intros x E; injection E as <-; apply S]].
  - split; cbn [fst snd]; [|discriminate]. unfold one_response. rewrite starts_app. apply not_started in ST. rewrite ST. cbn. lia.
Qed.
Lemma server_ok : forall en d eh r, sober en -> run_ok r -> run_ok (server_error en d eh r).
Proof.
  intros en d eh (ms & [e|]) S (A & B); cbn [server_error]; [|split; assumption]. cbn [fst snd] in *. specialize (B e eq_refl).
  set (made := match d, eh with true, _ => _ | _, _ => _ end).
  assert (H : match made with Gives m o => one_response m /\ (forall e', o = Some e' -> fits e') | Raises e' => fits e' end).
  { assert (G : one_response [AStart 500 (heads en e); ABody (shown en e) false] /\ (forall e', @None exc = Some e' -> fits e')) by (split; [unfold one_response, starts; cbn; lia | discriminate]).
    unfold made. destruct d; [exact G|]. destruct eh as [n|]; [apply (act_one en (User n) e S B) | exact G]. }
  destruct made as [m o|e']; [|split; [exact A | intros x E; injection E as <-; exact H]].
  destruct (started ms) eqn:ST; [split; [exact A | intros x E; injection E as <-; exact B]|]. apply not_started in ST. destruct H as (H1 & H2). split; cbn [fst snd].
  - unfold one_response. rewrite starts_app, ST. exact H1.
  - intros x E. destruct o as [e'|]; [apply H2; exact E | injection E as <-; exact B].
Qed.
