(** Proofs about the middleware stack. *)
From Verif Require Import PyStr PyStrFacts MwModel MwSpec.
From Coq Require Import Lia.

(** ** Projections of the trace *)
Section Trace.
Context {T : Type} (g : event -> list T).
Definition tr (w : world) : list T := flat_map g (trace w).
Definition quiet_sender (snd : sender) : Prop := forall m w, tr (fst (snd m w)) = tr w.

Lemma tr_log : forall e w, tr (log e w) = tr w ++ g e.
Proof. intros e w. unfold tr, log. cbn [trace]. rewrite flat_map_app. cbn [flat_map]. rewrite app_nil_r. reflexivity. Qed.
Lemma trace_sync : forall c i w, trace (sync c i w) = trace w.
Proof.
  intros c i w. unfold sync. generalize route_keys. intros ks. revert w. induction ks as [|k ks IH]; intros w; [reflexivity|]. cbn [fold_left]. rewrite IH.
  unfold sync1. destruct (entry w c k); reflexivity.
Qed.
Lemma tr_sync : forall c i w, tr (sync c i w) = tr w.
Proof. intros c i w. unfold tr. rewrite trace_sync. reflexivity. Qed.

Definition adds (t : list T) (f : world -> world * outcome) : Prop := forall w, tr (fst (f w)) = tr w ++ t.
Lemma adds_nobody : adds [] nobody.
Proof. intros w. rewrite app_nil_r. reflexivity. Qed.

(** An application adds [t] whenever each message sent adds [s]. *)
Definition app_adds (s t : list T) (a : asgi) : Prop := forall i snd, (forall m, adds s (snd m)) -> adds t (a i snd).

Lemma isolate_adds : forall s t a, app_adds s t a -> app_adds s t (isolate a).
Proof.
  intros s t a A i snd S w. unfold isolate.
  destruct (copy_scope i w) as (w1 & c) eqn:C.
  assert (T1 : trace w1 = trace w). { unfold copy_scope in C. destruct (dget _ _) as [[x|r]|]; injection C as <- <-; reflexivity. }
  set (w2 := W _ _ _ _).
  set (snd' := fun m w => snd m _).
  assert (A' : adds t (a c snd')).
  { apply A. intros m w0. unfold snd'. rewrite S. f_equal. destruct (nth _ _ _); [reflexivity|]. unfold tr. cbn [trace]. rewrite trace_sync. reflexivity. }
  specialize (A' w2). destruct (a c snd' w2) as (w3 & o). cbn [fst] in *. rewrite tr_sync, A'. unfold w2, tr. cbn [trace]. rewrite T1. reflexivity.
Qed.

Lemma tr_other : forall w w', trace w' = trace w -> tr w' = tr w.
Proof. intros w w' E. unfold tr. rewrite E. reflexivity. Qed.

(** Programs, when notes add nothing. *)
Hypothesis gnote : forall v, g (Note v) = [].
Lemma exec_does : forall p i child snd tc ts c n, does p c n -> (forall m, adds ts (snd m)) -> adds tc child ->
  (c = 0 \/ n = 0) -> adds (if c then concat (repeat ts n) else concat (repeat tc c)) (exec p i child snd).
Proof.
  intros p i child snd tc ts c n D S C CN. induction D; intros w.
  - rewrite app_nil_r. reflexivity.
  - rewrite app_nil_r. reflexivity.
  - cbn [exec]. apply H0. exact CN.
  - cbn [exec]. rewrite IHD by exact CN. f_equal.
  - cbn [exec]. rewrite IHD by exact CN. f_equal.
  - cbn [exec]. rewrite IHD by exact CN. f_equal. destruct (entry w i f); reflexivity.
  - cbn [exec]. rewrite IHD by exact CN. f_equal.
  - cbn [exec]. rewrite IHD by exact CN. f_equal. destruct (entry w i k) as [[a|r]|]; reflexivity.
  - destruct CN as [-> | CN]; [|discriminate]. cbn [exec]. specialize (S m w). destruct (snd m w) as (w' & o). cbn [fst] in S. rewrite (H0 o (or_introl eq_refl)), S. cbn [repeat concat]. rewrite app_assoc. reflexivity.
  - destruct CN as [CN | ->]; [discriminate|]. cbn [exec]. specialize (C w). destruct (child w) as (w' & o). cbn [fst] in C. rewrite (H0 o (or_intror eq_refl)), C.
    destruct c; cbn [repeat concat]; rewrite ?app_nil_r, ?app_assoc; reflexivity.
  - cbn [exec]. rewrite IHD by exact CN. rewrite tr_log, gnote, app_nil_r. reflexivity.
Qed.
(** The same when messages add nothing. *)
Lemma exec_calls : forall p i child snd tc c, calls p c -> (forall m, adds [] (snd m)) -> adds tc child ->
  adds (concat (repeat tc c)) (exec p i child snd).
Proof.
  intros p i child snd tc c D S C. induction D; intros w.
  - rewrite app_nil_r. reflexivity.
  - rewrite app_nil_r. reflexivity.
  - cbn [exec]. apply H0.
  - cbn [exec]. rewrite IHD. f_equal.
  - cbn [exec]. rewrite IHD. f_equal.
  - cbn [exec]. rewrite IHD. f_equal. destruct (entry w i f); reflexivity.
  - cbn [exec]. rewrite IHD. f_equal.
  - cbn [exec]. rewrite IHD. f_equal. destruct (entry w i k) as [[a|r]|]; reflexivity.
  - cbn [exec]. specialize (S m w). destruct (snd m w) as (w' & o). cbn [fst] in S. rewrite (H0 o), S, app_nil_r. reflexivity.
  - cbn [exec]. specialize (C w). destruct (child w) as (w' & o). cbn [fst] in C. rewrite (H0 o), C. cbn [repeat concat]. rewrite app_assoc. reflexivity.
  - cbn [exec]. rewrite IHD. rewrite tr_log, gnote, app_nil_r. reflexivity.
Qed.
Lemma exec_quiet : forall p i child snd, (forall m, adds [] (snd m)) -> adds [] child -> adds [] (exec p i child snd).
Proof.
  intros p i child snd S C. induction p; intros w; cbn [exec]; rewrite app_nil_r.
  - reflexivity.
  - reflexivity.
  - rewrite (H _ w), app_nil_r. reflexivity.
  - rewrite (IHp _), app_nil_r. reflexivity.
  - rewrite (IHp _), app_nil_r. reflexivity.
  - rewrite (IHp _), app_nil_r. destruct (entry w i from); reflexivity.
  - rewrite (IHp _), app_nil_r. reflexivity.
  - rewrite (IHp _), app_nil_r. destruct (entry w i k) as [[a|r]|]; reflexivity.
  - specialize (S m w). destruct (snd m w) as (w' & o). cbn [fst] in S. rewrite (H o w'), S, !app_nil_r. reflexivity.
  - specialize (C w). destruct (child w) as (w' & o). cbn [fst] in C. rewrite (H o w'), C, !app_nil_r. reflexivity.
  - rewrite (IHp _), app_nil_r, tr_log, gnote, app_nil_r. reflexivity.
Qed.
End Trace.

(** ** The stack as a nest *)
Lemma fold_stack : forall (ls : list layer) (a : asgi) ctl,
  fold_left (fun '(x, ctl) l => (isolate (use l (if ctl : bool then x else isolate x)), false)) (rev ls) (a, ctl) =
  (stack_on ctl a ls, match ls with [] => ctl | _ => false end).
Proof.
  intros ls a ctl. unfold stack_on. destruct ls as [|l ls]; [reflexivity|]. cbn [rev]. rewrite fold_left_app. cbn [fold_left].
  destruct (fold_left _ (rev ls) (a, ctl)) as (x & c). reflexivity.
Qed.
Lemma stack_nil : forall ctl a, stack_on ctl a [] = a.
Proof. reflexivity. Qed.
Lemma stack_cons : forall ctl a l ls,
  stack_on ctl a (l :: ls) = isolate (use l (if match ls with [] => ctl | _ => false end then stack_on ctl a ls else isolate (stack_on ctl a ls))).
Proof.
  intros ctl a l ls. unfold stack_on at 1. cbn [rev]. rewrite fold_left_app. rewrite fold_stack. reflexivity.
Qed.

(** Induction over the stack, for properties kept by isolation. *)
Lemma stack_ind : forall (P : list layer -> asgi -> Prop) ctl a,
  P [] a -> (forall ls x, P ls x -> P ls (isolate x)) -> (forall l ls x, P ls x -> P (l :: ls) (use l x)) ->
  forall ls, P ls (stack_on ctl a ls).
Proof.
  intros P ctl a H0 HI HU ls. induction ls as [|l ls IH]; [exact H0|]. rewrite stack_cons. apply HI, HU.
  destruct (match ls with [] => ctl | _ => false end); [exact IH | apply HI; exact IH].
Qed.

(** ** Crossings *)
Definition cross (e : event) : list event := if crossing e then [e] else [].
Lemma filter_flat : forall l, filter crossing l = flat_map cross l.
Proof. induction l as [|e l IH]; [reflexivity|]. cbn [filter flat_map]. unfold cross at 1. rewrite IH. destruct (crossing e); reflexivity. Qed.
Lemma hooked_quiet : forall l i snd, (forall m, adds cross [] (snd m)) -> forall m, adds cross [] (hooked l i snd m).
Proof.
  intros l i snd S m w. unfold hooked. rewrite (exec_quiet cross (fun v => eq_refl) _ _ _ _ S (adds_nobody cross)), tr_log. cbn [cross crossing]. rewrite !app_nil_r. reflexivity.
Qed.

Lemma stack_crossings : forall ctl e ls, Forall (fun l => calls (l_body l) 1) ls ->
  app_adds cross [] (map Enter (map l_id ls) ++ [Enter (l_id e); Exit (l_id e)] ++ map Exit (rev (map l_id ls))) (stack_on ctl (endpoint e) ls).
Proof.
  intros ctl e ls F.
  refine (stack_ind (fun ls a => Forall (fun l => calls (l_body l) 1) ls -> app_adds cross [] (map Enter (map l_id ls) ++ [Enter (l_id e); Exit (l_id e)] ++ map Exit (rev (map l_id ls))) a) ctl (endpoint e) _ _ _ ls F); clear ls F.
  - intros _ i snd S w. unfold endpoint. pose proof (exec_quiet cross (fun v => eq_refl) (l_body e) i nobody snd S (adds_nobody cross) (log (Enter (l_id e)) w)) as Q.
    destruct (exec _ _ _ _ _) as (w' & o). cbn [fst] in *. rewrite tr_log, Q, tr_log, app_nil_r, <- app_assoc. reflexivity.
  - intros ls x H F. apply isolate_adds. apply H. exact F.
  - intros l ls x H F i snd S w. inversion F as [|? ? F1 F2]; subst. unfold use.
    pose proof (exec_calls cross (fun v => eq_refl) _ i (x i (hooked l i snd)) snd _ 1 F1 S (H F2 i _ (hooked_quiet l i snd S)) (log (Enter (l_id l)) w)) as Q.
    destruct (exec _ _ _ _ _) as (w' & o). cbn [fst] in *. rewrite tr_log, Q, tr_log. cbn [repeat concat map rev]. rewrite map_app. cbn [map]. rewrite !app_nil_r, <- !app_assoc. reflexivity.
Qed.

(** ** Messages *)
Lemma stack_messages : forall ctl e n ls, does (l_body e) 0 n -> Forall (fun l => does (l_body l) 1 0 /\ forall m, does (l_hook l m) 0 1) ls ->
  forall s, app_adds shape s (map In_ (map l_id ls) ++ [In_ (l_id e)] ++ concat (repeat (map Msg (rev (map l_id ls)) ++ s) n) ++ [Out (l_id e)] ++ map Out (rev (map l_id ls)))
    (stack_on ctl (endpoint e) ls).
Proof.
  intros ctl e n ls E F.
  refine (stack_ind (fun ls a => Forall (fun l => does (l_body l) 1 0 /\ forall m, does (l_hook l m) 0 1) ls -> forall s, app_adds shape s (map In_ (map l_id ls) ++ [In_ (l_id e)] ++ concat (repeat (map Msg (rev (map l_id ls)) ++ s) n) ++ [Out (l_id e)] ++ map Out (rev (map l_id ls))) a) ctl (endpoint e) _ _ _ ls F); clear ls F.
  - intros _ s i snd S w. unfold endpoint. pose proof (exec_does shape (fun v => eq_refl) (l_body e) i nobody snd [] s 0 n E S (adds_nobody shape) (or_introl eq_refl) (log (Enter (l_id e)) w)) as Q.
    destruct (exec _ _ _ _ _) as (w' & o). cbn [fst] in *. rewrite tr_log, Q, tr_log, <- !app_assoc. reflexivity.
  - intros ls x H F s. apply isolate_adds. apply H. exact F.
  - intros l ls x H F s i snd S w. inversion F as [|? ? (F1 & F1') F2]; subst. unfold use.
    assert (HS : forall m, adds shape (Msg (l_id l) :: s) (hooked l i snd m)).
    { intros m w0. unfold hooked. rewrite (exec_does shape (fun v => eq_refl) _ i nobody snd [] s 0 1 (F1' m) S (adds_nobody shape) (or_introl eq_refl)), tr_log.
      cbn [repeat concat shape]. rewrite app_nil_r, <- app_assoc. reflexivity. }
    pose proof (exec_does shape (fun v => eq_refl) _ i (x i (hooked l i snd)) snd _ s 1 0 F1 S (H F2 _ i _ HS) (or_intror eq_refl) (log (Enter (l_id l)) w)) as Q.
    destruct (exec _ _ _ _ _) as (w' & o). cbn [fst] in *. rewrite tr_log, Q, tr_log. cbn [repeat concat map rev shape].
    rewrite !map_app. cbn [map]. rewrite !app_nil_r, <- !app_assoc. reflexivity.
Qed.

(** ** Isolation *)
Lemma update_length : forall {A} n (x : A) l, length (update n x l) = length l.
Proof. intros A n x l. revert n. induction l as [|y l IH]; intros [|n]; cbn [update length]; try reflexivity. rewrite IH. reflexivity. Qed.
Lemma nth_update : forall {A} (l : list A) i j x d, nth j (update i x l) d = if andb (Nat.eqb i j) (Nat.ltb i (length l)) then x else nth j l d.
Proof.
  intros A l. induction l as [|y l IH]; intros [|i] [|j] x d; cbn [update nth length]; try reflexivity.
  - rewrite Bool.andb_false_r. reflexivity.
  - cbn [Nat.eqb]. rewrite IH. reflexivity.
Qed.
Lemma nth_update_other : forall {A} (l : list A) i j x d, i <> j -> nth j (update i x l) d = nth j l d.
Proof. intros A l i j x d N. rewrite nth_update. apply PeanoNat.Nat.eqb_neq in N. rewrite N. reflexivity. Qed.

Lemma dget_dset : forall (d : scope) k k' v, dget k' (dset k v d) = if seqb k' k then Some v else dget k' d.
Proof.
  intros d k k' v. destruct (seqb k' k) eqn:E; [apply seqb_eq in E; subst; apply dget_dset_same|].
  apply dget_dset_other. intros ->. rewrite (proj2 (seqb_eq k k) eq_refl) in E. discriminate.
Qed.
Lemma dget_ddel : forall (d : scope) k k', dget k' (ddel k d) = if seqb k' k then None else dget k' d.
Proof.
  intros d k k'. destruct (seqb k' k) eqn:E; [apply seqb_eq in E; subst; apply dget_ddel_same|].
  apply dget_ddel_other. intros ->. rewrite (proj2 (seqb_eq k k) eq_refl) in E. discriminate.
Qed.

Lemma copy_scope_last : forall i w, snd (copy_scope i w) = length (scopes w) /\ length (scopes (fst (copy_scope i w))) = S (length (scopes w)) /\
  (forall j, j < length (scopes w) -> scope_of (fst (copy_scope i w)) j = scope_of w j) /\
  (forall q, q < length (lists w) -> list_of (fst (copy_scope i w)) q = list_of w q) /\ length (lists w) <= length (lists (fst (copy_scope i w))) /\
  (forall k, entry (fst (copy_scope i w)) (length (scopes w)) k =
     match dget (u "headers") (scope_of w i) with
     | Some (Ref _) => if seqb k (u "headers") then Some (Ref (length (lists w))) else entry w i k
     | _ => entry w i k end) /\
  (forall q, length (scopes (fst (copy_scope i w))) <= q -> scope_of (fst (copy_scope i w)) q = []).
Proof.
  intros i w. unfold copy_scope. destruct (dget (u "headers") (scope_of w i)) as [[a|q]|] eqn:H; cbn [fst snd scopes lists new_list].
  all: rewrite app_length; cbn [length]; split; [reflexivity|]; split; [lia|]; split; [intros j J; unfold scope_of; cbn [scopes]; rewrite app_nth1 by exact J; reflexivity|].
  all: split; [intros x X; unfold list_of; cbn [lists]; rewrite ?app_nth1 by exact X; reflexivity|]; split; [rewrite ?app_length; lia|].
  all: split; [intros k; unfold entry, scope_of; cbn [scopes]; rewrite app_nth2 by lia; rewrite PeanoNat.Nat.sub_diag; cbn [nth]; try reflexivity; apply dget_dset|].
  all: intros x X; unfold scope_of; cbn [scopes]; apply nth_overflow; rewrite app_length; cbn [length]; lia.
Qed.

Section Isolation.
(** The scope at [i0] is that of a layer, the scopes from [n] on are made during the call; [bad] are
    lists that inner scopes are not given, as the layer's header list. *)
Context (i0 n : nat) (k0 : str) (bad : nat -> Prop) (P1 : option value -> Prop) (P2 : mlist -> Prop).
Definition free (o : option value) : Prop := forall r, o = Some (Ref r) -> ~ bad r.
Definition inv (w : world) : Prop :=
  n <= length (scopes w) /\ (forall r, bad r -> r < length (lists w)) /\ (forall j, n <= j -> forall k, free (entry w j k)) /\
  P1 (entry w i0 k0) /\ (forall r, bad r -> P2 (list_of w r)).
Lemma free_none : free None. Proof. intros r E. discriminate. Qed.
Lemma free_text : forall a, free (Some (Text a)). Proof. intros a r E. discriminate. Qed.
Lemma free_ref : forall q, ~ bad q -> free (Some (Ref q)). Proof. intros q N r E. injection E as <-. exact N. Qed.
Definition keeps (f : world -> world * outcome) : Prop := forall w, inv w -> inv (fst (f w)).
Hypothesis below : i0 < n.

Lemma inv_same : forall w w', scopes w' = scopes w -> lists w' = lists w -> inv w -> inv w'.
Proof. intros [s l f t] [s' l' f' t']; cbn [scopes lists]; intros -> ->. exact (fun H => H). Qed.
Lemma inv_set : forall w j s, inv w -> n <= j -> (forall k, free (dget k s)) -> inv (set_scope j s w).
Proof.
  intros w j s (A & B & C & D & E) J N. repeat split; [|exact B| |  |exact E].
  - unfold set_scope. cbn [scopes]. rewrite update_length. exact A.
  - intros j' J' k. unfold entry, scope_of, set_scope. cbn [scopes]. rewrite nth_update. destruct (_ && _); [apply N | apply C; exact J'].
  - unfold entry, scope_of, set_scope. cbn [scopes]. rewrite nth_update_other by lia. exact D.
Qed.
Lemma inv_newlist : forall w l, inv w -> inv (new_list l w) /\ ~ bad (length (lists w)).
Proof.
  intros w l (A & B & C & D & E). split; [|intros X; apply B in X; lia]. repeat split; try assumption.
  - intros r R. unfold new_list. cbn [lists]. rewrite app_length. apply B in R. lia.
  - intros r R. unfold list_of, new_list. cbn [lists]. rewrite app_nth1 by (apply B; exact R). apply E. exact R.
Qed.
Lemma inv_setlist : forall w j l, inv w -> ~ bad j -> inv (set_list j l w).
Proof.
  intros w j l (A & B & C & D & E) J. repeat split; try assumption.
  - intros r R. unfold set_list. cbn [lists]. rewrite update_length. apply B. exact R.
  - intros r R. unfold list_of, set_list. cbn [lists]. rewrite nth_update_other by (intros ->; contradiction). apply E. exact R.
Qed.
Lemma inv_free : forall w j k, inv w -> n <= j -> free (dget k (scope_of w j)).
Proof. intros w j k (A & B & C & D & E) J. apply (C j J). Qed.
Lemma exec_keeps : forall p j child snd, n <= j -> keeps child -> (forall m, keeps (snd m)) -> keeps (exec p j child snd).
Proof.
  intros p j child snd J C S. induction p; intros w I; cbn [exec].
  - exact I.
  - exact I.
  - apply H. exact I.
  - apply IHp. apply inv_set; [exact I | exact J |]. intros k'. rewrite dget_dset. destruct (seqb k' k); [apply free_text | apply inv_free; assumption].
  - apply IHp. destruct (inv_newlist w l I) as (I' & N). apply inv_set; [exact I' | exact J |]. intros k'. rewrite dget_dset.
    destruct (seqb k' k); [apply free_ref; exact N | apply (inv_free w); assumption].
  - apply IHp. destruct (entry w j from) as [v|] eqn:V; [|exact I]. apply inv_set; [exact I | exact J |]. intros k'. rewrite dget_dset.
    destruct (seqb k' k); [rewrite <- V; apply inv_free; assumption | apply inv_free; assumption].
  - apply IHp. apply inv_set; [exact I | exact J |]. intros k'. rewrite dget_ddel. destruct (seqb k' k); [apply free_none | apply inv_free; assumption].
  - apply IHp. destruct (entry w j k) as [[a|q]|] eqn:V; try exact I. apply inv_setlist; [exact I|]. apply (inv_free w j k I J q V).
  - specialize (S m w I). destruct (snd m w) as (w' & o). apply H. exact S.
  - specialize (C w I). destruct (child w) as (w' & o). apply H. exact C.
  - apply IHp. revert I. apply inv_same; reflexivity.
Qed.

Lemma sync_keeps : forall c j w, n <= c -> (n <= j \/ j = i0 /\ ~ metadata k0) -> inv w -> inv (sync c j w).
Proof.
  intros c j w C J. unfold sync. assert (M : Forall metadata route_keys) by (repeat constructor; unfold metadata; auto). revert M w.
  induction route_keys as [|k ks IH]; intros M w I; [exact I|]. inversion M as [|? ? M1 M2]; subst. cbn [fold_left]. apply (IH M2). unfold sync1.
  destruct (entry w c k) as [v|] eqn:V; [|exact I].
  assert (NV : free (Some v)) by (rewrite <- V; apply inv_free; assumption).
  destruct J as [J|(-> & J)].
  - apply inv_set; [exact I | exact J |]. intros k'. rewrite dget_dset. destruct (seqb k' k); [exact NV | apply inv_free; assumption].
  - destruct I as (A & B & Cc & D & E). repeat split; [|exact B| | |exact E].
    + unfold set_scope. cbn [scopes]. rewrite update_length. exact A.
    + intros j' J' k'. unfold entry, scope_of, set_scope. cbn [scopes]. rewrite nth_update_other by lia. apply Cc. exact J'.
    + unfold entry, scope_of, set_scope. cbn [scopes]. rewrite nth_update. destruct (_ && _); [|exact D]. rewrite dget_dset.
      destruct (seqb k0 k) eqn:K; [|exact D]. apply seqb_eq in K. subst. contradiction.
Qed.

Definition fine (a : asgi) : Prop := forall j snd, n <= j -> (forall m, keeps (snd m)) -> keeps (a j snd).

(** The scope given to the isolation layer is at [j]: one made during the call, or the layer's own,
    which holds the list only as its headers. *)
Lemma isolate_keeps : forall a j snd w, fine a -> (forall m, keeps (snd m)) -> inv w ->
  (n <= j \/ j = i0 /\ ~ metadata k0 /\ forall k, k <> u "headers" -> free (entry w i0 k)) ->
  inv (fst (isolate a j snd w)).
Proof.
  intros a j snd w F S I J. unfold isolate.
  pose proof (copy_scope_last j w) as (L1 & L2 & L3 & L4 & L5 & L6 & L7). destruct (copy_scope j w) as (w1 & c). cbn [fst Datatypes.snd] in *. subst c.
  set (c := length (scopes w)) in *.
  assert (I1 : inv w1).
  { destruct I as (A & B & C & D & E). repeat split.
    - unfold c in *. lia.
    - intros r R. apply B in R. lia.
    - intros j' J' k. destruct (PeanoNat.Nat.lt_trichotomy j' c) as [X|[X|X]].
      + unfold entry. rewrite L3 by exact X. apply C. exact J'.
      + subst j'. rewrite L6. destruct (dget (u "headers") (scope_of w j)) as [[a0|q]|] eqn:H.
        * destruct J as [J|(-> & J1 & J2)]; [apply C; exact J|]. destruct (seqb k (u "headers")) eqn:K; [apply seqb_eq in K; subst; unfold entry; rewrite H; first [apply free_text | apply free_none]|].
          apply J2. intros ->. rewrite (proj2 (seqb_eq _ _) eq_refl) in K. discriminate.
        * destruct (seqb k (u "headers")) eqn:K; [apply free_ref; intros X; apply B in X; lia|].
          destruct J as [J|(-> & J1 & J2)]; [apply C; exact J|]. apply J2. intros ->. rewrite (proj2 (seqb_eq _ _) eq_refl) in K. discriminate.
        * destruct J as [J|(-> & J1 & J2)]; [apply C; exact J|]. destruct (seqb k (u "headers")) eqn:K; [apply seqb_eq in K; subst; unfold entry; rewrite H; first [apply free_text | apply free_none]|].
          apply J2. intros ->. rewrite (proj2 (seqb_eq _ _) eq_refl) in K. discriminate.
      + unfold entry. rewrite L7 by lia. apply free_none.
    - unfold entry. rewrite L3 by (unfold c in *; lia). exact D.
    - intros r R. rewrite L4 by (apply B; exact R). apply E. exact R. }
  set (w2 := W _ _ _ _). set (snd' := fun m w => snd m _).
  assert (Cn : n <= c) by (destruct I; assumption).
  assert (Jn : n <= j \/ j = i0 /\ ~ metadata k0) by (destruct J as [J|(J & J1 & _)]; [left|right]; auto).
  assert (I2 : inv w2) by (revert I1; apply inv_same; reflexivity).
  assert (S' : forall m, keeps (snd' m)).
  { intros m w0 I0. unfold snd'. apply S. destruct (nth _ _ _); [exact I0|]. assert (I0' : inv (sync c j w0)) by (apply sync_keeps; assumption). revert I0'. apply inv_same; reflexivity. }
  specialize (F c snd' Cn S' w2 I2). destruct (a c snd' w2) as (w3 & o). cbn [fst] in *. apply sync_keeps; assumption.
Qed.

Lemma isolate_fine : forall a, fine a -> fine (isolate a).
Proof. intros a F j snd J S w I. apply isolate_keeps; [exact F | exact S | exact I | left; exact J]. Qed.
Lemma nobody_keeps : keeps nobody.
Proof. intros w I. exact I. Qed.
Lemma log_inv : forall e w, inv w -> inv (log e w).
Proof. intros e w. apply inv_same; reflexivity. Qed.
Lemma endpoint_fine : forall e, fine (endpoint e).
Proof.
  intros e j snd J S w I. unfold endpoint. pose proof (exec_keeps (l_body e) j nobody snd J nobody_keeps S _ (log_inv (Enter (l_id e)) w I)) as H.
  destruct (exec _ _ _ _ _). apply log_inv. exact H.
Qed.
Lemma use_fine : forall l a, fine a -> fine (use l a).
Proof.
  intros l a F j snd J S w I. unfold use.
  assert (HS : forall m, keeps (hooked l j snd m)) by (intros m w0 I0; unfold hooked; apply exec_keeps; [exact J | exact nobody_keeps | exact S | apply log_inv; exact I0]).
  pose proof (exec_keeps (l_body l) j (a j (hooked l j snd)) snd J (F j _ J HS) S _ (log_inv (Enter (l_id l)) w I)) as H.
  destruct (exec _ _ _ _ _). apply log_inv. exact H.
Qed.
Lemma stack_fine : forall ctl e ls, fine (stack_on ctl (endpoint e) ls).
Proof.
  intros ctl e ls. apply (stack_ind (fun _ a => fine a)); [apply endpoint_fine | intros; apply isolate_fine; assumption | intros; apply use_fine; assumption].
Qed.
End Isolation.

(** ** Senders of outer layers *)
Lemma exec_below : forall p i snd n, i < n -> stays_below n snd -> forall w, n <= length (scopes w) ->
  length (scopes (fst (exec p i nobody snd w))) = length (scopes w) /\
  length (lists w) <= length (lists (fst (exec p i nobody snd w))) /\
  forall j, n <= j -> scope_of (fst (exec p i nobody snd w)) j = scope_of w j.
Proof.
  intros p i snd n I S.
  assert (Q : forall s w, length (scopes (set_scope i s w)) = length (scopes w) /\ length (lists w) <= length (lists (set_scope i s w)) /\ forall j, n <= j -> scope_of (set_scope i s w) j = scope_of w j).
  { intros s w. split; [apply update_length | split; [reflexivity|]]. intros j J. unfold scope_of, set_scope. cbn [scopes]. apply nth_update_other. lia. }
  assert (K : forall w w', n <= length (scopes w) -> (length (scopes w') = length (scopes w) /\ length (lists w) <= length (lists w') /\ forall j, n <= j -> scope_of w' j = scope_of w j) ->
    forall f : world -> world * outcome, (forall w, n <= length (scopes w) -> length (scopes (fst (f w))) = length (scopes w) /\ length (lists w) <= length (lists (fst (f w))) /\ forall j, n <= j -> scope_of (fst (f w)) j = scope_of w j) ->
    length (scopes (fst (f w'))) = length (scopes w) /\ length (lists w) <= length (lists (fst (f w'))) /\ forall j, n <= j -> scope_of (fst (f w')) j = scope_of w j).
  { intros w w' N (A & B & C) f F. destruct (F w') as (A' & B' & C'); [lia|]. split; [lia|]. split; [lia|]. intros j J. rewrite C', C by exact J. reflexivity. }
  induction p; intros w N; cbn [exec].
  - split; [reflexivity | split; reflexivity].
  - split; [reflexivity | split; reflexivity].
  - apply H. exact N.
  - apply (K w); [exact N | apply Q | exact IHp].
  - apply (K w); [exact N | | exact IHp]. destruct (Q (dset k (Ref (length (lists w))) (scope_of w i)) (new_list l w)) as (A & B & C). split; [exact A|]. split; [|exact C].
    cbn [new_list lists] in B. rewrite app_length in B. lia.
  - apply (K w); [exact N | | exact IHp]. destruct (entry w i from); [apply Q | split; [reflexivity | split; reflexivity]].
  - apply (K w); [exact N | apply Q | exact IHp].
  - apply (K w); [exact N | | exact IHp]. destruct (entry w i k) as [[a|r]|]; [split; [reflexivity | split; reflexivity] | | split; [reflexivity | split; reflexivity]]. split; [reflexivity|]. split; [|reflexivity]. unfold set_list. cbn [lists]. rewrite update_length. reflexivity.
  - specialize (S m w N). destruct (snd m w) as (w' & o). apply (K w); [exact N | exact S | apply H].
  - apply H. exact N.
  - apply (K w); [exact N | | exact IHp]. split; [reflexivity | split; reflexivity].
Qed.
Lemma hooked_below : forall l i snd n, i < n -> stays_below n snd -> stays_below n (hooked l i snd).
Proof.
  intros l i snd n I S m w N. unfold hooked. destruct (exec_below (l_hook l m) i snd n I S (log (Hook (l_id l) m) w) N) as (A & B & C).
  split; [exact A|]. split; [exact B|]. exact C.
Qed.
Lemma server_below : forall n, stays_below n server.
Proof. intros n m w N. split; [reflexivity | split; reflexivity]. Qed.

(** ** Downstream and upstream *)
Lemma isolate_trace : forall (a : asgi) i snd w w1 c, copy_scope i w = (w1, c) ->
  exists snd', trace (fst (isolate a i snd w)) = trace (fst (a c snd' (W (scopes w1) (lists w1) (flags w1 ++ [false]) (trace w1)))).
Proof.
  intros a i snd w w1 c C. unfold isolate. rewrite C. eexists. destruct (a c _ _) as (w3 & o) eqn:A. cbn [fst]. rewrite trace_sync.
  match type of A with a c ?s _ = _ => instantiate (1 := s) end. rewrite A. reflexivity.
Qed.

Definition reports (k : str) (added : list (str * str)) (a : asgi) : Prop := forall i snd w, i < length (scopes w) -> sound w i ->
  notes (fst (a i snd w)) = notes w ++ [last_added added k (seen w i k)].

Lemma copy_seen : forall i w, sound w i -> let '(w1, c) := copy_scope i w in
  (forall k, seen w1 c k = seen w i k) /\ sound w1 c /\ c < length (scopes w1) /\ trace w1 = trace w.
Proof.
  intros i w H. pose proof (copy_scope_last i w) as (L1 & L2 & L3 & L4 & L5 & L6 & _).
  assert (T : trace (fst (copy_scope i w)) = trace w) by (unfold copy_scope; destruct (dget _ _) as [[x|r]|]; reflexivity).
  assert (LL : forall r, dget (u "headers") (scope_of w i) = Some (Ref r) -> lists (fst (copy_scope i w)) = lists w ++ [list_of w r]).
  { intros r R. unfold copy_scope. rewrite R. reflexivity. }
  destruct (copy_scope i w) as (w1 & c). cbn [fst snd] in *. subst c.
  assert (SE : forall k, seen w1 (length (scopes w)) k = seen w i k).
  { intros k. unfold seen. rewrite L6. destruct (dget (u "headers") (scope_of w i)) as [[a|r]|] eqn:Hd.
    - destruct (entry w i k) as [[b|q]|] eqn:E; [reflexivity | rewrite (L4 q (H k q E)); reflexivity | reflexivity].
    - destruct (seqb k (u "headers")) eqn:K.
      + apply seqb_eq in K. subst k. unfold entry at 1. rewrite Hd. f_equal. unfold list_of at 1. rewrite (LL r eq_refl), app_nth2 by lia. rewrite PeanoNat.Nat.sub_diag. reflexivity.
      + destruct (entry w i k) as [[b|q]|] eqn:E; [reflexivity | rewrite (L4 q (H k q E)); reflexivity | reflexivity].
    - destruct (entry w i k) as [[b|q]|] eqn:E; [reflexivity | rewrite (L4 q (H k q E)); reflexivity | reflexivity]. }
  split; [exact SE|]. split; [|split; [lia | exact T]].
  intros k q E. rewrite L6 in E. destruct (dget (u "headers") (scope_of w i)) as [[a|r]|] eqn:Hd.
  - apply H in E. lia.
  - destruct (seqb k (u "headers")); [|apply H in E; lia]. injection E as <-. rewrite (LL r eq_refl), app_length. cbn [length]. lia.
  - apply H in E. lia.
Qed.

Lemma isolate_reports : forall k added a, reports k added a -> reports k added (isolate a).
Proof.
  intros k added a R i snd w I SD. pose proof (copy_seen i w SD) as C. destruct (copy_scope i w) as (w1 & c) eqn:CE. destruct C as (C1 & C2 & C3 & C4).
  destruct (isolate_trace a i snd w w1 c CE) as (snd' & T). unfold notes at 1. rewrite T.
  set (w2 := W (scopes w1) (lists w1) (flags w1 ++ [false]) (trace w1)). change (notes (fst (a c snd' w2)) = notes w ++ [last_added added k (seen w i k)]).
  rewrite R; [|exact C3 | exact C2]. unfold w2, notes. cbn [trace]. rewrite C4. do 2 f_equal. exact (f_equal (last_added added k) (C1 k)).
Qed.
Lemma use_reports : forall k k' a' added l a, adder l k' a' -> reports k added a -> reports k ((k', a') :: added) (use l a).
Proof.
  intros k k' a' added l a AD R i snd w I SD. unfold use. rewrite AD. cbn [exec].
  set (w1 := set_scope _ _ _).
  assert (I1 : i < length (scopes w1)) by (unfold w1, set_scope; cbn [scopes]; rewrite update_length; exact I).
  assert (E1 : forall x, entry w1 i x = if seqb x k' then Some (Text a') else entry w i x).
  { intros x. unfold w1, entry, scope_of, set_scope. cbn [scopes log]. rewrite nth_update, PeanoNat.Nat.eqb_refl. apply PeanoNat.Nat.ltb_lt in I. rewrite I. cbn [andb]. apply dget_dset. }
  assert (S1 : sound w1 i).
  { intros x r X. rewrite E1 in X. destruct (seqb x k'); [discriminate|]. apply SD in X. exact X. }
  specialize (R i (hooked l i snd) w1 I1 S1). destruct (a i (hooked l i snd) w1) as (w2 & o). cbn [fst] in *.
  unfold notes. cbn [log trace]. rewrite flat_map_app. cbn [flat_map]. rewrite app_nil_r. change (notes w2 = notes w ++ [last_added ((k', a') :: added) k (seen w i k)]).
  rewrite R. unfold w1 at 1, notes at 1. cbn [set_scope log trace]. rewrite flat_map_app. cbn [flat_map]. rewrite app_nil_r. fold (notes w). f_equal. f_equal. cbn [last_added]. f_equal.
  unfold seen at 1. rewrite E1. destruct (seqb k k'); [reflexivity|]. reflexivity.
Qed.
Lemma stack_reports : forall ctl k e ls added, l_body e = Look k (fun v => Show v Return) -> Forall2 (fun l ka => adder l (fst ka) (snd ka)) ls added ->
  reports k added (stack_on ctl (endpoint e) ls).
Proof.
  intros ctl k e ls added E F. revert added F.
  refine (stack_ind (fun ls a => forall added, Forall2 (fun l ka => adder l (fst ka) (snd ka)) ls added -> reports k added a) ctl (endpoint e) _ _ _ ls).
  - intros added F. inversion F; subst. intros i snd w I SD. unfold endpoint. rewrite E. cbn [exec fst]. unfold notes. cbn [log trace]. rewrite !flat_map_app. cbn [flat_map]. rewrite !app_nil_r. reflexivity.
  - intros l x H added F. apply isolate_reports, H, F.
  - intros l l' x H added F. inversion F as [|? (k' & a') ? ? F1 F2]; subst. apply use_reports; [exact F1 | apply H; exact F2].
Qed.

(** Route metadata. *)
Lemma sync_entry : forall c i w k, c <> i -> i < length (scopes w) ->
  entry (sync c i w) c k = entry w c k /\ (metadata k -> entry w c k <> None -> entry (sync c i w) i k = entry w c k).
Proof.
  intros c i w k N I. unfold sync.
  assert (G : forall ks w, i < length (scopes w) -> (forall k', entry (fold_left (sync1 c i) ks w) c k' = entry w c k') /\
    (forall k', entry w c k' <> None -> In k' ks \/ entry w i k' = entry w c k' -> entry (fold_left (sync1 c i) ks w) i k' = entry w c k')).
  { induction ks as [|x ks IH]; intros v J; cbn [fold_left]; [split; [reflexivity | intros k' _ [[]|H]; exact H]|].
    assert (S1 : i < length (scopes (sync1 c i v x))) by (unfold sync1; destruct (entry v c x); [unfold set_scope; cbn [scopes]; rewrite update_length|]; exact J).
    assert (S2 : forall k', entry (sync1 c i v x) c k' = entry v c k').
    { intros k'. unfold sync1. destruct (entry v c x); [|reflexivity]. unfold entry, scope_of, set_scope. cbn [scopes]. rewrite nth_update_other by auto. reflexivity. }
    destruct (IH _ S1) as (A & B). split; [intros k'; rewrite A; apply S2|].
    intros k' NN H. rewrite <- (S2 k'). apply B; [rewrite S2; exact NN|].
    assert (S3 : entry (sync1 c i v x) i k' = if seqb k' x then entry v c x else entry v i k').
    { unfold sync1. destruct (entry v c x) as [q|] eqn:Q; [|destruct (seqb k' x) eqn:K; [apply seqb_eq in K; subst; congruence | reflexivity]].
      unfold entry, scope_of, set_scope. cbn [scopes]. rewrite nth_update, PeanoNat.Nat.eqb_refl. apply PeanoNat.Nat.ltb_lt in J. rewrite J. cbn [andb]. apply dget_dset. }
    destruct (seqb k' x) eqn:K.
    - apply seqb_eq in K. subst x. right. rewrite S3, S2. reflexivity.
    - destruct H as [[H|H]|H]; [subst; rewrite (proj2 (seqb_eq _ _) eq_refl) in K; discriminate | left; exact H |]. right. rewrite S3, S2. exact H. }
  destruct (G route_keys w I) as (A & B). split; [apply A|]. intros M NN. apply B; [exact NN|]. left. unfold metadata in M. cbn [route_keys In]. destruct M as [->|[->| ->]]; auto.
Qed.
Lemma sync_length : forall c i w, length (scopes (sync c i w)) = length (scopes w).
Proof.
  intros c i w. unfold sync. generalize route_keys. intros ks. revert w. induction ks as [|k ks IH]; intros w; [reflexivity|]. cbn [fold_left]. rewrite IH.
  unfold sync1. destruct (entry w c k); [apply update_length | reflexivity].
Qed.
