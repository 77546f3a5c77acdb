(** C365 and C366: the values a handler adds to its context. *)
From Coq Require Import Lia.
From Verif Require Import PyStr PyStrFacts ArgsProofs CtxModel.

(** ** Specification *)
(** The last value added under a key. *)
Fixpoint last_added {V} (k : str) (l : list (str * V)) : option V :=
  match l with
  | [] => None
  | (k', v) :: r => match last_added k r with Some w => Some w | None => if list_eq_dec N.eq_dec k k' then Some v else None end
  end.
(** The names of the context's own properties. *)
Definition own_property (k : str) : Prop := In k [u "handler"; u "request"; u "user"; u "settings"; u "scope"; u "app"].
(** A key with two underscores at an end. *)
Definition underscored (k : str) : Prop := (exists r, k = u "__" ++ r) \/ (exists r, k = r ++ u "__").

(** ** Proofs *)
Section Proofs.
Context {V : Type}.
Implicit Types (c : context V) (l : list (str * V)).
Lemma dget_filter (p : str -> bool) (k : str) c : dget k (filter (fun e => p (fst e)) c) = if p k then dget k c else None.
Proof.
  induction c as [|(k', v) c IH]; cbn [filter dget fst]; [destruct (p k); reflexivity|].
  destruct (p k') eqn:P; cbn [dget].
  - destruct (seqb_spec k k') as [<-|N]; [rewrite P; reflexivity|]. exact IH.
  - destruct (seqb_spec k k') as [<-|N]; [rewrite IH, P; reflexivity | exact IH].
Qed.
Lemma shown_iff k : negb (prefixb (u "__") k) && negb (suffixb (u "__") k) = true <-> ~ underscored k.
Proof.
  rewrite andb_true_iff, !negb_true_iff. unfold underscored. split.
  - intros (A & B) [X|X]; [apply prefixb_iff in X; congruence | apply suffixb_iff in X; congruence].
  - intros X. split; [destruct (prefixb (u "__") k) eqn:E; [apply prefixb_iff in E; tauto | reflexivity] | destruct (suffixb (u "__") k) eqn:E; [apply suffixb_iff in E; tauto | reflexivity]].
Qed.
Lemma adds_get k l : smem k fixed = false -> forall c, dget k (adds l c) = match last_added k l with Some v => Some v | None => dget k c end.
Proof.
  intros F. unfold adds. induction l as [|(k', v) l IH]; intros c; cbn [fold_left last_added fst snd]; [reflexivity|].
  rewrite IH. destruct (last_added k l); [reflexivity|]. unfold add. destruct (list_eq_dec N.eq_dec k k') as [<-|N].
  - rewrite F. apply dget_dset_same.
  - destruct (smem k' fixed); [reflexivity|]. apply dget_dset_other. congruence.
Qed.
Lemma fixed_visible k : ~ own_property k -> ~ underscored k -> smem k fixed = false.
Proof.
  intros A B. destruct (smem k fixed) eqn:E; [|reflexivity]. exfalso. apply smem_In in E. unfold fixed in E. unfold own_property in A. cbn [In] in *.
  assert (D : forall r, k = u "__" ++ r -> False) by (intros r ->; apply B; left; exists r; reflexivity).
  destruct E as [E|[E|[E|[E|[E|[E|[E|[E|[E|[]]]]]]]]]]; try tauto; symmetry in E.
  - exact (D (u "weakref__") E).
  - exact (D (u "class__") E).
  - exact (D (u "dict__") E).
Qed.
Lemma adds_keys l : forall c, NoDup (dkeys c) -> NoDup (dkeys (adds l c)).
Proof.
  unfold adds. induction l as [|(k, v) l IH]; intros c H; cbn [fold_left fst snd]; [exact H|]. apply IH. unfold add. destruct (smem k fixed); [exact H|]. apply ArgsProofs.dset_nodup'. exact H.
Qed.
End Proofs.

(** C365: the data of a context are the values added, the last one for each key; a key of its own
    properties is refused and changes nothing, and keys with two underscores at an end are not shown. *)
Theorem C365_data : forall (V : Type) (handler request : V) l k,
  (own_property k -> (forall (v : V) c, add k v c = None) /\ dget k (data (adds l (fresh handler request))) = None) /\
  (underscored k -> dget k (data (adds l (fresh handler request))) = None) /\
  (~ own_property k -> ~ underscored k -> (forall (v : V) c, add k v c <> None) /\ dget k (data (adds l (fresh handler request))) = last_added k l).
Proof.
  intros V handler request l k. unfold data. rewrite (dget_filter (fun k => negb (prefixb (u "__") k) && negb (suffixb (u "__") k))). refine (conj _ (conj _ _)).
  - intros O. assert (F : smem k fixed = true).
    { apply smem_In. unfold own_property in O. unfold fixed. cbn [In] in *. tauto. }
    split; [intros v c; unfold add; rewrite F; reflexivity|].
    assert (E : forall c, dget k c = None -> dget k (adds l c) = None).
    { unfold adds. induction l as [|(k', v) l IH]; intros c H; cbn [fold_left fst snd]; [exact H|]. apply IH. unfold add. destruct (smem k' fixed) eqn:F'; [exact H|].
      rewrite dget_dset_other; [exact H|]. intros ->. congruence. }
    rewrite E; [destruct (_ && _); reflexivity|]. unfold own_property in O. cbn [In] in O.
    destruct O as [<-|[<-|[<-|[<-|[<-|[<-|[]]]]]]]; reflexivity.
  - intros U. destruct (negb _ && negb _) eqn:E; [|reflexivity]. apply shown_iff in E. tauto.
  - intros O U. pose proof (fixed_visible k O U) as F. split; [intros v c; unfold add; rewrite F; discriminate|].
    rewrite (proj2 (shown_iff k) U). rewrite adds_get by exact F. destruct (last_added k l); [reflexivity|].
    unfold fresh. cbn [dget]. destruct (seqb_spec k (u "__handler__")) as [->|_]; [exfalso; apply U; left; exists (u "handler__"); reflexivity|].
    destruct (seqb_spec k (u "__request__")) as [->|_]; [exfalso; apply U; left; exists (u "request__"); reflexivity | reflexivity].
Qed.
Print Assumptions C365_data.
(** Every key appears once. *)
Theorem C365_once : forall (V : Type) (handler request : V) l, NoDup (dkeys (data (adds l (fresh handler request)))).
Proof.
  intros V handler request l. unfold data, dkeys.
  assert (K : forall (p : str * V -> bool) c, NoDup (map fst c) -> NoDup (map fst (filter p c))).
  { intros p c. induction c as [|e c IH]; cbn [map filter]; intros N; [constructor|]. inversion N as [|? ? N1 N2]; subst. destruct (p e); [|exact (IH N2)].
    cbn [map]. constructor; [|exact (IH N2)]. intros I. apply N1. apply in_map_iff in I. destruct I as (x & E & I). apply filter_In in I. apply in_map_iff. exists x. tauto. }
  apply K. apply (adds_keys l (fresh handler request)). cbn [fresh map fst dkeys]. constructor; [intros [X|[]]; vm_compute in X; discriminate X | constructor; [intros [] | constructor]].
Qed.
Print Assumptions C365_once.
Example C365_case : ~ own_property (u "name") /\ ~ underscored (u "name") /\
  data (adds [(u "name", 1); (u "user", 2); (u "__hidden", 3); (u "age", 4); (u "name", 5)] (fresh 10 20)) = [(u "name", 5); (u "age", 4)].
Proof.
  refine (conj _ (conj _ _)); [unfold own_property; apply smem_not_In; reflexivity | apply shown_iff; reflexivity | vm_compute; reflexivity].
Qed.

(** C366: the data can still be asked for after any values were added: refuted, a value under the key
    [get_context_data] takes the place of the method. *)
Definition C366_statement : Prop := forall (V : Type) (handler request : V) l,
  attribute (u "get_context_data") (adds l (fresh handler request)) = TheMethod.
Theorem C366_refuted : ~ C366_statement.
Proof. intros H. specialize (H nat 1 2 [(u "get_context_data", 3)]). vm_compute in H. discriminate H. Qed.
Print Assumptions C366_refuted.
(** A method is lost exactly if a value was added under its name. *)
Theorem C366_methods_partial : forall (V : Type) (handler request : V) l m, In m [u "get_context_data"; u "add_to_context"; u "path_for"; u "url_path_for"] ->
  (attribute m (adds l (fresh handler request)) = TheMethod <-> ~ In m (map fst l)).
Proof.
  intros V handler request l m I. unfold attribute. assert (F : smem m fixed = false) by (cbn [In] in I; destruct I as [<-|[<-|[<-|[<-|[]]]]]; reflexivity).
  rewrite adds_get by exact F. assert (E : dget m (fresh handler request) = None) by (cbn [In] in I; destruct I as [<-|[<-|[<-|[<-|[]]]]]; reflexivity). rewrite E. clear E I F.
  assert (L : last_added m l = None <-> ~ In m (map fst l)).
  { induction l as [|(k, v) l IH]; cbn [last_added map fst In]; [tauto|]. destruct (last_added m l) as [w|].
    - split; [discriminate|]. intros X. exfalso. assert (Some w = None) by (apply IH; tauto). discriminate.
    - destruct (list_eq_dec N.eq_dec m k) as [<-|N]; [split; [discriminate | tauto]|]. split; [|reflexivity]. intros _ [X|X]; [congruence | apply IH in X; [exact X | reflexivity]]. }
  destruct (last_added m l); [|tauto]. split; [discriminate|]. intros X. apply L in X. discriminate X.
Qed.
Print Assumptions C366_methods_partial.
Example C366_case : attribute (u "path_for") (adds [(u "name", 1); (u "add_to_context", 2)] (fresh 10 20)) = TheMethod
  /\ attribute (u "add_to_context") (adds [(u "name", 1); (u "add_to_context", 2)] (fresh 10 20)) = TheValue 2.
Proof. split; vm_compute; reflexivity. Qed.
