(** C77: controllers. *)
From Verif Require Import PyStr PyStrFacts CtrlModel.

(** The methods of HTTP a controller can declare, and the function it declares for one. *)
Definition declares (c : instance) (meth : str) : Prop :=
  In meth [u "GET"; u "QUERY"; u "POST"; u "PUT"; u "PATCH"; u "DELETE"; u "HEAD"; u "OPTIONS"; u "TRACE"] /\ In (lower meth, Function) c.
(** Attributes are unique, and the verbs are functions. *)
Definition class_like (c : instance) : Prop := NoDup (map fst c) /\ forall m v, In m http_methods -> In (lower m, v) c -> v = Function.

(** A request runs the function its method names; HEAD may use GET's; every other method is refused with 405. *)
Definition C77_statement : Prop := forall c in_app meth, class_like c ->
  (declares c meth -> handle_dispatch in_app c meth = Runs (lower meth))
  /\ (~ declares c meth -> meth = u "HEAD" -> declares c (u "GET") -> handle_dispatch in_app c meth = Runs (u "get"))
  /\ (~ declares c meth -> ~ (meth = u "HEAD" /\ declares c (u "GET")) -> exists allow, handle_dispatch in_app c meth = NotAllowed allow).
(** A helper function is reached by a method of its name. *)
Theorem C77_refuted : ~ C77_statement.
Proof.
  intros H. destruct (H [(u "get", Function); (u "reset", Function)] false (u "RESET")) as (_ & _ & H3).
  - split; [cbn; repeat constructor; cbn; intros X; repeat destruct X as [X|X]; try discriminate X; destruct X|].
    intros m v _ I. destruct I as [I|[I|[]]]; injection I as _ <-; reflexivity.
  - destruct H3 as (a & E).
    + intros [I _]. cbn [In] in I. repeat (destruct I as [I|I]; [discriminate I|]). destruct I.
    + intros [E _]. discriminate E.
    + vm_compute in E. discriminate E.
Qed.
Print Assumptions C77_refuted.
Lemma dget_in {V} k (v : V) (d : dict V) : NoDup (map fst d) -> In (k, v) d -> dget k d = Some v.
Proof.
  induction d as [|(a, b) d IH]; intros ND I; [destruct I|]. cbn [map fst] in ND. inversion ND as [|? ? N1 N2]; subst. cbn [dget]. destruct I as [E|I].
  - assert (a = k /\ b = v) by (split; congruence). destruct H as [-> ->]. rewrite (proj2 (seqb_eq k k) eq_refl). reflexivity.
  - destruct (seqb_spec k a) as [->|N]; [|exact (IH N2 I)]. exfalso. apply N1. exact (in_map fst _ _ I).
Qed.
Lemma in_dget {V} k (v : V) (d : dict V) : dget k d = Some v -> In (k, v) d.
Proof. induction d as [|(a, b) d IH]; [discriminate|]. cbn [dget]. destruct (seqb_spec k a) as [->|N]; intros E; [left; congruence|right; exact (IH E)]. Qed.
(** For methods that are not, in lower case, the name of another attribute. *)
Theorem C77_dispatch_partial : forall c in_app meth, class_like c -> (In meth http_methods \/ ~ In (lower meth) (map fst c)) ->
  (declares c meth -> handle_dispatch in_app c meth = Runs (lower meth))
  /\ (~ declares c meth -> meth = u "HEAD" -> declares c (u "GET") -> handle_dispatch in_app c meth = Runs (u "get"))
  /\ (~ declares c meth -> ~ (meth = u "HEAD" /\ declares c (u "GET")) ->
      exists allow, handle_dispatch in_app c meth = NotAllowed allow
        /\ (in_app = false -> exists l, allow = Some l /\ forall m, In m l <-> declares c m)).
Proof.
  intros c in_app meth (ND & FN) K.
  assert (HEADK : dmem (u "head") c = true <-> declares c (u "HEAD")).
  { unfold dmem. destruct (dget (u "head") c) as [v|] eqn:E; split; try discriminate; try reflexivity.
    - intros _. split; [cbn; tauto|]. apply in_dget in E. change (lower (u "HEAD")) with (u "head"). rewrite (FN (u "HEAD") v) in E; [exact E|cbn; tauto|exact E].
    - intros [_ I]. change (lower (u "HEAD")) with (u "head") in I. rewrite (dget_in _ _ _ ND I) in E. discriminate E. }
  assert (ALLOW : forall m, In m (allowed_methods c) <-> declares c m).
  { intros m. unfold allowed_methods, declares. rewrite filter_In. split; intros [A B]; (split; [exact A|]).
    - destruct (dget (lower m) c) as [v|] eqn:E; [|discriminate B]. apply in_dget in E. rewrite (FN m v A E) in E. exact E.
    - rewrite (dget_in _ _ _ ND B). reflexivity. }
  assert (NOT : forall m, In m http_methods -> ~ declares c m -> dget (lower m) c = None).
  { intros m I N. destruct (dget (lower m) c) as [v|] eqn:E; [|reflexivity]. exfalso. apply N. split; [exact I|]. apply in_dget in E. rewrite (FN m v I E) in E. exact E. }
  unfold handle_dispatch. refine (conj _ (conj _ _)).
  - intros Dc. assert (NM : (if seqb meth (u "HEAD") && negb (dmem (u "head") c) then u "get" else lower meth) = lower meth).
    { destruct (seqb_spec meth (u "HEAD")) as [->|_]; [|reflexivity]. rewrite (proj2 HEADK Dc). reflexivity. }
    rewrite NM, (dget_in _ _ _ ND (proj2 Dc)). reflexivity.
  - intros Nd -> G. destruct (dmem (u "head") c) eqn:E; [exfalso; apply Nd, HEADK; first [exact E|reflexivity]|]. rewrite (proj2 (seqb_eq _ _) eq_refl). cbn [andb negb].
    assert (X := dget_in _ _ _ ND (proj2 G)). change (lower (u "GET")) with (u "get") in X. rewrite X. reflexivity.
  - intros Nd Ng. assert (NONE : dget (if seqb meth (u "HEAD") && negb (dmem (u "head") c) then u "get" else lower meth) c = None).
    { destruct (seqb_spec meth (u "HEAD")) as [->|NH]; cbn [andb].
      - destruct (dmem (u "head") c) eqn:E; cbn [negb]; [exfalso; apply Nd, HEADK; first [exact E|reflexivity]|]. apply (NOT (u "GET")); [left; reflexivity|]. intros G. apply Ng. auto.
      - destruct K as [K|K]; [apply NOT; assumption|]. apply dget_None_keys. exact K. }
    rewrite NONE. unfold handle_not_allowed. eexists. split; [reflexivity|]. intros ->. exists (allowed_methods c). split; [reflexivity|exact ALLOW].
Qed.
Print Assumptions C77_dispatch_partial.
Example C77_case : let c := [(u "get", Function); (u "delete", Function); (u "dependencies", Value)] in
  class_like c /\ handle_dispatch false c (u "HEAD") = Runs (u "get") /\ handle_dispatch false c (u "POST") = NotAllowed (Some [u "GET"; u "DELETE"])
  /\ handle_dispatch true c (u "POST") = NotAllowed None /\ handle_dispatch false c (u "DEPENDENCIES") = TypeFails.
Proof.
  cbn zeta. split; [|repeat split; vm_compute; reflexivity]. split; [cbn; repeat constructor; cbn; intros X; repeat destruct X as [X|X]; try discriminate X; destruct X|].
  intros m v M I. destruct I as [I|[I|[I|[]]]]; [injection I as _ <-; reflexivity..|]. exfalso.
  assert (X : u "dependencies" = lower m) by congruence. clear I. cbn [In http_methods] in M. repeat (destruct M as [<-|M]; [discriminate X|]). destruct M.
Qed.
