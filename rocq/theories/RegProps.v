(** Property theorems for registering routes: C339, C340. *)
From Verif Require Import PyStr PyStrFacts RouterModel RegModel RegSpec.

Lemma verb_named v : exists n, In (n, v) decorator_names /\ upper n = verb_method v /\ attribute (lower (verb_method v)) = Some v.
Proof. destruct v; eexists; (split; [cbn; tauto | split; reflexivity]). Qed.
Lemma knows_plain o : app_knows o = true <-> plain o.
Proof.
  unfold app_knows, plain. destruct (o_dependencies o), (o_before o), (o_after o);
    (split; [discriminate | intros (A & B & C); discriminate]) || (split; [intros _; repeat split; reflexivity | reflexivity]).
Qed.
Lemma refused_dec lilya c : refused lilya c \/ ~ refused lilya c.
Proof.
  assert (K : forall o, ~ plain o \/ ~ ~ plain o) by (intros o; destruct (app_knows o) eqn:E; [right; intros H; apply H, knows_plain; exact E | left; rewrite <- knows_plain, E; discriminate]).
  destruct c as [a|a|a|[|]|[|]|a|a|path ch o s d|]; cbn [refused]; try solve [right; intros []]; try apply K. destruct (lilya ch); [right; discriminate | left; reflexivity].
Qed.
Lemma call_refused lilya c rs : refused lilya c -> do_call lilya c rs = (rs, Raised).
Proof.
  assert (K : forall o, ~ plain o -> app_knows o = false) by (intros o H; destruct (app_knows o) eqn:E; [exfalso; apply H, knows_plain; exact E | reflexivity]).
  destruct c as [a|a|a|[|] path h ms o|[|] path h o|a|a|path ch o s d|]; cbn [refused do_call]; intros H; try solve [destruct H]; try (rewrite (K _ H); reflexivity).
  unfold add_child_lilya. rewrite H. reflexivity.
Qed.
Lemma call_done lilya c rs : ~ refused lilya c -> exists e, means c e /\ do_call lilya c rs = (rs ++ [e], Returned (function_of c)).
Proof.
  assert (C : forall path ch o s d, exists e, child_route path ch o s d e /\ add_asgi_app path ch o s d rs = rs ++ [e]).
  { intros path ch o s d. unfold add_asgi_app. eexists. split; [|reflexivity]. constructor; cbn; try reflexivity; [destruct d as [[|]|]; reflexivity | destruct s as [[|]|]; reflexivity]. }
  assert (K : forall o, ~ ~ plain o -> app_knows o = true) by (intros o H; destruct (app_knows o) eqn:E; [reflexivity | exfalso; apply H; rewrite <- knows_plain, E; discriminate]).
  destruct c as [a v path o f|a path ms o f|a path o f|a path h ms o|a path h o|a path t n p r o|a h t n|path ch o s d|path ch o s d]; intros NR; cbn [refused do_call function_of] in *.
  - destruct (verb_named v) as (n & I & E & A). exists {| e_shape := PathOf (Some [upper n]); e_path := path; e_target := f; e_options := o |}. split; [constructor; exact I|].
    unfold app_verb. rewrite A, E. destruct a; reflexivity.
  - eexists. split; [constructor | reflexivity].
  - eexists. split; [constructor | reflexivity].
  - eexists. split; [constructor|]. destruct a; [rewrite (K _ NR)|]; reflexivity.
  - eexists. split; [constructor|]. destruct a; [rewrite (K _ NR)|]; reflexivity.
  - eexists. split; [constructor | reflexivity].
  - eexists. split; [|reflexivity]. constructor; try reflexivity. intros x [<-|[<-|[<-|[<-|[]]]]]; reflexivity.
  - destruct (C path ch o s d) as (e & M & E). exists e. split; [constructor; exact M|]. unfold add_child_lilya. destruct (lilya ch); [rewrite E; reflexivity | exfalso; apply NR; reflexivity].
  - destruct (C path ch o s d) as (e & M & E). exists e. split; [constructor; exact M | rewrite E; reflexivity].
Qed.

(** A call that is not refused adds exactly the route it means, after all others, and a decorator gives
    the function back as it is; a refused one raises and changes nothing. *)
Theorem C339_call : forall lilya c rs,
  (refused lilya c -> do_call lilya c rs = (rs, Raised)) /\
  (~ refused lilya c -> exists e, means c e /\ do_call lilya c rs = (rs ++ [e], Returned (function_of c))).
Proof. intros. split; [apply call_refused | apply call_done]. Qed.
Print Assumptions C339_call.
(** So after any history of calls, on the application and on its router, the routes are those asked
    for, in the order of the calls, after those the application was made with. *)
Theorem C339_history : forall lilya cs rs, exists es, asks lilya cs es /\ do_calls lilya cs rs = rs ++ es.
Proof.
  intros lilya cs. induction cs as [|c cs IH]; intros rs; [exists []; split; [constructor | symmetry; apply app_nil_r]|].
  change (do_calls lilya (c :: cs) rs) with (do_calls lilya cs (fst (do_call lilya c rs))). destruct (refused_dec lilya c) as [R|R].
  - rewrite (call_refused lilya c rs R). cbn [fst]. destruct (IH rs) as (es & A & E). exists es. split; [apply asks_refused; assumption | exact E].
  - destruct (call_done lilya c rs R) as (e & M & E). rewrite E. cbn [fst]. destruct (IH (rs ++ [e])) as (es & A & E'). exists (e :: es).
    split; [apply asks_one; assumption|]. rewrite E', <- app_assoc. reflexivity.
Qed.
Print Assumptions C339_history.
Example C339_case : let o := no_options None in
  map (fun e => (e_path e, e_target e)) (do_calls (fun n => Nat.eqb n 7) [Verb true VPost (u "/a") o 1; AddChild (u "/c") 8 o None None; AddChild (u "/d") 7 o None None; Socket false (u "/w") o 2] [])
  = [(u "/a", 1); (u "/d", 7); (u "/w", 2)].
Proof. reflexivity. Qed.

(** ** C340: a decorated function answers its method *)
(** The route a decorator of an application or a router makes accepts the requests with the method it
    is named after, and for get those with HEAD, and no others. *)
Theorem C340 : forall lilya on_app n v path o f rs, In (n, v) decorator_names ->
  exists ms, fst (do_call lilya (Verb on_app v path o f) rs) = rs ++ [{| e_shape := PathOf ms; e_path := path; e_target := f; e_options := o |}]
    /\ forall m, method_refused (effective_methods true ms) m = false <-> m = upper n \/ (n = u "get" /\ m = u "HEAD").
Proof.
  intros lilya on_app n v path o f rs I. exists (Some [upper n]).
  assert (X : upper n = verb_method v /\ attribute (lower (verb_method v)) = Some v) by (cbn in I; decompose [or] I; try contradiction; match goal with H : _ = (n, v) |- _ => injection H as <- <- end; split; reflexivity).
  destruct X as (X & Y). split.
  - cbn [do_call]. unfold app_verb. rewrite Y, X. destruct on_app; reflexivity.
  - intros m. cbn in I. decompose [or] I; try contradiction; match goal with H : _ = (n, v) |- _ => injection H as <- <- end;
      (set (l := effective_methods _ _); vm_compute in l; subst l; unfold method_refused; rewrite negb_false_iff, smem_In; cbn [In];
       match goal with |- context [upper ?x] => set (y := upper x); vm_compute in y; subst y end;
       split; [intros H; decompose [or] H; try contradiction; subst; auto; right; split; reflexivity | intros [->|(H & ->)]; [left; reflexivity | try discriminate H; right; left; reflexivity]]).
Qed.
Print Assumptions C340.
Example C340_case : In (u "delete", VDelete) decorator_names /\ method_refused (effective_methods true (Some [upper (u "delete")])) (u "GET") = true.
Proof. split; [cbn; tauto | reflexivity]. Qed.
