(** C348: the remembered shortcut of a router is never out of date. *)
From Coq Require Import List NArith Bool Arith Lia.
From Verif Require Import PyStr RouterModel RouterProps FastModel.
Import ListNotations.

(** The answers without anything remembered: each request is answered from the routes there are at that time. *)
Fixpoint answers (program : nat -> scope -> prog) (object : nat -> route) (redirect : bool) (routes : list nat) (l : list event) : list outcome :=
  match l with
  | [] => []
  | Change r :: t => answers program object redirect r t
  | Ask sc inp :: t => router_app program redirect (map object routes) sc inp :: answers program object redirect routes t
  end.

(** What is remembered belongs to some list of routes. *)
Definition sound (object : nat -> route) (m : memory) : Prop :=
  m = fresh \/ exists routes, m_len m = Some (length routes) /\ m_route m = compute object routes.

Lemma remember_right object m routes : sound object m ->
  sound object (remember object m routes) /\ m_route (remember object m routes) = compute object routes.
Proof.
  intro S. unfold remember. destruct (stale m routes) eqn:E.
  - split; [right; now exists routes | reflexivity].
  - split; [exact S|]. unfold stale in E. apply orb_false_iff in E. destruct E as [E1 E2]. apply negb_false_iff in E1.
    destruct S as [-> | [old [L R]]]; [discriminate E1|]. rewrite L in E1. apply Nat.eqb_eq in E1.
    destruct routes as [|i [|j r]].
    + destruct old; [exact R | discriminate E1].
    + apply negb_false_iff in E2. destruct (m_route m) as [k|] eqn:M; [|discriminate E2]. apply Nat.eqb_eq in E2. subst k.
      destruct old as [|o [|o' old]]; cbn [length] in E1; try lia. cbn [compute] in R |- *.
      destruct (object o) eqn:O; [|discriminate R]. injection R as ->. rewrite O. reflexivity.
    + destruct old as [|o [|o' old]]; cbn [length] in E1; try lia. exact R.
Qed.

Lemma answer_right program object redirect m routes sc inp : sound object m ->
  sound object (fst (answer program object redirect m routes sc inp)) /\
  snd (answer program object redirect m routes sc inp) = router_app program redirect (map object routes) sc inp.
Proof.
  intro S. destruct (remember_right object m routes S) as [S' R]. unfold answer. cbv zeta. cbn [fst snd]. split; [exact S'|].
  rewrite R. destruct routes as [|i [|j r]]; cbn [compute map]; [reflexivity | | ].
  - destruct (object i) eqn:O; [rewrite O|]; reflexivity.
  - unfold router_app. destruct (object i); reflexivity.
Qed.

Theorem C348_shortcut : forall program object redirect routes events,
  history program object redirect fresh routes events = answers program object redirect routes events.
Proof.
  intros program object redirect routes events.
  assert (G : forall m routes, sound object m -> history program object redirect m routes events = answers program object redirect routes events).
  { induction events as [|[r|sc inp] t IH]; intros m rs S; cbn [history answers]; [reflexivity | now apply IH |].
    destruct (answer_right program object redirect m rs sc inp S) as [S' A].
    destruct (answer program object redirect m rs sc inp) as [m' o]. cbn [fst snd] in S', A. now rewrite A, IH. }
  apply G. now left.
Qed.
Print Assumptions C348_shortcut.

(** A router with one path, which is exchanged for another, then with two, then with the second alone. *)
Example C348_case :
  let object i := get_path i (if i =? 0 then u "/a" else u "/b") in
  let out := history (fun n _ => replies n) object true fresh [0]
    [Ask (get (u "/a")) []; Change [1]; Ask (get (u "/a")) []; Ask (get (u "/b")) []; Change [0; 1]; Ask (get (u "/b")) []; Change [1]; Ask (get (u "/b")) []] in
  map o_answers out = map o_answers (answers (fun n _ => replies n) object true [0]
    [Ask (get (u "/a")) []; Change [1]; Ask (get (u "/a")) []; Ask (get (u "/b")) []; Change [0; 1]; Ask (get (u "/b")) []; Change [1]; Ask (get (u "/b")) []])
  /\ map o_answers out = [[AHandler 0]; [ADefault]; [AHandler 1]; [AHandler 1]; [AHandler 1]].
Proof. cbv zeta. split; vm_compute; reflexivity. Qed.
