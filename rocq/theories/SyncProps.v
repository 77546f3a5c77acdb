(** Properties of the helpers that join synchronous and asynchronous code. *)
From Verif Require Import PyStr SyncModel.

(** C239: [run_sync] runs the coroutine once, and ends as the coroutine ends. *)
Definition once {world ctx} (b : body world ctx) (w : world) (r : world * ran ctx * outcome) : Prop :=
  exists c, r = (fst (b c w), [c], snd (b c w)).
Definition of_body {world ctx} (j : job world ctx) (b : body world ctx) : Prop := j = Function b \/ j = Coroutine b.
Definition C239_statement : Prop := forall (world ctx : Type) fresh loop c (b : body world ctx) j w,
  of_body j b -> once b w (run_sync world ctx fresh loop c j w).
(** A coroutine that counts and raises a RuntimeError. *)
Definition counts : body nat unit := fun _ n => (S n, Fails {| runtime := true; name := 7 |}).
Theorem C239_refuted : ~ C239_statement /\
  run_sync nat unit tt false tt (Function counts) 0 = (2, [tt; tt], Fails {| runtime := true; name := 7 |}) /\
  run_sync nat unit tt false tt (Coroutine counts) 0 = (1, [tt], Fails cannot_reuse).
Proof.
  split; [|split; reflexivity]. intros S. destruct (S nat unit tt false tt counts (Function counts) 0 (or_introl eq_refl)) as [c E].
  vm_compute in E. discriminate.
Qed.
Print Assumptions C239_refuted.
Theorem C239_partial (world ctx : Type) fresh loop c (b : body world ctx) j w : of_body j b ->
  loop = true \/ (forall e, snd (b c w) = Fails e -> runtime e = false) -> once b w (run_sync world ctx fresh loop c j w).
Proof.
  intros J H. destruct loop.
  - exists fresh. destruct J as [-> | ->]; unfold run_sync, anyio_run; cbn [runtime already_running await_job];
      destruct (b fresh w) as [w' o]; reflexivity.
  - destruct H as [H|H]; [discriminate|]. exists c.
    destruct J as [-> | ->]; unfold run_sync, anyio_run; cbn [await_job]; destruct (b c w) as [w' [v|e]]; cbn [fst snd List.app] in *;
      try reflexivity; rewrite (H e eq_refl); reflexivity.
Qed.
Print Assumptions C239_partial.
Example C239_case : once (fun (c n : nat) => (n + c, Fails {| runtime := false; name := 3 |})) 1
  (run_sync nat nat 0 false 4 (Coroutine (fun c n => (n + c, Fails {| runtime := false; name := 3 |}))) 1) /\
  once (fun (c n : nat) => (n + 1, Fails {| runtime := true; name := 3 |})) 1
  (run_sync nat nat 0 true 4 (Function (fun c n => (n + 1, Fails {| runtime := true; name := 3 |}))) 1).
Proof. split; eexists; vm_compute; reflexivity. Qed.

(** C240: the coroutine sees the context variables of its caller. *)
Definition C240_statement : Prop := forall (world ctx : Type) fresh loop c (b : body world ctx) j w,
  of_body j b -> forall w' cs o, run_sync world ctx fresh loop c j w = (w', cs, o) -> forall x, In x cs -> x = c.
Theorem C240_refuted : ~ C240_statement /\
  forall (world ctx : Type) fresh c (b : body world ctx) j w, of_body j b -> snd (fst (run_sync world ctx fresh true c j w)) = [fresh].
Proof.
  assert (G : forall (world ctx : Type) fresh c (b : body world ctx) j w, of_body j b -> snd (fst (run_sync world ctx fresh true c j w)) = [fresh]).
  { intros world ctx fresh c b j w [-> | ->]; unfold run_sync, anyio_run; cbn [runtime already_running await_job];
      destruct (b fresh w) as [w' o]; reflexivity. }
  split; [|exact G]. intros S.
  assert (X : 0 = 1); [|discriminate].
  eapply (S unit nat 0 true 1 (fun _ _ => (tt, Done 0)) (Function _) tt (or_introl eq_refl)); [reflexivity|left; reflexivity].
Qed.
Print Assumptions C240_refuted.
(** Without a running loop, the first run sees them; it is the only one unless it ends with a RuntimeError. *)
Theorem C240_partial (world ctx : Type) fresh c (b : body world ctx) j w : of_body j b ->
  exists cs, snd (fst (run_sync world ctx fresh false c j w)) = c :: cs /\
  ((forall e, snd (b c w) = Fails e -> runtime e = false) -> cs = []).
Proof.
  intros [-> | ->]; unfold run_sync, anyio_run; cbn [await_job]; destruct (b c w) as [w' [v|e]]; cbn [fst snd List.app].
  1, 3: exists []; split; reflexivity.
  - cbn [await_job]. destruct (runtime e) eqn:R; [|exists []; split; reflexivity]. destruct (b fresh w') as [w2 o2]. cbn [fst snd List.app].
    exists [fresh]. split; [reflexivity|]. intros H. specialize (H e eq_refl). congruence.
  - destruct (runtime e) eqn:R; exists []; split; reflexivity.
Qed.
Print Assumptions C240_partial.
Example C240_case : snd (fst (run_sync nat nat 0 false 5 (Function (fun c n => (c + n, Done c))) 1)) = [5].
Proof. reflexivity. Qed.

(** C241: [is_async_callable] is true exactly of what gives an awaitable when it is called. *)
(** What a call gives: a coroutine or what the definition returns; a class gives an instance. *)
Fixpoint gives_awaitable (o : object) : bool :=
  match o with
  | Func d | Method d | Instance (Some d) => is_async d || returns_awaitable d
  | Instance None | Class _ => false
  | Partial o' => gives_awaitable o'
  end.
Definition C241_statement : Prop := forall o, is_async_callable o = gives_awaitable o.
Theorem C241_refuted : ~ C241_statement /\
  (is_async_callable (Class (Some {| is_async := true; returns_awaitable := false |})) = true /\
   gives_awaitable (Class (Some {| is_async := true; returns_awaitable := false |})) = false) /\
  (is_async_callable (Func {| is_async := false; returns_awaitable := true |}) = false).
Proof.
  split; [|repeat split; reflexivity]. intros S. specialize (S (Class (Some {| is_async := true; returns_awaitable := false |}))). discriminate.
Qed.
Print Assumptions C241_refuted.
(** These are the only cases: classes whose instances are asynchronous, and plain functions that return an awaitable. *)
Inductive ordinary : object -> Prop :=
| ord_func d : (is_async d = false -> returns_awaitable d = false) -> ordinary (Func d)
| ord_method d : (is_async d = false -> returns_awaitable d = false) -> ordinary (Method d)
| ord_instance d : (is_async d = false -> returns_awaitable d = false) -> ordinary (Instance (Some d))
| ord_class d : is_async d = false -> ordinary (Class (Some d))
| ord_class_none : ordinary (Class None)
| ord_partial o : ordinary o -> ordinary (Partial o).
Theorem C241_partial o : ordinary o ->
  is_async_callable o = gives_awaitable o /\
  enforce_async_callable o = (if gives_awaitable o then AsIs o else InThread o).
Proof.
  intros H.
  assert (E : is_async_callable o = gives_awaitable o).
  { induction H as [d H|d H|d H|d H| |o H IH]; unfold is_async_callable in *; cbn [unwrap iscoroutinefunction dunder_call gives_awaitable is_async orb] in *.
    - destruct (is_async d); [reflexivity|]. rewrite H; reflexivity.
    - destruct (is_async d); [reflexivity|]. rewrite H; reflexivity.
    - destruct (is_async d); [reflexivity|]. rewrite H; reflexivity.
    - exact H.
    - reflexivity.
    - exact IH. }
  split; [exact E|]. unfold enforce_async_callable. rewrite E. reflexivity.
Qed.
Print Assumptions C241_partial.
Example C241_case : ordinary (Partial (Partial (Instance (Some {| is_async := true; returns_awaitable := false |})))) /\
  is_async_callable (Partial (Partial (Instance (Some {| is_async := true; returns_awaitable := false |})))) = true.
Proof. split; [|reflexivity]. do 2 apply ord_partial. apply ord_instance. discriminate. Qed.

(** C242: a resource entered with [async with] is closed once. *)
(** For the handler of a coroutine, as [request.form()] gives it: in every interleaving of tasks at most one resource is made;
    it is not closed while its block runs, and closed exactly once when it has ended. *)
Theorem C242_coroutine es : let h := handles true es in
  (made h <= 1)%nat /\ (inside h <> [] -> length (inside h) = 1%nat /\ closed h = []) /\
  (inside h = [] -> closed h = seq 0 (made h)).
Proof.
  intros h.
  assert (I : h = fresh_handler \/ (exists t, h = {| made := 1; entered := 0; inside := [t]; closed := [] |}) \/
    h = {| made := 1; entered := 0; inside := []; closed := [0] |}).
  { unfold h, handles. induction es as [|e es IH] using rev_ind; [left; reflexivity|]. rewrite fold_left_app. cbn [fold_left].
    destruct IH as [-> | [[t ->] | ->]]; destruct e as [t'|t']; cbn.
    - right; left. exists t'. reflexivity.
    - left. reflexivity.
    - right; left. exists t. reflexivity.
    - destruct (Nat.eqb_spec t' t) as [->|N]; cbn [orb].
      + right; right. rewrite Nat.eqb_refl. reflexivity.
      + right; left. exists t. reflexivity.
    - right; right. reflexivity.
    - right; right. reflexivity. }
  destruct I as [-> | [[t ->] | ->]]; cbn; repeat split; try lia; try congruence.
Qed.
Print Assumptions C242_coroutine.
Example C242_case : handles true [Enter 1; Enter 2; Exit 2; Exit 1] = {| made := 1; entered := 0; inside := []; closed := [0] |}.
Proof. reflexivity. Qed.

(** C243: the same for any awaitable. *)
Definition C243_statement : Prop := forall es, let h := handles false es in
  inside h = [] -> forall r, (r < made h)%nat -> count_occ Nat.eq_dec (closed h) r = 1%nat.
(** Two tasks that use one handler: the first resource stays open, the second is closed twice. *)
Theorem C243_refuted : ~ C243_statement.
Proof. intros S. specialize (S [Enter 1; Enter 2; Exit 1; Exit 2] eq_refl 0%nat ltac:(vm_compute; lia)). discriminate. Qed.
Print Assumptions C243_refuted.
(** Blocks that do not overlap. *)
Theorem C243_partial ts : let h := handles false (flat_map (fun t => [Enter t; Exit t]) ts) in
  inside h = [] /\ made h = length ts /\ closed h = seq 0 (length ts).
Proof.
  cbv zeta. induction ts as [|t ts IH] using rev_ind; [repeat split; reflexivity|].
  destruct IH as (A & B & C). rewrite flat_map_app. unfold handles in *. rewrite fold_left_app.
  destruct (fold_left _ _ _) as [m e i c]. cbn [inside made closed] in *. subst. rewrite app_length. cbn [length flat_map List.app fold_left handle andb].
  cbn [inside existsb made entered closed]. rewrite Nat.eqb_refl. cbn [orb inside made closed leave]. rewrite Nat.eqb_refl.
  refine (conj eq_refl (conj _ _)); [lia|]. rewrite Nat.add_1_r, seq_S. reflexivity.
Qed.
Print Assumptions C243_partial.
Example C243_case : closed (handles false (flat_map (fun t => [Enter t; Exit t]) [3; 1; 3])) = [0; 1; 2].
Proof. reflexivity. Qed.
