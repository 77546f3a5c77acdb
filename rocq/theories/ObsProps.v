(** C214-C216: functions that send events and listen to them. *)
From Verif Require Import PyStr PyStrFacts BgModel BgSpec BgProps ObsModel.

(** Who hears the events: for every event sent, every function declared for it, as often as it was declared. *)
Definition heard (fs : list decorated) (events : list str) : list listener :=
  flat_map (fun e => flat_map (fun g => map (fun _ => d_fn g) (filter (fun x => seqb x e) (d_listen g))) fs) events.
Definition with_all (args : list nat) (kwargs : dict nat) (l : listener) : called := {| by_id := l_id l; with_args := args; with_kwargs := kwargs |}.
(** Keyword arguments that reach everyone: none, or everyone is a coroutine function and the listeners take them all. *)
Definition all_take (f : decorated) (ls : list listener) (kwargs : dict nat) : Prop :=
  kwargs = [] \/ (l_async (d_fn f) = true /\ Forall (fun l => l_async l = true /\ l_kwargs l = true) ls).

Definition subs_of (fs : list decorated) : list (str * listener) := flat_map (fun g => map (fun e => (e, d_fn g)) (d_listen g)) fs.
Lemma declare_subs fs : declare fs = subscribed (subs_of fs).
Proof.
  unfold declare, subscribed. generalize (@nil (str * list listener)). induction fs as [|g fs IH]; intros d; [reflexivity|]. cbn [fold_left subs_of flat_map]. fold (subs_of fs). rewrite fold_left_app, IH. f_equal.
  unfold register. generalize d. induction (d_listen g) as [|e l IHl]; intros d'; cbn [fold_left map fst snd]; auto.
Qed.
Lemma listeners_subs e fs : listeners_of e (subs_of fs) = flat_map (fun g => map (fun _ => d_fn g) (filter (fun x => seqb x e) (d_listen g))) fs.
Proof.
  unfold listeners_of. induction fs as [|g fs IH]; [reflexivity|]. cbn [subs_of flat_map]. fold (subs_of fs). rewrite filter_app, map_app, IH. f_equal.
  induction (d_listen g) as [|x l IHl]; [reflexivity|]. cbn [map filter fst]. destruct (seqb x e); cbn [map]; [f_equal|]; exact IHl.
Qed.
Lemma calls_take ls args kwargs : kwargs = [] \/ Forall (fun l => l_async l = true /\ l_kwargs l = true) ls -> calls_of ls args kwargs = Some (map (with_all args kwargs) ls).
Proof.
  induction ls as [|l ls IH]; [reflexivity|]. intros H. cbn [calls_of map].
  assert (C : call_of l args kwargs = Some (with_all args kwargs l)).
  { unfold call_of, with_all. destruct H as [-> |F]; [destruct (l_async l), (l_kwargs l); reflexivity|]. inversion F as [|? ? (A & K) _]; subst. now rewrite A, K. }
  rewrite C, IH; [reflexivity|]. destruct H as [H|F]; [now left | right; now inversion F].
Qed.
Lemma emit_heard fs events args kwargs : kwargs = [] \/ Forall (fun l => l_async l = true /\ l_kwargs l = true) (heard fs events) ->
  emit_all events args kwargs (declare fs) = Some (map (with_all args kwargs) (heard fs events)).
Proof.
  induction events as [|e events IH]; [reflexivity|]. intros H. cbn [emit_all heard flat_map]. fold (heard fs events).
  assert (E : emit e args kwargs (declare fs) = Some (map (with_all args kwargs) (flat_map (fun g => map (fun _ => d_fn g) (filter (fun x => seqb x e) (d_listen g))) fs))).
  { unfold emit. rewrite declare_subs, subscribed_get, listeners_subs. apply calls_take. destruct H as [H|H]; [now left | right]. cbn [heard flat_map] in H. apply Forall_app in H. apply H. }
  rewrite E, IH; [now rewrite map_app|]. destruct H as [H|H]; [now left | right]. cbn [heard flat_map] in H. apply Forall_app in H. apply H.
Qed.

(** * C214: a call runs the function once, then its listeners *)
Theorem C214_listeners : forall b fs f args kwargs, all_take f (heard fs (d_send f)) kwargs ->
  let own := with_all args kwargs (d_fn f) in let others := map (with_all args kwargs) (heard fs (d_send f)) in
  (forall e, b (l_id (d_fn f)) args kwargs = inr e -> wrapper b (declare fs) f args kwargs = {| made := [own]; ended := Raised e |}) /\
  (forall r, b (l_id (d_fn f)) args kwargs = inl r ->
   made (wrapper b (declare fs) f args kwargs) = own :: others /\
   (ended (wrapper b (declare fs) f args kwargs) = Returned r <-> forall l, In l (heard fs (d_send f)) -> exists r', b (l_id l) args kwargs = inl r')).
Proof.
  intros b fs f args kwargs T own others.
  assert (O : own_call (d_fn f) args kwargs = Some own).
  { unfold own_call, own, with_all. destruct T as [-> |(A & _)]; [destruct (l_async (d_fn f)); reflexivity | now rewrite A]. }
  assert (EM : emit_all (d_send f) args kwargs (declare fs) = Some others) by (apply emit_heard; destruct T as [T|(_ & T)]; auto).
  unfold wrapper. rewrite O, EM. change (by_id own) with (l_id (d_fn f)). change (with_args own) with args. change (with_kwargs own) with kwargs. split.
  - intros e E. now rewrite E.
  - intros r E. rewrite E. cbn [made ended]. split; [reflexivity|]. unfold others. split.
    + intros H l I. destruct (existsb (fails b) _) eqn:X; [discriminate H|]. destruct (b (l_id l) args kwargs) as [r'|e'] eqn:B; [eauto|]. exfalso.
      assert (Y : existsb (fails b) (map (with_all args kwargs) (heard fs (d_send f))) = true); [|congruence].
      apply existsb_exists. exists (with_all args kwargs l). split; [now apply in_map|]. unfold fails, with_all. cbn. now rewrite B.
    + intros H. destruct (existsb (fails b) _) eqn:X; [|reflexivity]. exfalso. apply existsb_exists in X. destruct X as (c & I & F). apply in_map_iff in I. destruct I as (l & <- & I).
      destruct (H l I) as (r' & B). unfold fails, with_all in F. cbn in F. rewrite B in F. discriminate F.
Qed.
Print Assumptions C214_listeners.
Definition fn (i : nat) (a k : bool) : listener := {| l_id := i; l_async := a; l_kwargs := k; l_names := [] |}.
Definition signup : decorated := {| d_fn := fn 1 true true; d_send := [u "signed up"; u "seen"]; d_listen := [] |}.
Definition mail : decorated := {| d_fn := fn 2 true true; d_send := []; d_listen := [u "signed up"] |}.
Definition log : decorated := {| d_fn := fn 3 true true; d_send := []; d_listen := [u "seen"; u "signed up"] |}.
Definition fine : bodies := fun i _ _ => inl (10 + i).
Example C214_case : heard [mail; signup; log] (d_send signup) = [fn 2 true true; fn 3 true true; fn 3 true true] /\
  ended (wrapper fine (declare [mail; signup; log]) signup [7] [(u "x", 1)]) = Returned 11 /\ length (made (wrapper fine (declare [mail; signup; log]) signup [7] [(u "x", 1)])) = 4.
Proof. vm_compute. auto. Qed.

(** * C215: decorated functions take keyword arguments *)
Definition C215_statement : Prop := forall b fs f args kwargs r, b (l_id (d_fn f)) args kwargs = inl r -> d_send f = [] ->
  wrapper b (declare fs) f args kwargs = {| made := [with_all args kwargs (d_fn f)]; ended := Returned r |}.
Theorem C215_refuted : ~ C215_statement.
Proof. intros H. specialize (H fine [] {| d_fn := fn 1 false false; d_send := []; d_listen := [] |} [] [(u "x", 1)] 11 eq_refl eq_refl). vm_compute in H. discriminate H. Qed.
Print Assumptions C215_refuted.
(** Coroutine functions do; others with a name that is not one of [run_sync]'s fail before they run. *)
Theorem C215_kwargs_partial : forall b fs f args kwargs r, d_send f = [] ->
  (l_async (d_fn f) = true \/ kwargs = [] -> b (l_id (d_fn f)) args kwargs = inl r ->
   wrapper b (declare fs) f args kwargs = {| made := [with_all args kwargs (d_fn f)]; ended := Returned r |}) /\
  (l_async (d_fn f) = false -> (exists k, In k (dkeys kwargs) /\ ~ In k [u "abandon_on_cancel"; u "cancellable"; u "limiter"]) ->
   wrapper b (declare fs) f args kwargs = {| made := []; ended := BadArguments |}).
Proof.
  intros b fs f args kwargs r NS. split.
  - intros A E. unfold wrapper, own_call. rewrite NS. cbn [emit_all existsb].
    destruct A as [A| ->]; [rewrite A; cbn [by_id with_args with_kwargs]; rewrite E; reflexivity|]. destruct (l_async (d_fn f)); cbn [forallb by_id with_args with_kwargs]; rewrite E; reflexivity.
  - intros A (k & I & NI). unfold wrapper, own_call. rewrite A. destruct (forallb _ kwargs) eqn:F; [|reflexivity]. exfalso. rewrite forallb_forall in F. unfold dkeys in I. apply in_map_iff in I. destruct I as ((k' & v) & EQ & I). cbn in EQ. subst k'.
    apply NI. specialize (F _ I). cbn [fst] in F. now apply smem_In in F.
Qed.
Print Assumptions C215_kwargs_partial.
Example C215_case : wrapper fine (declare []) {| d_fn := fn 1 true false; d_send := []; d_listen := [] |} [] [(u "x", 1)] = {| made := [{| by_id := 1; with_args := []; with_kwargs := [(u "x", 1)] |}]; ended := Returned 11 |}.
Proof. reflexivity. Qed.

(** * C216: listeners send their own events *)
Definition C216_statement : Prop := forall b fs f g h e1 e2 args, In g fs -> In h fs -> (forall i a k, exists r, b i a k = inl r) ->
  In e1 (d_send f) -> In e1 (d_listen g) -> In e2 (d_send g) -> In e2 (d_listen h) ->
  In (l_id (d_fn h)) (map by_id (made (wrapper b (declare fs) f args []))).
Definition first_ : decorated := {| d_fn := fn 1 true true; d_send := [u "a"]; d_listen := [] |}.
Definition second_ : decorated := {| d_fn := fn 2 true true; d_send := [u "b"]; d_listen := [u "a"] |}.
Definition third_ : decorated := {| d_fn := fn 3 true true; d_send := []; d_listen := [u "b"] |}.
Theorem C216_refuted : ~ C216_statement.
Proof.
  intros H. specialize (H fine [first_; second_; third_] first_ second_ third_ (u "a") (u "b") []). cbn [In d_send d_listen first_ second_ third_] in H.
  assert (E : In 3 [1; 2]); [|cbn in E; intuition discriminate]. apply H; auto. intros i a k. eexists. reflexivity.
Qed.
Print Assumptions C216_refuted.
(** Exactly the functions that listen to an event of the called function run, and not more. *)
Theorem C216_depth_one_partial : forall b fs f args i r, b (l_id (d_fn f)) args [] = inl r ->
  In i (map by_id (made (wrapper b (declare fs) f args []))) <->
  i = l_id (d_fn f) \/ exists g e, In g fs /\ i = l_id (d_fn g) /\ In e (d_send f) /\ In e (d_listen g).
Proof.
  intros b fs f args i r B. destruct (C214_listeners b fs f args [] (or_introl eq_refl)) as (_ & H). destruct (H r B) as (M & _). rewrite M. cbn [map with_all by_id In]. rewrite map_map. cbn [by_id].
  split.
  - intros [E|I]; [now left | right]. apply in_map_iff in I. destruct I as (l & <- & I). unfold heard in I. apply in_flat_map in I. destruct I as (e & IE & I). apply in_flat_map in I. destruct I as (g & IG & I).
    apply in_map_iff in I. destruct I as (x & <- & I). apply filter_In in I. destruct I as (I & EQ). destruct (seqb_spec x e) as [->|]; [|discriminate]. exists g, e. auto.
  - intros [E|(g & e & IG & -> & IE & IL)]; [now left | right]. apply in_map_iff. exists (d_fn g). split; [reflexivity|]. unfold heard. apply in_flat_map. exists e. split; [exact IE|]. apply in_flat_map. exists g. split; [exact IG|].
    apply in_map_iff. exists e. split; [reflexivity|]. apply filter_In. split; [exact IL | apply seqb_refl].
Qed.
Print Assumptions C216_depth_one_partial.
Example C216_case : map by_id (made (wrapper fine (declare [first_; second_; third_]) first_ [] [])) = [1; 2].
Proof. reflexivity. Qed.
