(** C29, C30, C59, C60, C61: providers. *)
From Verif Require Import PyStr PyStrFacts DepModel DepSpec DepProofs.

(** Factories as free functions: the value shows what they were called with. *)
Definition shows (f : nat) (args : list value) (kwargs : dict value) : option value := Some (VMade f args kwargs).
Definition arg (n : str) : param := {| a_name := n; a_kind := Plain; a_default := false |}.
Definition opt (n : str) : param := {| a_name := n; a_kind := Plain; a_default := true |}.
Definition fn (f : nat) (ps : list param) : provide := {| p_fn := f; p_params := ps; p_args := []; p_kwargs := []; p_cache := false; p_class := false |}.
Definition cached_fn (f : nat) (ps : list param) : provide := {| p_fn := f; p_params := ps; p_args := []; p_kwargs := []; p_cache := true; p_class := false |}.

(** C29. Full statement: what resolving gives does not depend on the requests before. *)
Definition C29_statement : Prop := forall fuel call provs deps hs os st log rq i,
  (forall p, In p provs -> p_cache p = false) ->
  history fuel call provs deps hs (start provs) = Some (os, st, log) ->
  result (resolve fuel call provs deps rq i st) = result (resolve fuel call provs deps rq i (start provs)).
(** The second request, with an empty body, gets the text the first one sent. *)
Theorem C29_refuted : ~ C29_statement.
Proof.
  intros H.
  specialize (H 3%nat shows [fn 0 [opt (u "token")]] []
    [({| r_id := 1; r_data := DMap [(u "token", VText (u "secret"))] |}, 0%nat)]
    [Ret (VMade 0 [] [(u "token", VText (u "secret"))])] [{| kw := [(u "token", VText (u "secret"))]; cached := None |}] [0%nat]
    {| r_id := 2; r_data := DNone |} 0%nat).
  assert (X := H ltac:(intros p [<-|[]]; reflexivity) ltac:(vm_compute; reflexivity)). vm_compute in X. discriminate X.
Qed.
Print Assumptions C29_refuted.

(** Proved when the earlier requests' bodies have no value for a provider's parameter; the last
    request is any. *)
Theorem C29_isolation_partial : forall fuel call provs deps hs os st log rq i,
  (forall p, In p provs -> p_cache p = false) ->
  (forall rq i, In (rq, i) hs -> brings_nothing provs deps rq) ->
  history fuel call provs deps hs (start provs) = Some (os, st, log) ->
  result (resolve fuel call provs deps rq i st) = result (resolve fuel call provs deps rq i (start provs)).
Proof. intros fuel call provs deps hs os st log rq i NC B H. apply history_state in H; [|exact NC | exact B]. subst st. reflexivity. Qed.
Print Assumptions C29_isolation_partial.

Definition tree : list provide := [fn 0 []; fn 1 [arg (u "db")]; fn 2 [arg (u "db"); arg (u "repo")]].
Definition names : dict nat := [(u "db", 0%nat); (u "repo", 1%nat); (u "service", 2%nat)].
Example C29_case :
  let hs := [({| r_id := 1; r_data := DMap [(u "db", VText (u "x")); (u "other", VText (u "y"))] |}, 2%nat); ({| r_id := 2; r_data := DNone |}, 1%nat)] in
  (forall p, In p tree -> p_cache p = false) /\ (forall rq i, In (rq, i) hs -> brings_nothing tree names rq) /\
  result (resolve 4 shows tree names {| r_id := 1; r_data := DNone |} 2 (start tree))
    = Some (Ret (VMade 2 [] [(u "db", VMade 0 [] []); (u "repo", VMade 1 [] [(u "db", VMade 0 [] [])])])) /\
  history 4 shows tree names hs (start tree) <> None.
Proof.
  split; [intros p [<-|[<-|[<-|[]]]]; reflexivity|]. split; [|split; [vm_compute; reflexivity | vm_compute; discriminate]].
  intros rq i [E|[E|[]]]; injection E as <- <-; intros body D; [|discriminate D]. injection D as <-. intros p key P [<-|[<-|[]]] K; cbn [map fst names].
  - left. reflexivity.
  - exfalso. cbn [tree In] in P. destruct P as [<-|[<-|[<-|[]]]]; vm_compute in K; intuition discriminate.
Qed.

(** C30. A cached provider's factory returns at most once, in every history of resolutions of any
    providers; without cycles every resolution ends. *)
Theorem C30_once : forall fuel call provs deps rank hs os st log c pc,
  ranked provs deps rank -> nth_error provs c = Some pc -> p_cache pc = true ->
  history fuel call provs deps hs (start provs) = Some (os, st, log) -> (times c log <= 1)%nat.
Proof.
  intros fuel call provs deps rank hs os st log c pc RK PC CC H. destruct (history_keeps call provs deps rank c pc fuel RK PC CC hs _ _ _ _ H) as (_ & K & _).
  destruct (cache_of st c); cbn [isome] in K; lia.
Qed.
Print Assumptions C30_once.
Theorem C30_ends : forall call provs deps rank rq i st, ranked provs deps rank -> (i < length provs)%nat -> length st = length provs ->
  resolve (S (rank i)) call provs deps rq i st <> None.
Proof.
  intros call provs deps rank rq i st RK I L. destruct (resolve_total call provs deps rank rq RK (S (rank i)) i st) as (o & st' & log & E & _); [lia | exact I | exact L|]. rewrite E. discriminate.
Qed.
Print Assumptions C30_ends.

(** Full statement about the values: all resolutions that succeed give the same one. *)
Definition C30_statement : Prop := forall fuel call provs deps rank hs os st log c pc,
  ranked provs deps rank -> nth_error provs c = Some pc -> p_cache pc = true ->
  history fuel call provs deps hs (start provs) = Some (os, st, log) ->
  forall a b ra rb va vb, nth_error hs a = Some (ra, c) -> nth_error hs b = Some (rb, c) ->
  nth_error os a = Some (Ret va) -> nth_error os b = Some (Ret vb) -> va = vb.
(** A generator: first the value it yields, then the generator object. *)
Theorem C30_refuted : ~ C30_statement.
Proof.
  intros H. specialize (H 2%nat (fun f _ _ => Some (VGen (VText (u "db")))) [cached_fn 0 []] [] (fun _ => 0%nat)
    [({| r_id := 1; r_data := DNone |}, 0%nat); ({| r_id := 2; r_data := DNone |}, 0%nat)]
    [Ret (VText (u "db")); Ret (VGen (VText (u "db")))] [{| kw := []; cached := Some (VGen (VText (u "db"))) |}] [0%nat] 0%nat (cached_fn 0 [])).
  assert (X : VText (u "db") = VGen (VText (u "db"))).
  { eapply H with (a := 0%nat) (b := 1%nat); [|reflexivity|reflexivity|vm_compute; reflexivity|reflexivity|reflexivity|reflexivity|reflexivity].
    intros i p a j P A. destruct i as [|[|i]]; [|discriminate P|discriminate P]. injection P as <-. destruct A. }
  discriminate X.
Qed.
Print Assumptions C30_refuted.
(** Proved for factories that do not return generators. *)
Theorem C30_value_partial : forall fuel call provs deps rank hs os st log c pc,
  ranked provs deps rank -> nth_error provs c = Some pc -> p_cache pc = true ->
  (forall k g, call (p_fn pc) (p_args pc) k <> Some (VGen g)) ->
  history fuel call provs deps hs (start provs) = Some (os, st, log) ->
  forall a b ra rb va vb, nth_error hs a = Some (ra, c) -> nth_error hs b = Some (rb, c) ->
  nth_error os a = Some (Ret va) -> nth_error os b = Some (Ret vb) -> va = vb.
Proof.
  intros fuel call provs deps rank hs os st log c pc RK PC CC NG H. exact (proj2 (history_first call provs deps rank c pc fuel RK PC CC NG hs _ _ _ _ H)).
Qed.
Print Assumptions C30_value_partial.

Example C30_case :
  let provs := [cached_fn 0 [arg (u "request")]; fn 1 [arg (u "db")]; fn 2 [arg (u "db"); arg (u "repo")]] in
  let hs := [({| r_id := 1; r_data := DNone |}, 2%nat); ({| r_id := 2; r_data := DNone |}, 0%nat); ({| r_id := 3; r_data := DNone |}, 0%nat)] in
  ranked provs names (fun i => i) /\ (forall k g, shows 0 [] k <> Some (VGen g)) /\
  option_map (fun x => (tl (fst (fst x)), snd x)) (history 4 shows provs names hs (start provs))
    = Some ([Ret (VMade 0 [] [(u "request", VRequest 1)]); Ret (VMade 0 [] [(u "request", VRequest 1)])], [0; 1; 2]%nat).
Proof.
  split; [|split; [discriminate | vm_compute; reflexivity]].
  intros i p a j P A D. destruct i as [|[|[|[|i]]]]; try discriminate P; injection P as <-.
  - destruct A as [<-|[]]. discriminate D.
  - destruct A as [<-|[]]. vm_compute in D. injection D as <-. cbn. lia.
  - destruct A as [<-|[<-|[]]]; vm_compute in D; injection D as <-; cbn; lia.
Qed.

(** C59. Full statement: a factory that takes the request and other dependencies gets each under its
    own name. *)
Definition C59_statement : Prop := forall fuel provs deps rq i p st f args k st' log,
  nth_error provs i = Some p -> p_args p = [] -> p_cache p = false -> NoDup (map a_name (p_params p)) ->
  nth_error st i = Some {| kw := []; cached := None |} -> r_data rq = DNone -> p_class p = false ->
  In (u "request") (map a_name (p_params p)) -> dget (u "request") deps = None ->
  resolve fuel shows provs deps rq i st = Some (Ret (VMade f args k), st', log) ->
  dget (u "request") k = Some (VRequest (r_id rq)) /\
  forall a j, In a (p_params p) -> a_kind a = Plain -> dget (a_name a) deps = Some j ->
    exists v s1 s2 lg, resolve (pred fuel) shows provs deps rq j s1 = Some (Ret v, s2, lg) /\ dget (a_name a) k = Some v.
(** Where the request is not the first parameter it takes the place of the first. *)
Theorem C59_refuted : ~ C59_statement.
Proof.
  intros H.
  set (provs := [fn 0 []; fn 1 [arg (u "db"); arg (u "request")]]). set (rq := {| r_id := 7; r_data := DNone |}).
  specialize (H 3%nat provs [(u "db", 0%nat)] rq 1%nat (fn 1 [arg (u "db"); arg (u "request")]) (start provs) 1%nat []
    [(u "db", VRequest 7)] (start provs) [0; 1]%nat).
  destruct H as (H & _); try reflexivity; [| right; left; reflexivity | discriminate H].
  repeat constructor; cbn; intuition discriminate.
Qed.
Print Assumptions C59_refuted.
Theorem C59_request_first_partial : forall fuel provs deps rq i p st f args k st' log,
  nth_error provs i = Some p -> p_args p = [] -> p_cache p = false -> NoDup (map a_name (p_params p)) ->
  nth_error st i = Some {| kw := []; cached := None |} -> r_data rq = DNone -> p_class p = false ->
  hd_error (map a_name (p_params p)) = Some (u "request") -> dget (u "request") deps = None ->
  resolve fuel shows provs deps rq i st = Some (Ret (VMade f args k), st', log) ->
  dget (u "request") k = Some (VRequest (r_id rq)) /\
  forall a j, In a (p_params p) -> a_kind a = Plain -> dget (a_name a) deps = Some j ->
    exists v s1 s2 lg, resolve (pred fuel) shows provs deps rq j s1 = Some (Ret v, s2, lg) /\ dget (a_name a) k = Some v.
Proof.
  intros fuel provs deps rq i p st f args k st' log P AR CC ND T D CL HD RD E. destruct fuel as [|fl]; [discriminate E|]. cbn [resolve pred] in *.
  rewrite P, T, CC in E. cbn [cached kw] in E. destruct (p_params p) as [|first more] eqn:PP; [discriminate HD|]. assert (HD2 : a_name first = u "request") by (change (Some (a_name first) = Some (u "request")) in HD; congruence). clear HD. rename HD2 into HD. rewrite D, AR, CL in E.
  destruct (walk _ deps (first :: more) [] _ []) as [((x & st2) & lg)|] eqn:W; [|discriminate E]. destruct x as [kwargs|e]; [|injection E as -> _ _; exfalso].
  2: { revert W. clear. generalize (@nil (str * value)) (@nil nat) (update i {| kw := []; cached := None |} st). generalize (first :: more) as l. induction l as [|a l IH]; intros kwargs lg0 st0; cbn [walk]; [discriminate|].
       destruct (a_kind a); [|apply IH]. destruct (dget (a_name a) deps); [|apply IH]. destruct (resolve fl shows provs deps rq n st0) as [((o & s') & l')|]; [|discriminate].
       destruct o; [apply IH | discriminate | discriminate]. }
  unfold invoke, shows in E. cbn [yielded] in E. assert (Ek : k = inject_request p [] (r_id rq) kwargs) by congruence. subst k. clear E.
  apply walk_args in W; [|exact ND]. destruct W as (_ & W2 & W3). specialize (W2 _ RD). change (dget (u "request") []) with (@None value) in W2.
  unfold inject_request, param_names. rewrite PP.
  assert (S1 : smem (u "request") (map a_name (first :: more)) = true) by (apply smem_In; left; exact HD).
  assert (S2 : dmem (u "request") kwargs = false) by (destruct (dmem (u "request") kwargs) eqn:X; [apply dmem_iff in X; destruct X as (v & X); congruence | reflexivity]).
  rewrite S1, S2, HD. cbn [negb andb]. split; [apply dget_dset_same|]. intros a j A K0 DJ. destruct (W3 a j A K0 DJ) as (v & s1 & s2 & l & R & G).
  exists v, s1, s2, l. split; [exact R|]. rewrite dget_dset_other; [exact G|]. intros X. rewrite X, RD in DJ. discriminate DJ.
Qed.
Print Assumptions C59_request_first_partial.
Example C59_case :
  let provs := [fn 0 []; fn 1 [arg (u "request"); arg (u "db")]] in let rq := {| r_id := 7; r_data := DNone |} in
  result (resolve 3 shows provs [(u "db", 0%nat)] rq 1 (start provs)) = Some (Ret (VMade 1 [] [(u "db", VMade 0 [] []); (u "request", VRequest 7)])) /\
  NoDup (map a_name [arg (u "request"); arg (u "db")]).
Proof. split; [vm_compute; reflexivity|]. repeat constructor; cbn; intuition discriminate. Qed.

(** C60. Full statement: a dependency is resolved whatever kind of body the request has. *)
Definition C60_statement : Prop := forall fuel call provs deps rq i st, result (resolve fuel call provs deps rq i st) <> Some AttributeError.
(** A text or a JSON array as body: every provider that has parameters fails. *)
Theorem C60_refuted : ~ C60_statement.
Proof.
  intros H. apply (H 3%nat shows [fn 0 [arg (u "request")]] [] {| r_id := 1; r_data := DOther |} 0%nat (start [fn 0 [arg (u "request")]])). vm_compute. reflexivity.
Qed.
Print Assumptions C60_refuted.
Theorem C60_mapping_partial : forall fuel call provs deps rq i st, r_data rq <> DOther -> result (resolve fuel call provs deps rq i st) <> Some AttributeError.
Proof.
  intros fuel call provs deps rq i st D. revert i st. induction fuel as [|f IH]; intros i st; [discriminate|]. cbn [resolve].
  destruct (nth_error provs i) as [p|]; [|discriminate]. destruct (nth_error st i) as [s|]; [|discriminate]. destruct (if p_cache p then cached s else None); [discriminate|].
  assert (W : forall l kwargs st0 log, match walk (fun j st => resolve f call provs deps rq j st) deps l kwargs st0 log with Some (inr AttributeError, _, _) => False | _ => True end).
  { induction l as [|a l IHl]; intros kwargs st0 log; cbn [walk]; [exact I|]. destruct (a_kind a); [|apply IHl]. destruct (dget (a_name a) deps) as [j|]; [|apply IHl].
    specialize (IH j st0). destruct (resolve f call provs deps rq j st0) as [((o & s') & l')|]; [|exact I]. destruct o; [apply IHl | exfalso; apply IH; reflexivity | exact I]. }
  assert (G : forall k st1, result (if match p_args p, k with [], [] => p_class p | _, _ => true end then
       match invoke call p k with Some v => Some (Ret v, remember p i v st1, [i]) | None => Some (Raised, st1, []) end
     else match walk (fun j st => resolve f call provs deps rq j st) deps (p_params p) [] st1 [] with
          | Some (inl kwargs, st2, log) => match invoke call p (inject_request p k (r_id rq) kwargs) with
             | Some v => Some (Ret (yielded v), remember p i v st2, log ++ [i]) | None => Some (Raised, st2, log) end
          | Some (inr e, st2, log) => Some (e, st2, log) | None => None end) <> Some AttributeError).
  { intros k st1. destruct (match p_args p, k with [], [] => p_class p | _, _ => true end); [destruct (invoke call p k); discriminate|].
    specialize (W (p_params p) [] st1 []). destruct (walk _ deps (p_params p) [] st1 []) as [((x & st2) & lg)|]; [|discriminate]. destruct x as [kwargs|e]; [destruct (invoke call p _); discriminate|].
    destruct e; [discriminate | contradiction | discriminate]. }
  destruct (p_params p) eqn:PP; [apply G|]. destruct (r_data rq); [apply G | congruence | apply G].
Qed.
Print Assumptions C60_mapping_partial.
Example C60_case : r_data {| r_id := 1; r_data := DMap [(u "a", VText (u "x"))] |} <> DOther /\
  result (resolve 3 shows [fn 0 [arg (u "a")]] [] {| r_id := 1; r_data := DMap [(u "a", VText (u "x"))] |} 0 (start [fn 0 [arg (u "a")]])) = Some (Ret (VMade 0 [] [(u "a", VText (u "x"))])).
Proof. split; [discriminate | vm_compute; reflexivity]. Qed.

(** C61. Full statement: a constant given as a dependency is the value that is injected. *)
Definition C61_statement : Prop := forall cs, wrap_all cs [] = Some cs.
(** [True] after [1] is [1]; and a list is refused. *)
Theorem C61_refuted : ~ C61_statement.
Proof. intros H. specialize (H [KInt 1; KBool true]). vm_compute in H. discriminate H. Qed.
Print Assumptions C61_refuted.
Theorem C61_list_refused : forall cs l r, wrap_all (cs ++ KList l :: r) [] = None.
Proof.
  intros cs l r. generalize (@nil (const * const)). induction cs as [|c cs IH]; intros cache; [reflexivity|]. cbn [app wrap_all].
  destruct (wrap_constant c cache) as [(v & cache')|]; [|reflexivity]. rewrite IH. reflexivity.
Qed.
Print Assumptions C61_list_refused.
(** In every sequence of registrations the values injected are equal in Python's sense, and the same
    when they are not numbers. *)
Theorem C61_constants_partial : forall cs vs, wrap_all cs [] = Some vs ->
  Forall2 (fun c v => py_eq c v = true /\ (num c = None -> v = c)) cs vs.
Proof.
  intros cs vs H. apply wrap_all_eq in H; [|intros e []]. induction H as [|c v cs vs E _ IH]; constructor; [|exact IH]. split; [exact E | intros N; apply py_eq_exact; assumption].
Qed.
Print Assumptions C61_constants_partial.
Example C61_case : wrap_all [KInt 1; KText (u "a"); KNone; KText (u "a"); KInt 2] [] = Some [KInt 1; KText (u "a"); KNone; KText (u "a"); KInt 2].
Proof. vm_compute. reflexivity. Qed.
