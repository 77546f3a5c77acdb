From Verif Require Import PyStr PyStrFacts JsonProofs ResModel ResSpec ResProofs.
From Coq Require Import Sorting.Sorted Sorting.Permutation.

(** Functions that return what they were made from. *)
Definition plain_world : world := fun _ f kwargs => Returns (VMade f kwargs).
(** def get_db(): yield ...; async def scheme(request); def get_user(db=Resolve(get_db),
    token=Security(scheme), limit=10); def both(user=Resolve(get_user), db=Resolve(get_db)). *)
Definition table1 : list func :=
  [ {| f_kind := Sync; f_params := [] |};
    {| f_kind := Coro; f_params := [(u "request", Required)] |};
    {| f_kind := Sync; f_params := [(u "db", Resolve 0); (u "token", Security 1); (u "limit", Optional)] |};
    {| f_kind := Coro; f_params := [(u "user", Resolve 2); (u "db", Resolve 0)] |} ].
Definition world1 : world := fun t f kwargs => match f with O => Generator (Some (VText (dec (N.of_nat t)))) | _ => Returns (VMade f kwargs) end.
Lemma table1_proper : proper table1.
Proof.
  intros f fd E. do 4 (destruct f as [|f]; [injection E as <-; cbn; repeat (apply NoDup_cons; [cbn; intuition discriminate|]); apply NoDup_nil|]).
  destruct f; discriminate.
Qed.
Lemma table1_ranked : ranked table1 [] (fun n => n).
Proof.
  intros f fd a d E. do 4 (destruct f as [|f]; [injection E as <-; cbn; split; [intros I|intros I g [= <-]];
    repeat (destruct I as [I|I]; [try discriminate; injection I as _ <-; lia|]); destruct I|]).
  destruct f; discriminate.
Qed.

(** C133: resolving a function gives it, for each marked parameter, the value of the marked
    dependency, each resolved anew and in the same way, and nothing for other parameters. *)
Theorem C133_sound : forall fuel w tbl ov rq f st v st', proper tbl ->
  resolve fuel w tbl ov rq f st = Some (Ret v, st') ->
  exists cs og, calls st' = calls st ++ cs /\ opened st' = opened st ++ og /\ solved w tbl ov rq (length (calls st)) f v cs og.
Proof.
  intros fuel w tbl ov rq f st v st' P R. destruct (resolve_sound w tbl ov rq P _ _ _ _ _ R) as (cs & og & -> & S).
  exists cs, og. now split.
Qed.
Print Assumptions C133_sound.

Theorem C133_complete : forall w tbl ov rq f v cs og, proper tbl -> solved w tbl ov rq 0 f v cs og ->
  exists n0, forall fuel, (n0 <= fuel)%nat -> resolve fuel w tbl ov rq f fresh = Some (Ret v, {| calls := cs; opened := og |}).
Proof.
  intros w tbl ov rq f v cs og P S. destruct (proj1 (complete w tbl ov rq P) _ _ _ _ _ S fresh eq_refl) as [n0 H].
  exists n0. intros n L. now rewrite H.
Qed.
Print Assumptions C133_complete.

Theorem C133_ends : forall w tbl ov rq rank f st, ranked tbl ov rank -> resolve (S (rank f)) w tbl ov rq f st <> None.
Proof. intros. apply (resolve_ends w tbl ov rq rank); [assumption|lia]. Qed.
Print Assumptions C133_ends.

(** The arguments of every call made: those of a security scheme are the connection alone, those of a
    resolved function are named like its marked parameters, in their order. *)
Theorem C133_arguments : forall fuel w tbl ov rq f v st', proper tbl -> resolve fuel w tbl ov rq f fresh = Some (Ret v, st') ->
  forall g kwargs, In (g, kwargs) (calls st') -> exists fd, nth_error tbl g = Some fd /\
    ((exists b m more, f_params fd = (b, m) :: more /\ kwargs = [(b, VRequest rq)]) \/
     map fst kwargs = map fst (filter marked (f_params fd))).
Proof.
  intros fuel w tbl ov rq f v st' P R. destruct (resolve_sound w tbl ov rq P _ _ _ _ _ R) as (cs & og & -> & S). cbn [ext calls fresh app].
  revert S. generalize (length (calls fresh)). intros t S.
  pattern t, f, v, cs, og, S. revert t f v cs og S R.
  assert (X : (forall t f v cs og, solved w tbl ov rq t f v cs og -> forall g kwargs, In (g, kwargs) cs -> exists fd, nth_error tbl g = Some fd /\
    ((exists b m more, f_params fd = (b, m) :: more /\ kwargs = [(b, VRequest rq)]) \/
     map fst kwargs = map fst (filter marked (f_params fd)))) /\
     (forall t ps kw cs og, supplied w tbl ov rq t ps kw cs og -> forall g kwargs, In (g, kwargs) cs -> exists fd, nth_error tbl g = Some fd /\
    ((exists b m more, f_params fd = (b, m) :: more /\ kwargs = [(b, VRequest rq)]) \/
     map fst kwargs = map fst (filter marked (f_params fd))))).
  { apply (solved_supplied w tbl ov rq
      (fun t f v cs og _ => forall g kwargs, In (g, kwargs) cs -> exists fd, nth_error tbl g = Some fd /\
        ((exists b m more, f_params fd = (b, m) :: more /\ kwargs = [(b, VRequest rq)]) \/
         map fst kwargs = map fst (filter marked (f_params fd))))
      (fun t ps kw cs og _ => forall g kwargs, In (g, kwargs) cs -> exists fd, nth_error tbl g = Some fd /\
        ((exists b m more, f_params fd = (b, m) :: more /\ kwargs = [(b, VRequest rq)]) \/
         map fst kwargs = map fst (filter marked (f_params fd))))); intros; try solve [cbn in *; eauto; easy].
    - match goal with I : In _ (_ ++ _) |- _ => apply in_app_or in I as [I|[I|[]]] end; [eauto|].
      match goal with I : (_, _) = (_, _) |- _ => injection I as <- <- end.
      eexists; split; [eassumption|]. right. eapply supplied_keys. eassumption.
    - match goal with I : In _ (_ :: _) |- _ => destruct I as [I|I] end; [|eauto].
      match goal with I : (_, _) = (_, _) |- _ => injection I as <- <- end.
      eexists; split; [eassumption|]. left. eauto.
    - match goal with I : In _ (_ ++ _) |- _ => apply in_app_or in I as [I|I] end; eauto. }
  intros t f v cs og S _. exact (proj1 X t f v cs og S).
Qed.
Print Assumptions C133_arguments.

(** When something fails, the function itself was not called, unless all its arguments were there. *)
Theorem C133_called_last : forall fuel w tbl ov rq rank f o st', proper tbl -> ranked tbl ov rank ->
  resolve fuel w tbl ov rq f fresh = Some (o, st') ->
  (forall c, In c (calls st') -> (rank (fst c) < rank f)%nat) \/
  exists cs kwargs og fd, calls st' = cs ++ [(f, kwargs)] /\ nth_error tbl f = Some fd /\ supplied w tbl ov rq 0 (f_params fd) kwargs cs og /\
    (forall c, In c cs -> (rank (fst c) < rank f)%nat).
Proof.
  intros fuel w tbl ov rq rank f o st' P R X. destruct (resolve_calls w tbl ov rq P rank R _ _ _ _ _ X) as (cs & E & H).
  cbn [fresh calls app] in E. rewrite E. destruct H as [F|(cs' & kw & og & -> & F & fd & Ef & S)].
  - left. now apply Forall_forall.
  - right. exists cs', kw, og, fd. repeat split; try assumption. now apply Forall_forall.
Qed.
Print Assumptions C133_called_last.

(** [get_db] is asked for twice and opened twice; an override replaces it below. *)
Example C133_case :
  resolve 4 world1 table1 [] 7 3 fresh =
    Some (Ret (VMade 3 [(u "user", VMade 2 [(u "db", VText (u "0")); (u "token", VMade 1 [(u "request", VRequest 7)])]); (u "db", VText (u "3"))]),
          {| calls := [(0, []); (1, [(u "request", VRequest 7)]);
                       (2, [(u "db", VText (u "0")); (u "token", VMade 1 [(u "request", VRequest 7)])]); (0, []);
                       (3, [(u "user", VMade 2 [(u "db", VText (u "0")); (u "token", VMade 1 [(u "request", VRequest 7)])]); (u "db", VText (u "3"))])]%nat;
             opened := [0; 3]%nat |})
  /\ resolve 4 world1 table1 [(0, TValue (VText (u "fake")))]%nat 7 2 fresh =
    Some (Ret (VMade 2 [(u "db", VText (u "fake")); (u "token", VMade 1 [(u "request", VRequest 7)])]),
          {| calls := [(1, [(u "request", VRequest 7)]); (2, [(u "db", VText (u "fake")); (u "token", VMade 1 [(u "request", VRequest 7)])])]%nat; opened := [] |}).
Proof. vm_compute. auto. Qed.

(** C134: a provider's function gets, for each parameter marked [Resolve(d)], the value of [d]. *)
Definition pure (w : world) : Prop := forall t t' f k, w t f k = w t' f k.
Definition C134_statement : Prop := forall fuel w tbl rq f fd v st', proper tbl -> ranked tbl [] (fun n => n) -> pure w ->
  nth_error tbl f = Some fd -> provide fuel w tbl rq f fresh = Some (Ret v, st') ->
  exists cs kwargs, calls st' = cs ++ [(f, kwargs)] /\
    forall a d, In (a, Resolve d) (f_params fd) -> exists x c og, solved w tbl [] rq 0 d x c og /\ dget a kwargs = Some x.

(** def get_user(): ...; def get_current_user(user=Resolve(get_user)): ... *)
Definition table2 : list func := [ {| f_kind := Sync; f_params := [] |}; {| f_kind := Sync; f_params := [(u "user", Resolve 0)] |} ].
Lemma table2_proper : proper table2.
Proof.
  intros f fd E. do 2 (destruct f as [|f]; [injection E as <-; cbn; repeat (apply NoDup_cons; [cbn; intuition discriminate|]); apply NoDup_nil|]).
  destruct f; discriminate.
Qed.
Lemma table2_ranked : ranked table2 [] (fun n => n).
Proof.
  intros f fd a d E. do 2 (destruct f as [|f]; [injection E as <-; cbn; split; [intros I|intros I g [= <-]];
    repeat (destruct I as [I|I]; [try discriminate; injection I as _ <-; lia|]); destruct I|]).
  destruct f; discriminate.
Qed.
Theorem C134_refuted : ~ C134_statement.
Proof.
  intros H.
  destruct (H 4%nat plain_world table2 7%nat 1%nat _ _ _ table2_proper table2_ranked (fun _ _ _ _ => eq_refl) eq_refl
    (eq_refl : provide 4 plain_world table2 7 1 fresh =
      Some (Ret (VMade 1 [(u "user", VMade 1 [(u "user", VMade 0 [])])]),
        {| calls := [(0, []); (1, [(u "user", VMade 0 [])]); (1, [(u "user", VMade 1 [(u "user", VMade 0 [])])])]%nat; opened := [] |})))
    as (cs & kwargs & E & F).
  cbn [calls] in E. change [(0, []); (1, [(u "user", VMade 0 [])]); (1, [(u "user", VMade 1 [(u "user", VMade 0 [])])])]%nat
    with ([(0, []); (1, [(u "user", VMade 0 [])])] ++ [(1, [(u "user", VMade 1 [(u "user", VMade 0 [])])])])%nat in E.
  apply app_inj_tail in E as [_ E]. assert (K : kwargs = [(u "user", VMade 1 [(u "user", VMade 0 [])])]) by congruence. subst kwargs.
  destruct (F (u "user") 0%nat (or_introl eq_refl)) as (x & c & og & S & G). vm_compute in G.
  inversion S as [t f fd k cs1 og1 v o E1 K1 L1 S1 G1|t f fd k cs1 og1 E1 K1 L1 S1]; subst.
  - unfold plain_world in G1. inversion G1; subst. discriminate G.
  - discriminate G.
Qed.
Print Assumptions C134_refuted.

Definition times (f : nat) (cs : list (nat * dict value)) : nat := length (filter (fun c => (fst c =? f)%nat) cs).
Lemma times_app f a b : times f (a ++ b) = (times f a + times f b)%nat.
Proof. unfold times. now rewrite filter_app, app_length. Qed.
Lemma times_below rank f cs : Forall (fun c => (rank (fst c) < rank f)%nat) cs -> times f cs = 0%nat.
Proof.
  induction 1 as [|c r L F IH]; [reflexivity|]. unfold times in *. cbn [filter].
  destruct (Nat.eqb_spec (fst c) f) as [E|E]; [rewrite E in L; lia|exact IH].
Qed.
Lemma solved_once w tbl ov rq rank n f fd st v st' : proper tbl -> ranked tbl ov rank -> nth_error tbl f = Some fd -> f_kind fd <> Obj ->
  resolve n w tbl ov rq f st = Some (Ret v, st') ->
  exists cs og, calls st' = calls st ++ cs /\ solved w tbl ov rq (length (calls st)) f v cs og /\ times f cs = 1%nat.
Proof.
  intros P R E K X. destruct (resolve_sound w tbl ov rq P _ _ _ _ _ X) as (cs & og & -> & S).
  exists cs, og. split; [reflexivity|]. split; [exact S|].
  destruct (resolve_calls w tbl ov rq P rank R _ _ _ _ _ X) as (cs1 & E1 & H). cbn [ext calls] in E1. apply app_inv_head in E1. subst cs1.
  inversion S as [t f' fd' k cs1 og1 v' o E1 K1 L1 S1 G1|t f' fd' k cs1 og1 E1 K1 L1 S1]; subst.
  - rewrite times_app. change (times f [(f, k)]) with (length (if (f =? f)%nat then [(f, k)] else [])). rewrite Nat.eqb_refl. cbn [length].
    destruct H as [F|(cs' & kw & og & Ec & F & _)].
    + apply Forall_app in F as [_ F]. inversion F as [|c r L]; subst. unfold below in L. cbn in L. lia.
    + apply app_inj_tail in Ec as [-> _]. rewrite (times_below rank); [lia|]. exact F.
  - congruence.
Qed.

(** What it gets instead is the value of its own function, which is called once more for each marked
    parameter. *)
Theorem C134_own_value_partial : forall fuel w tbl rq rank f fd v st', proper tbl -> ranked tbl [] rank -> nth_error tbl f = Some fd -> f_kind fd <> Obj ->
  smem (u "request") (map fst (f_params fd)) = false ->
  provide fuel w tbl rq f fresh = Some (Ret v, st') ->
  exists cs kwargs, calls st' = cs ++ [(f, kwargs)] /\ times f (calls st') = S (length (filter marked (f_params fd))) /\
    forall a m, In (a, m) (f_params fd) -> marked (a, m) = true ->
      exists t x c og, solved w tbl [] rq t f x c og /\ dget a kwargs = Some x.
Proof.
  intros fuel w tbl rq rank f fd v st' P R E K Q. unfold provide. rewrite E.
  assert (Walk : forall ps kwargs st k' st1, NoDup (map fst ps) ->
    provide_walk fuel w tbl rq f ps kwargs st = Some (inl k', st1) ->
    exists cs, calls st1 = calls st ++ cs /\ times f cs = length (filter marked ps) /\
      (forall a, ~ In a (map fst ps) -> dget a k' = dget a kwargs) /\
      (forall a, dmem a k' = true -> dmem a kwargs = true \/ In a (map fst (filter marked ps))) /\
      forall a m, In (a, m) ps -> marked (a, m) = true -> exists t x c og, solved w tbl [] rq t f x c og /\ dget a k' = Some x).
  { induction ps as [|[a m] r IH]; intros kwargs st k' st1 D X.
    - cbn in X. injection X as <- <-. exists []. rewrite app_nil_r.
      refine (conj eq_refl (conj eq_refl (conj _ (conj _ _)))); [reflexivity|auto|easy].
    - cbn in D. apply NoDup_cons_iff in D as [Nd D].
      assert (Skip : marked (a, m) = false -> provide_walk fuel w tbl rq f r kwargs st = Some (inl k', st1) ->
        exists cs, calls st1 = calls st ++ cs /\ times f cs = length (filter marked ((a, m) :: r)) /\
          (forall a0, ~ In a0 (map fst ((a, m) :: r)) -> dget a0 k' = dget a0 kwargs) /\
          (forall a0, dmem a0 k' = true -> dmem a0 kwargs = true \/ In a0 (map fst (filter marked ((a, m) :: r)))) /\
          forall a0 m0, In (a0, m0) ((a, m) :: r) -> marked (a0, m0) = true -> exists t x c og, solved w tbl [] rq t f x c og /\ dget a0 k' = Some x).
      { intros M Y. destruct (IH _ _ _ _ D Y) as (cs & E1 & T & O & I & H). exists cs. cbn [filter]. rewrite M.
        refine (conj E1 (conj T (conj _ (conj I _)))).
        - intros b Nb. apply O. intros J. apply Nb. now right.
        - intros b mb [J|J] Mb; [injection J as -> ->; congruence|now apply (H b mb)]. }
      assert (Do : marked (a, m) = true ->
        match resolve fuel w tbl [] rq f st with
        | None => None
        | Some (Ret v, st') => provide_walk fuel w tbl rq f r (dset a v kwargs) st'
        | Some (o, st') => Some (inr o, st')
        end = Some (inl k', st1) ->
        exists cs, calls st1 = calls st ++ cs /\ times f cs = length (filter marked ((a, m) :: r)) /\
          (forall a0, ~ In a0 (map fst ((a, m) :: r)) -> dget a0 k' = dget a0 kwargs) /\
          (forall a0, dmem a0 k' = true -> dmem a0 kwargs = true \/ In a0 (map fst (filter marked ((a, m) :: r)))) /\
          forall a0 m0, In (a0, m0) ((a, m) :: r) -> marked (a0, m0) = true -> exists t x c og, solved w tbl [] rq t f x c og /\ dget a0 k' = Some x).
      { intros M. destruct (resolve fuel w tbl [] rq f st) as [[[x| |e] st2]|] eqn:Rs; try discriminate. intros Y.
        destruct (solved_once _ _ _ _ _ _ _ _ _ _ _ P R E K Rs) as (c & og & E2 & S & T2).
        destruct (IH _ _ _ _ D Y) as (cs & E1 & T & O & I & H). exists (c ++ cs). cbn [filter]. rewrite M.
        rewrite E1, E2, app_assoc, times_app, T2, T.
        refine (conj eq_refl (conj eq_refl (conj _ (conj _ _)))).
        - intros b Nb. cbn in Nb. rewrite O by tauto. apply dget_dset_other. intros ->. tauto.
        - intros b Mb. destruct (I b Mb) as [J|J]; [|right; now right].
          destruct (list_eq_dec N.eq_dec b a) as [->|Ne]; [right; now left|left].
          apply dmem_iff in J as [y J]. rewrite dget_dset_other in J by congruence. apply dmem_iff. eauto.
        - intros b mb [J|J] Mb.
          + injection J as -> ->. exists (length (calls st)), x, c, og. split; [exact S|]. rewrite O by exact Nd. apply dget_dset_same.
          + now apply (H b mb). }
      destruct m; cbn [provide_walk] in X; auto. }
  destruct (provide_walk fuel w tbl rq f (f_params fd) [] fresh) as [[[k|o] st1]|] eqn:W; try discriminate.
  - destruct (Walk _ _ _ _ _ (P _ _ E) W) as (cs & E1 & T & O & I & H). cbn [fresh calls app] in E1.
    destruct (lacking _ _); [discriminate|]. intros [= X]. apply perform_calls in X. rewrite X, E1.
    exists cs, (inject_request fd rq k). split; [reflexivity|]. rewrite times_app, T.
    change (times f [(f, inject_request fd rq k)]) with (length (if (f =? f)%nat then [(f, inject_request fd rq k)] else [])).
    rewrite Nat.eqb_refl. split; [cbn; lia|].
    intros a m J M. destruct (H a m J M) as (t & x & c & og & S & G). exists t, x, c, og. split; [exact S|].
    unfold inject_request. destruct (f_params fd) as [|[b mb] more] eqn:F; [easy|]. rewrite Q. cbn [andb orb].
    destruct more as [|p more]; [|exact G]. destruct J as [J|[]]. injection J as -> ->.
    destruct m; try discriminate M; exact G.
  - intros [= -> ->]. exfalso. revert W. clear Q Walk. generalize (@nil (str * value)) fresh.
    induction (f_params fd) as [|[a m] r IHr]; intros k s; cbn [provide_walk]; [discriminate|].
    destruct m; try apply IHr; destruct (resolve fuel _ _ _ _ _ _) as [[[x| |e] s']|]; try discriminate; apply IHr.
Qed.
Print Assumptions C134_own_value_partial.
Example C134_case : times 1 (calls {| calls := [(0, []); (1, [(u "user", VMade 0 [])]); (1, [(u "user", VMade 1 [(u "user", VMade 0 [])])])]%nat; opened := [] |}) = 2%nat
  /\ provide 4 plain_world table2 7 1 fresh = Some (Ret (VMade 1 [(u "user", VMade 1 [(u "user", VMade 0 [])])]),
        {| calls := [(0, []); (1, [(u "user", VMade 0 [])]); (1, [(u "user", VMade 1 [(u "user", VMade 0 [])])])]%nat; opened := [] |}).
Proof. vm_compute. auto. Qed.

(** C135: a dependency marked [Security] is called with the connection, and its value is the argument. *)
Definition C135_statement : Prop := forall tbl rq a d fd b, proper tbl -> nth_error tbl d = Some fd -> f_kind fd = Coro -> f_params fd = [(b, Required)] ->
  exists fuel st', arguments fuel plain_world tbl rq [(a, Security d)] [] fresh = Some (inl [(a, VMade d [(b, VRequest rq)])], st').
Theorem C135_refuted : ~ C135_statement.
Proof.
  intros H. destruct (H table1 7%nat (u "token") 1%nat _ (u "request") table1_proper eq_refl eq_refl eq_refl) as (fuel & st' & X).
  destruct fuel as [|n]; [discriminate|]. vm_compute in X. discriminate.
Qed.
Print Assumptions C135_refuted.

(** At the level of a handler a scheme that takes the connection can never be called. *)
Theorem C135_handler : forall fuel w tbl rq ps a d fd b data st k st', proper tbl -> In (a, Security d) ps -> nth_error tbl d = Some fd ->
  In (b, Required) (f_params fd) -> arguments fuel w tbl rq ps data st <> Some (inl k, st').
Proof.
  intros fuel w tbl rq ps a d fd b data st k st' P I E B. revert data st.
  induction ps as [|[c m] r IH]; intros data st; [destruct I|].
  destruct I as [I|I].
  - injection I as -> ->. cbn [arguments]. destruct (resolve fuel w tbl [] rq d st) as [[[v| |e] s']|] eqn:X; try discriminate.
    exfalso. destruct (resolve_sound w tbl [] rq P _ _ _ _ _ X) as (cs & og & -> & S).
    inversion S as [t f fd' kw cs1 og1 v' o E1 K1 L1 S1 G1|t f fd' kw cs1 og1 E1 K1 L1 S1]; subst;
      rewrite E in E1; injection E1 as <-; exact (L1 b B).
  - specialize (IH I). destruct m; cbn [arguments]; auto;
      destruct (resolve fuel w tbl [] rq d0 st) as [[[v| |e] s']|]; try discriminate; apply IH.
Qed.
Print Assumptions C135_handler.

(** Below a resolved function it is called with the connection, whatever the overrides are. *)
Theorem C135_nested_partial : forall fuel w tbl ov rq f fd v st' a d, proper tbl -> nth_error tbl f = Some fd -> f_kind fd <> Obj ->
  In (a, Security d) (f_params fd) -> resolve fuel w tbl ov rq f fresh = Some (Ret v, st') ->
  exists cs kwargs t sd b m more x, calls st' = cs ++ [(f, kwargs)] /\ nth_error tbl d = Some sd /\ f_params sd = (b, m) :: more /\
    nth_error cs t = Some (d, [(b, VRequest rq)]) /\ dget a kwargs = Some x /\
    (w t d [(b, VRequest rq)] = Returns x \/ (exists g, w t d [(b, VRequest rq)] = Generator g) /\ x = VMade d [(b, VRequest rq)]).
Proof.
  intros fuel w tbl ov rq f fd v st' a d P E K I R. destruct (resolve_sound w tbl ov rq P _ _ _ _ _ R) as (cs & og & -> & S).
  inversion S as [t f' fd' kw cs1 og1 v' o E1 K1 L1 S1 G1|t f' fd' kw cs1 og1 E1 K1 L1 S1]; subst; [|congruence].
  rewrite E in E1; injection E1 as <-.
  assert (X : forall t ps kw cs og, supplied w tbl ov rq t ps kw cs og -> NoDup (map fst ps) -> In (a, Security d) ps ->
    exists i sd b m more x, nth_error tbl d = Some sd /\ f_params sd = (b, m) :: more /\
    nth_error cs i = Some (d, [(b, VRequest rq)]) /\ dget a kw = Some x /\
    (w (t + i)%nat d [(b, VRequest rq)] = Returns x \/ (exists g, w (t + i)%nat d [(b, VRequest rq)] = Generator g) /\ x = VMade d [(b, VRequest rq)])).
  { clear. intros t ps kw cs og S D I. induction S; cbn in D; try apply NoDup_cons_iff in D as [Nd D].
    - destruct I.
    - destruct I as [I|I]; [discriminate|]. auto.
    - destruct I as [I|I]; [discriminate|]. auto.
    - destruct I as [I|I].
      + injection I as -> ->. exists 0%nat, fd, b, m, more, v. rewrite Nat.add_0_r. repeat split; auto. cbn [dget]. now rewrite seqb_refl.
      + destruct (IHS D I) as (i & sd & b' & m' & more' & x & H5 & H6 & H7 & H8 & H9).
        exists (1 + i)%nat, sd, b', m', more', x. rewrite Nat.add_assoc, Nat.add_1_r. repeat split; auto. cbn [dget].
        destruct (seqb a a0) eqn:Q; [|exact H8]. apply seqb_eq in Q. subst a0. destruct Nd. now apply (in_map fst) in I.
    - destruct I as [I|I]; [discriminate|]. destruct (IHS D I) as (i & sd & b' & m' & more' & x & H5 & H6 & H7 & H8 & H9).
      exists i, sd, b', m', more', x. repeat split; auto. cbn [dget].
      destruct (seqb a a0) eqn:Q; [|exact H8]. apply seqb_eq in Q. subst a0. destruct Nd. now apply (in_map fst) in I.
    - destruct I as [I|I]; [discriminate|]. destruct (IHS D I) as (i & sd & b' & m' & more' & x & H5 & H6 & H7 & H8 & H9).
      exists (length cs + i)%nat, sd, b', m', more', x. rewrite Nat.add_assoc. repeat split; auto.
      + rewrite nth_error_app2 by lia. now replace (length cs + i - length cs)%nat with i by lia.
      + cbn [dget]. destruct (seqb a a0) eqn:Q; [|exact H8]. apply seqb_eq in Q. subst a0. destruct Nd. now apply (in_map fst) in I. }
  destruct (X _ _ _ _ _ S1 (P _ _ E) I) as (i & sd & b & m & more & x & H5 & H6 & H7 & H8 & H9).
  exists cs1, kw, i, sd, b, m, more, x. cbn in *. auto 10.
Qed.
Print Assumptions C135_nested_partial.
Example C135_case : In (u "token", Security 1) (f_params (nth 2 table1 {| f_kind := Obj; f_params := [] |}))
  /\ resolve 4 world1 table1 [] 7 2 fresh = Some (Ret (VMade 2 [(u "db", VText (u "0")); (u "token", VMade 1 [(u "request", VRequest 7)])]),
       {| calls := [(0, []); (1, [(u "request", VRequest 7)]); (2, [(u "db", VText (u "0")); (u "token", VMade 1 [(u "request", VRequest 7)])])]%nat; opened := [0%nat] |})
  /\ arguments 4 world1 table1 7 [(u "token", Security 1)] [] fresh = Some (inr TypeError, fresh).
Proof. vm_compute. auto. Qed.

(** C136: every generator that was opened for a request is closed when the request has been served,
    before the generators it was built from. *)
Definition C136_statement : Prop := forall p fuel w tbl rq ps own closes op cl, proper tbl ->
  serve p fuel w tbl rq ps own closes = Some (op, cl) -> (forall t, closes t = true) -> Permutation op cl.
Theorem C136_refuted : ~ C136_statement.
Proof.
  intros H. pose proof (H Http 4%nat world1 table1 7%nat [(u "db", Resolve 0)] false (fun _ => true) _ _ table1_proper eq_refl (fun _ => eq_refl)) as X.
  vm_compute in X. now apply Permutation_sym, Permutation_nil in X.
Qed.
Print Assumptions C136_refuted.
(** Unless the handler closes the connection itself, nothing is closed; for a websocket not even then. *)
Theorem C136_never : forall p fuel w tbl rq ps own closes op cl, serve p fuel w tbl rq ps own closes = Some (op, cl) ->
  p = Websocket \/ own = false -> cl = [].
Proof.
  intros p fuel w tbl rq ps own closes op cl. unfold serve. destruct (arguments _ _ _ _ _ _ _) as [[[k|o] st]|]; [|intros [= <- <-]; auto|discriminate].
  intros [= <- <-] [-> | ->]; [now destruct own|reflexivity].
Qed.
Print Assumptions C136_never.

Lemma solved_opened w tbl ov rq :
  (forall t f v cs og, solved w tbl ov rq t f v cs og -> StronglySorted lt og /\ Forall (fun i => (t <= i < t + length cs)%nat) og) /\
  (forall t ps kw cs og, supplied w tbl ov rq t ps kw cs og -> StronglySorted lt og /\ Forall (fun i => (t <= i < t + length cs)%nat) og).
Proof.
  assert (App : forall (a b : list nat) x, StronglySorted lt a -> StronglySorted lt b -> Forall (fun i => (i < x)%nat) a -> Forall (fun i => (x <= i)%nat) b ->
    StronglySorted lt (a ++ b)).
  { intros a b x Sa Sb Fa Fb. induction Sa as [|y l Sl IH F]; [exact Sb|]. inversion Fa; subst. cbn. constructor; [auto|].
    apply Forall_app. split; [exact F|]. eapply Forall_impl; [|exact Fb]. cbn; intros; lia. }
  apply (solved_supplied w tbl ov rq
    (fun t f v cs og _ => StronglySorted lt og /\ Forall (fun i => (t <= i < t + length cs)%nat) og)
    (fun t ps kw cs og _ => StronglySorted lt og /\ Forall (fun i => (t <= i < t + length cs)%nat) og)).
  - intros t f fd k cs og v o _ _ _ _ [S F] G.
    assert (Go : StronglySorted lt o /\ Forall (fun i => (t + length cs <= i < t + length cs + 1)%nat) o).
    { inversion G; subst; split; repeat constructor; lia. }
    destruct Go as [So Fo]. rewrite app_length. cbn [length]. split.
    + eapply (App _ _ (t + length cs)%nat); [exact S|exact So| |]; eapply Forall_impl; try eassumption; cbn; intros; lia.
    + apply Forall_app. split; eapply Forall_impl; try eassumption; cbn; intros; lia.
  - intros; assumption.
  - intros; split; constructor.
  - intros; assumption.
  - intros; assumption.
  - intros t a d fd b m more r v k cs og _ _ _ _ _ _ [S F]. split; [exact S|]. eapply Forall_impl; [|exact F]. cbn; intros; lia.
  - intros; assumption.
  - intros t a d g r v k cs og cs' og' _ _ [S F] _ [S' F']. rewrite app_length. split.
    + eapply (App _ _ (t + length cs)%nat); [exact S|exact S'| |]; eapply Forall_impl; try eassumption; cbn; intros; lia.
    + apply Forall_app. split; eapply Forall_impl; try eassumption; cbn; intros; lia.
Qed.
Lemma run_cleanups_all closes l : (forall t, In t l -> closes t = true) -> run_cleanups closes l = l.
Proof. induction l as [|t r IH]; cbn; intros H; [reflexivity|]. rewrite (H t) by auto. rewrite IH; auto. Qed.

(** An HTTP handler that closes its request closes every generator once, in the order in which they
    were opened; a [close] that raises leaves the later ones open. *)
Theorem C136_closing_partial : forall fuel w tbl rq ps closes k st, proper tbl ->
  arguments fuel w tbl rq ps [] fresh = Some (inl k, st) ->
  StronglySorted lt (opened st) /\
  (forall t, In t (opened st) -> exists f kwargs v, nth_error (calls st) t = Some (f, kwargs) /\ w t f kwargs = Generator (Some v)) /\
  exists cl left_open, serve Http fuel w tbl rq ps true closes = Some (opened st, cl) /\ opened st = cl ++ left_open /\
    ((forall t, In t (opened st) -> closes t = true) -> left_open = []) /\
    (forall t, In t left_open -> exists t', In t' cl /\ closes t' = false).
Proof.
  intros fuel w tbl rq ps closes k st P A.
  assert (Inv : forall ps data s k s', arguments fuel w tbl rq ps data s = Some (inl k, s') ->
    exists cs og, s' = ext s cs og /\ StronglySorted lt og /\ Forall (fun i => (length (calls s) <= i < length (calls s) + length cs)%nat) og /\
      (forall i, In i og -> exists f kwargs v, nth_error cs (i - length (calls s)) = Some (f, kwargs) /\ w i f kwargs = Generator (Some v))).
  { assert (Call : (forall t f v cs og, solved w tbl [] rq t f v cs og -> forall i, In i og -> exists f kwargs v, nth_error cs (i - t) = Some (f, kwargs) /\ w i f kwargs = Generator (Some v)) /\
      (forall t ps kw cs og, supplied w tbl [] rq t ps kw cs og -> forall i, In i og -> exists f kwargs v, nth_error cs (i - t) = Some (f, kwargs) /\ w i f kwargs = Generator (Some v))).
    { apply (solved_supplied w tbl [] rq
        (fun t f v cs og _ => forall i, In i og -> exists f kwargs v, nth_error cs (i - t) = Some (f, kwargs) /\ w i f kwargs = Generator (Some v))
        (fun t ps kw cs og _ => forall i, In i og -> exists f kwargs v, nth_error cs (i - t) = Some (f, kwargs) /\ w i f kwargs = Generator (Some v))).
      - intros t f fd kw cs og v o _ _ _ S IH G i I. apply in_app_or in I as [I|I].
        + destruct (IH i I) as (f' & k' & v' & N1 & W). exists f', k', v'. split; [|exact W]. rewrite nth_error_app1; [exact N1|].
          apply nth_error_Some. congruence.
        + inversion G as [v0 B|B|v0 B]; subst; [destruct I|destruct I|]. destruct I as [<-|[]]. exists f, kw, v. split; [|congruence].
          rewrite nth_error_app2 by lia. now replace (t + length cs - t - length cs)%nat with 0%nat by lia.
      - auto.
      - intros t i [].
      - auto.
      - auto.
      - intros t a d fd b m more r v kw cs og _ _ _ _ _ S IH i I. destruct (IH i I) as (f' & k' & v' & N1 & W). exists f', k', v'. split; [|exact W].
        pose proof (proj2 (solved_opened w tbl [] rq) _ _ _ _ _ S) as [_ F]. rewrite Forall_forall in F. specialize (F i I).
        replace (i - t)%nat with (1 + (i - (1 + t)))%nat by lia. exact N1.
      - auto.
      - intros t a d g r v kw cs og cs' og' _ S1 IH1 S2 IH2 i I. apply in_app_or in I as [I|I].
        + destruct (IH1 i I) as (f' & k' & v' & N1 & W). exists f', k', v'. split; [|exact W]. rewrite nth_error_app1; [exact N1|].
          apply nth_error_Some. congruence.
        + destruct (IH2 i I) as (f' & k' & v' & N1 & W). exists f', k', v'. split; [|exact W].
          pose proof (proj2 (solved_opened w tbl [] rq) _ _ _ _ _ S2) as [_ F]. rewrite Forall_forall in F. specialize (F i I).
          rewrite nth_error_app2 by lia. now replace (i - t - length cs)%nat with (i - (t + length cs))%nat by lia. }
    clear A ps. induction ps as [|[a m] r IH]; intros data s k0 s' X.
    - cbn in X. injection X as <- <-. exists [], []. rewrite ext_nil. repeat split; try constructor. intros i [].
    - assert (Do : forall d, match resolve fuel w tbl [] rq d s with
        | None => None
        | Some (Ret v, st') => arguments fuel w tbl rq r (dset a v data) st'
        | Some (o, st') => Some (inr o, st')
        end = Some (inl k0, s') -> exists cs og, s' = ext s cs og /\ StronglySorted lt og /\ Forall (fun i => (length (calls s) <= i < length (calls s) + length cs)%nat) og /\
      (forall i, In i og -> exists f kwargs v, nth_error cs (i - length (calls s)) = Some (f, kwargs) /\ w i f kwargs = Generator (Some v))).
      { intros d. destruct (resolve fuel w tbl [] rq d s) as [[[v| |e] s1]|] eqn:Rs; try discriminate. intros Y.
        destruct (resolve_sound w tbl [] rq P _ _ _ _ _ Rs) as (c1 & o1 & -> & S).
        pose proof (proj1 (solved_opened w tbl [] rq) _ _ _ _ _ S) as [S1 F1].
        destruct (IH _ _ _ _ Y) as (c2 & o2 & -> & S2 & F2 & H2). rewrite ext_length in F2, H2.
        exists (c1 ++ c2), (o1 ++ o2). rewrite ext_ext, app_length. split; [reflexivity|]. rewrite Forall_forall in F1, F2. split; [|split].
        - clear - S1 S2 F1 F2. induction S1 as [|y l Sl IH F]; [exact S2|]. cbn. constructor; [apply IH; intros; apply F1; now right|].
          apply Forall_app. split; [exact F|]. apply Forall_forall. intros z I. specialize (F1 y (or_introl eq_refl)). specialize (F2 z I). lia.
        - apply Forall_forall. intros i I. apply in_app_or in I as [I|I]; [specialize (F1 i I)|specialize (F2 i I)]; lia.
        - intros i I. apply in_app_or in I as [I|I].
          + destruct (proj1 Call _ _ _ _ _ S i I) as (f' & k' & v' & N1 & W). exists f', k', v'. split; [|exact W].
            rewrite nth_error_app1; [exact N1|]. apply nth_error_Some. congruence.
          + destruct (H2 i I) as (f' & k' & v' & N1 & W). exists f', k', v'. split; [|exact W]. specialize (F2 i I).
            rewrite nth_error_app2 by lia. now replace (i - length (calls s) - length c1)%nat with (i - (length (calls s) + length c1))%nat by lia. }
      destruct m; cbn [arguments] in X; eauto. }
  destruct (Inv _ _ _ _ _ A) as (cs & og & -> & S & F & C). cbn [ext opened fresh app] in *. split; [exact S|]. split.
  { intros t I. destruct (C t I) as (f' & k' & v' & N1 & W). exists f', k', v'. cbn [calls length] in N1. rewrite Nat.sub_0_r in N1. auto. }
  exists (run_cleanups closes og). unfold serve. rewrite A. cbn [held ext opened fresh app].
  clear - F. revert F. generalize og. intros l _. induction l as [|t r IH].
  - exists []. refine (conj eq_refl (conj eq_refl (conj (fun _ => eq_refl) _))). intros t [].
  - destruct IH as (lo & _ & E & A & B). cbn [run_cleanups]. destruct (closes t) eqn:K.
    + exists lo. split; [reflexivity|]. cbn [app]. split; [now f_equal|]. split.
      * intros H. apply A. intros x I. apply H. now right.
      * intros x I. destruct (B x I) as (y & J & Q). exists y. split; [now right|exact Q].
    + exists r. split; [reflexivity|]. split; [reflexivity|]. split.
      * intros H. specialize (H t (or_introl eq_refl)). congruence.
      * intros x _. exists t. split; [now left|exact K].
Qed.
Print Assumptions C136_closing_partial.

(** Closing in the order of opening closes what a generator was built from first. *)
Definition world3 : world := fun t f kwargs => Generator (Some (VMade f kwargs)).
Definition C136_nesting_statement : Prop := forall fuel w tbl rq ps closes op cl, proper tbl ->
  serve Http fuel w tbl rq ps true closes = Some (op, cl) -> (forall t, closes t = true) -> cl = rev op.
Theorem C136_nesting_refuted : ~ C136_nesting_statement.
Proof.
  intros H. pose proof (H 4%nat world3 table2 7%nat [(u "user", Resolve 1)] (fun _ => true) _ _ table2_proper eq_refl (fun _ => eq_refl)) as X.
  vm_compute in X. discriminate.
Qed.
Print Assumptions C136_nesting_refuted.
Example C136_case : serve Http 4 world3 table2 7 [(u "user", Resolve 1)] true (fun _ => true) = Some ([0; 1], [0; 1])%nat
  /\ serve Http 4 world3 table2 7 [(u "user", Resolve 1)] false (fun _ => true) = Some ([0; 1]%nat, [])
  /\ serve Websocket 4 world3 table2 7 [(u "user", Resolve 1)] true (fun _ => true) = Some ([0; 1]%nat, []).
Proof. vm_compute. auto. Qed.
