(** C303, C304: overlapping requests of one browser that share a session. *)
From Verif Require Import PyStr PyStrFacts Utf8 Asgi HeaderModel HeaderSpec HeaderProofs HeaderProps CorsSpec CookieModel CookieSpec CookieProofs CookieProps Base64 SessionModel SessionSpec SessionProofs SessionProps TabsModel TabsSpec TabsProofs.

(** A browser that has cookies of others, but no session yet. *)
Definition fresh (c : sconfig) (j : dict str) : Prop := NoDup (dkeys j) /\ Forall sent_pair j /\ dget (s_cookie c) j = None.
Definition opened {V} (j : dict str) : world V := {| jar := j; tabs := [] |}.

(** ** C303 *)
(** However requests overlap, each finds the session that the last answer to arrive before it was made has
    saved, while it lives, and nothing of what other applications do meanwhile. *)
Theorem C303 : forall V order (e : senv V) c h fs j now,
  set_order order -> good_senv e -> good_sconfig c -> fresh c j -> timely now h -> effects e c h fs ->
  allowed (s_max_age c) (pops h) fs None (fun _ => None) (run order e c (opened j) h).
Proof.
  intros V order e c h fs j now O GE GC (ND & SP & NS) T E.
  assert (J : jar_ok j).
  { split; [exact ND|]. eapply Forall_impl; [|exact SP]. intros p (B1 & B2 & B3 & B4 & B5).
    split; [apply strip_solid; exact B1|]. split; [exact B2|]. split; [exact B3|]. split; [apply strip_solid; exact B4 | exact B5]. }
  apply (run_allowed order e c O GE GC (pops h) fs h (opened j) None (fun _ => None) now []); try assumption; try reflexivity.
  split; [|intros [|i]; reflexivity]. split; [exact J|]. intros now' _. rewrite load_jar by assumption. cbn [jar opened]. rewrite NS. reflexivity.
Qed.
Print Assumptions C303.

(** ** C304 *)
Definition arrival {V} (x : note V) : bool := match x with Came _ => true | _ => false end.

Section Trace.
Context {V : Type}.
Variables (max : option N) (pop : list (option (dict V))) (fs : list (dict V -> dict V)).
Notation allowed := (allowed max pop fs).

Lemma allowed_app l1 l2 : forall m ps, allowed m ps (l1 ++ l2) -> exists m' ps', allowed m' ps' l2
  /\ ((m <> Some ([], 0%N) /\ (forall s t, m = Some (s, t) -> s <> [])) -> (forall s t, m' = Some (s, t) -> s <> []))
  /\ (existsb arrival l1 = false -> m' = m)
  /\ (forall i p, ps i = Some p -> exists p', ps' i = Some p' /\ p_left p' = p_left p /\ p_known p' = p_known p
        /\ (p_saved p' = p_saved p \/ exists t, p_saved p' = Some t /\ In (Started t i) l1)).
Proof.
  induction l1 as [|x l1 IH]; intros m ps A.
  - exists m, ps. split; [exact A|]. split; [intros [_ H]; exact H|]. split; [reflexivity|]. intros i p E. exists p. repeat split; try assumption. left. reflexivity.
  - destruct x as [now i s|now i|i]; cbn [List.app TabsSpec.allowed] in A.
    + destruct A as (p & f & _ & _ & NI & _ & A). destruct (IH _ _ A) as (m' & ps' & A' & M & N & P). exists m', ps'. split; [exact A'|]. split; [exact M|]. split; [exact N|].
      intros j q E. destruct (Nat.eq_dec j i) as [->|D]; [congruence|]. destruct (P j q) as (q' & E1 & E2 & E3 & E4); [rewrite turn_other by exact D; exact E|].
      exists q'. split; [exact E1|]. split; [exact E2|]. split; [exact E3|]. destruct E4 as [E4|(t & E4 & I)]; [left; exact E4|right; exists t; split; [exact E4|right; exact I]].
    + destruct A as (x & PX & SV & A). destruct (IH _ _ A) as (m' & ps' & A' & M & N & P). exists m', ps'. split; [exact A'|]. split; [exact M|]. split; [exact N|].
      intros j q E. destruct (Nat.eq_dec j i) as [->|D].
      * rewrite PX in E. injection E as <-. destruct (P i _ (turn_same _ _ _)) as (q' & E1 & E2 & E3 & E4). exists q'. split; [exact E1|]. split; [exact E2|]. split; [exact E3|].
        destruct E4 as [E4|(t & E4 & I)]; right; [exists now; split; [exact E4|left; reflexivity]|exists t; split; [exact E4|right; exact I]].
      * destruct (P j q) as (q' & E1 & E2 & E3 & E4); [rewrite turn_other by exact D; exact E|].
        exists q'. split; [exact E1|]. split; [exact E2|]. split; [exact E3|]. destruct E4 as [E4|(t & E4 & I)]; [left; exact E4|right; exists t; split; [exact E4|right; exact I]].
    + destruct A as (x & PX & SV & A). destruct (IH _ _ A) as (m' & ps' & A' & M & N & P). exists m', ps'. split; [exact A'|]. split.
      * intros [H1 H2]. apply M. assert (X : forall s t, after x m = Some (s, t) -> s <> []).
        { intros s t. unfold after. destruct (p_left x) as [|y r] eqn:PL; [destruct (p_known x); [discriminate|apply H2]|].
          destruct (p_saved x) as [ts|]; [intros [= <- <-]; discriminate|apply H2]. }
        split; [intros E; exact (X _ _ E eq_refl)|exact X].
      * split; [intros H; discriminate H|]. intros j q E. destruct (P j q E) as (q' & E1 & E2 & E3 & E4).
        exists q'. split; [exact E1|]. split; [exact E2|]. split; [exact E3|]. destruct E4 as [E4|(t & E4 & I)]; [left; exact E4|right; exists t; split; [exact E4|right; exact I]].
Qed.
End Trace.

(** In full, when the answer to a request arrives, its change is made to the session the browser has: a
    request made just after finds that change of what one made just before has found. *)
Definition C304_statement : Prop := forall V order (e : senv V) c h fs j now l t a i b s s' f,
  set_order order -> good_senv e -> good_sconfig c -> fresh c j -> timely now h -> effects e c h fs ->
  s_max_age c = None -> (forall p, In p (pops h) -> p = None) -> nth_error fs i = Some f ->
  run order e c (opened j) h = l ++ [Found t a s; Came i; Found t b s'] -> s' = f s.

(** Two pages count at the same time, and one count is lost. *)
Definition count_app (s : dict N) : list (act N) :=
  [Sets (match dget (u "n") s with Some n => [(u "n", (n + 1)%N)] | None => [(u "n", 1%N)] end); Emits (AStart 200 []); Emits (ABody [] false)].
Definition count (s : dict N) : dict N := match dget (u "n") s with Some n => [(u "n", (n + 1)%N)] | None => [(u "n", 1%N)] end.
Definition logout_app (_ : dict N) : list (act N) := [Sets []; Emits (AStart 200 []); Emits (ABody [] false)].
Definition look_app (s : dict N) : list (act N) := [Sets (match dget (u "n") s with Some n => [(u "n", n)] | None => [] end); Emits (AStart 200 []); Emits (ABody [] false)].
Definition look (s : dict N) : dict N := match dget (u "n") s with Some n => [(u "n", n)] | None => [] end.
Lemma one_storable (n : N) : storable ex_env [(u "n", n)].
Proof. eexists. split; [reflexivity|]. cbn [loads ex_env]. now rewrite int_round_trip. Qed.
Lemma count_serves m : serves ex_env (ex_config m) count_app count.
Proof.
  intros s. exists [count s], 200%Z, [], [([], false)]. split; [reflexivity|]. split; [reflexivity|].
  split; [|split; [intros k []|intros l []]]. intros _. unfold count. destruct (dget (u "n") s) as [n|]; apply one_storable.
Qed.
Lemma logout_serves m : serves ex_env (ex_config m) logout_app (fun _ => []).
Proof. intros s. exists [[]], 200%Z, [], [([], false)]. split; [reflexivity|]. split; [reflexivity|]. split; [intros X; contradiction X; reflexivity|split; [intros k []|intros l []]]. Qed.
Lemma look_serves m : serves ex_env (ex_config m) look_app look.
Proof.
  intros s. exists [look s], 200%Z, [], [([], false)]. split; [reflexivity|]. split; [reflexivity|].
  split; [|split; [intros k []|intros l []]]. unfold look. destruct (dget (u "n") s) as [n|]; [intros _; apply one_storable|intros X; contradiction X; reflexivity].
Qed.
Lemma fresh_nil c : fresh c [].
Proof. split; [constructor|]. split; [constructor|reflexivity]. Qed.

Definition race : list (N * event N) :=
  [(0, Goes None count_app); (1, Goes None count_app); (2, Acts 0); (3, Acts 1); (4, Acts 0); (5, Acts 1); (6, Comes 0);
   (7, Goes None look_app); (7, Comes 1); (7, Goes None look_app)]%N.
Theorem C304_refuted : ~ C304_statement.
Proof.
  intros H. specialize (H N dedup ex_env (ex_config None) race [count; count; look; look] [] 0%N
    [Found 0%N 0 []; Found 1%N 1 []; Started 4%N 0; Started 5%N 1; Came 0] 7%N 2 1 3 [(u "n", 1%N)] [(u "n", 1%N)] count
    dedup_order ex_good (ex_config_good None) (fresh_nil _)).
  assert (E : [(u "n", 1%N)] = count [(u "n", 1%N)]).
  { apply H.
    - cbn. repeat split; lia.
    - cbn. repeat (constructor; [first [apply count_serves | apply look_serves]|]). constructor.
    - reflexivity.
    - cbn. intros p I. repeat (destruct I as [I|I]; [now symmetry|]). destruct I.
    - reflexivity.
    - vm_compute. reflexivity. }
  vm_compute in E. discriminate E.
Qed.
Print Assumptions C304_refuted.

(** A page that only looks at the session, and is answered after the user has logged out, logs the user
    in again. *)
Definition relogin : list (N * event N) :=
  [(0, Goes None count_app); (0, Acts 0); (0, Acts 0); (0, Comes 0);
   (1, Goes None look_app); (2, Goes None logout_app); (3, Acts 1); (3, Acts 1); (4, Acts 2); (4, Acts 2); (5, Comes 2);
   (7, Goes None look_app); (7, Comes 1); (7, Goes None look_app)]%N.
Theorem C304_logout_refuted : exists (h : list (N * event N)) fs l t a i b s,
  timely 0 h /\ effects ex_env (ex_config None) h fs /\ nth_error fs i = Some look
  /\ (forall x, In x l -> forall now s', x = Found now i s' -> look s' = s')
  /\ run dedup ex_env (ex_config None) (opened []) h = l ++ [Found t a []; Came i; Found t b s] /\ s <> [].
Proof.
  exists relogin, [count; look; fun _ => []; look; look],
    [Found 0%N 0 []; Started 0%N 0; Came 0; Found 1%N 1 [(u "n", 1%N)]; Found 2%N 2 [(u "n", 1%N)]; Started 3%N 1; Started 4%N 2; Came 2], 7%N, 3, 1, 4, [(u "n", 1%N)].
  split; [cbn; repeat split; lia|]. split.
  { cbn. repeat (constructor; [first [apply count_serves | apply look_serves | apply logout_serves]|]). constructor. }
  split; [reflexivity|]. split.
  { intros x I now s' ->. cbn in I. repeat (destruct I as [I|I]; [try discriminate I; injection I as <- <-; reflexivity|]). destruct I. }
  split; [vm_compute; reflexivity|]. discriminate.
Qed.
Print Assumptions C304_logout_refuted.

(** A request during which no other answer arrives changes the session: the next one finds what it left. *)
Theorem C304_alone_partial : forall V order (e : senv V) c h fs j now l l1 l2 t i s t' k s' f,
  set_order order -> good_senv e -> good_sconfig c -> fresh c j -> timely now h -> effects e c h fs ->
  s_max_age c = None -> (forall p, In p (pops h) -> p = None) -> nth_error fs i = Some f ->
  existsb arrival l1 = false -> existsb arrival l2 = false ->
  run order e c (opened j) h = l ++ Found t i s :: l1 ++ Came i :: l2 ++ [Found t' k s'] -> s' = f s.
Proof.
  intros V order e c h fs j now l l1 l2 t i s t' k s' f O GE GC FR T E MX PN NF N1 N2 R.
  pose proof (C303 V order e c h fs j now O GE GC FR T E) as A. rewrite R, MX in A.
  destruct (allowed_app _ _ _ l _ _ _ A) as (m & ps & A1 & _). cbn [allowed] in A1. destruct A1 as (p & f' & PP & NF' & _ & SE & A1).
  rewrite NF in NF'. injection NF' as <-. rewrite (PN p (nth_error_In _ _ PP)) in *. clear PP.
  destruct (allowed_app _ _ _ l1 _ _ _ A1) as (m1 & ps1 & A2 & _ & M1 & P1). specialize (M1 N1). subst m1.
  destruct (P1 i _ (turn_same _ _ _)) as (q & Q1 & Q2 & Q3 & _). cbn [p_left p_known] in Q2, Q3. cbn [allowed] in A2. destruct A2 as (q' & Q1' & QS & A2).
  rewrite Q1 in Q1'. injection Q1' as <-. destruct (allowed_app _ _ _ l2 _ _ _ A2) as (m2 & ps2 & A3 & _ & M2 & _). specialize (M2 N2). subst m2.
  cbn [allowed] in A3. destruct A3 as (p3 & f3 & PP3 & _ & _ & -> & _). rewrite (PN p3 (nth_error_In _ _ PP3)). unfold finds_at, after. rewrite Q2, Q3.
  destruct (f s) as [|y r] eqn:FS.
  - destruct m as [(s0, t0)|]; cbn [alive]; reflexivity.
  - destruct (p_saved q) as [ts|]; [reflexivity|contradiction QS; reflexivity].
Qed.
Print Assumptions C304_alone_partial.

(** The same with a lifetime: what was left is found while it lives, counted from the start of the answer. *)
Theorem C304_lives_partial : forall V order (e : senv V) c h fs j now l l1 l2 t i s t' k s' f a,
  set_order order -> good_senv e -> good_sconfig c -> fresh c j -> timely now h -> effects e c h fs ->
  s_max_age c = Some a -> nth_error fs i = Some f -> f s <> [] -> existsb arrival l2 = false ->
  (forall ts, In (Started ts i) l1 -> (t' <= ts + a)%N) ->
  run order e c (opened j) h = l ++ Found t i s :: l1 ++ Came i :: l2 ++ [Found t' k s'] -> s' = f s.
Proof.
  intros V order e c h fs j now l l1 l2 t i s t' k s' f a O GE GC FR T E MX NF NE N2 TS R.
  pose proof (C303 V order e c h fs j now O GE GC FR T E) as A. rewrite R, MX in A.
  destruct (allowed_app _ _ _ l _ _ _ A) as (m & ps & A1 & _). cbn [allowed] in A1. destruct A1 as (p & f' & PP & NF' & _ & SE & A1).
  rewrite NF in NF'. injection NF' as <-.
  destruct (allowed_app _ _ _ l1 _ _ _ A1) as (m1 & ps1 & A2 & _ & _ & P1).
  destruct (P1 i _ (turn_same _ _ _)) as (q & Q1 & Q2 & Q3 & Q4). cbn [p_left p_known p_saved] in Q2, Q3, Q4. cbn [allowed] in A2. destruct A2 as (q' & Q1' & QS & A2).
  rewrite Q1 in Q1'. injection Q1' as <-. destruct (allowed_app _ _ _ l2 _ _ _ A2) as (m2 & ps2 & A3 & _ & M2 & _). specialize (M2 N2). subst m2.
  cbn [allowed] in A3. destruct A3 as (p3 & f3 & PP3 & _ & _ & -> & _). unfold finds_at, after. rewrite Q2.
  destruct Q4 as [Q4|(ts & Q4 & I)]; [contradiction|]. rewrite Q4. destruct (f s) as [|y r] eqn:FS; [contradiction NE; reflexivity|].
  cbn [alive]. destruct (N.leb_spec t' (ts + a)); [reflexivity|]. specialize (TS ts I). lia.
Qed.
Print Assumptions C304_lives_partial.

(** A request that found no session and leaves none changes nothing for the others, whatever they do. *)
Theorem C304_stranger_partial : forall V order (e : senv V) c h fs j now l t a i b s s' f t0 l1,
  set_order order -> good_senv e -> good_sconfig c -> fresh c j -> timely now h -> effects e c h fs ->
  (forall p, In p (pops h) -> p = None) -> nth_error fs i = Some f -> f [] = [] ->
  run order e c (opened j) h = (l ++ Found t0 i [] :: l1) ++ [Found t a s; Came i; Found t b s'] -> s' = s.
Proof.
  intros V order e c h fs j now l t a i b s s' f t0 l1 O GE GC FR T E PN NF FE R.
  pose proof (C303 V order e c h fs j now O GE GC FR T E) as A. rewrite R in A. rewrite <- app_assoc in A.
  destruct (allowed_app _ _ _ l _ _ _ A) as (m & ps & A1 & NE & _). cbn [List.app allowed] in A1. destruct A1 as (p & f' & PP & NF' & _ & SE & A1).
  rewrite NF in NF'. injection NF' as <-. rewrite FE in A1.
  assert (NM : forall x y, m = Some (x, y) -> x <> []) by (apply NE; split; [discriminate|discriminate]).
  assert (KN : (match alive (s_max_age c) t0 m with Some _ => true | None => false end) = false).
  { unfold finds_at in SE. destruct (alive (s_max_age c) t0 m) as [x|] eqn:AL; [|reflexivity]. exfalso. unfold alive in AL. destruct m as [(x0, y0)|]; [|discriminate AL].
    apply (NM x0 y0 eq_refl). assert (x0 = x) by (destruct (s_max_age c); [destruct (t0 <=? y0 + n)%N; [now injection AL|discriminate AL]|now injection AL]). congruence. }
  rewrite KN in A1. destruct (allowed_app _ _ _ l1 _ _ _ A1) as (m1 & ps1 & A2 & _ & _ & P1).
  destruct (P1 i _ (turn_same _ _ _)) as (q & Q1 & Q2 & Q3 & _). cbn [p_left p_known] in Q2, Q3.
  cbn [allowed] in A2. destruct A2 as (pa & fa & PA & _ & NA & -> & x & PX & _ & pb & fb & PB & _ & _ & -> & _).
  assert (i <> a) by (intros ->; congruence). rewrite turn_other in PX by assumption. rewrite Q1 in PX. injection PX as <-.
  unfold after. rewrite Q2, Q3. rewrite (PN pa (nth_error_In _ _ PA)), (PN pb (nth_error_In _ _ PB)). reflexivity.
Qed.
Print Assumptions C304_stranger_partial.

(** Two requests overlap; the later answer wins, and a third finds it. *)
Example C303_case : fresh (ex_config (Some 10%N)) [(u "a", u "b")] /\ timely 0 race /\ effects ex_env (ex_config (Some 10%N)) race [count; count; look; look]
  /\ run dedup ex_env (ex_config (Some 10%N)) (opened [(u "a", u "b")]) race
     = [Found 0%N 0 []; Found 1%N 1 []; Started 4%N 0; Started 5%N 1; Came 0; Found 7%N 2 [(u "n", 1%N)]; Came 1; Found 7%N 3 [(u "n", 1%N)]].
Proof.
  split; [|split; [|split]].
  - split; [repeat constructor; intros []|]. split; [|reflexivity]. constructor; [|constructor]. repeat split; try reflexivity; try discriminate; try (intros I; cbn in I; repeat (destruct I as [I|I]; [discriminate I|]); exact I).
  - cbn. repeat split; lia.
  - cbn. repeat (constructor; [first [apply count_serves | apply look_serves]|]). constructor.
  - vm_compute. reflexivity.
Qed.
(** One after the other: both counts are there. *)
Example C304_case : run dedup ex_env (ex_config (Some 10%N)) (opened [])
  [(0, Goes None count_app); (2, Acts 0); (4, Acts 0); (6, Comes 0); (7, Goes None count_app); (7, Acts 1); (7, Acts 1); (9, Comes 1); (12, Goes None look_app)]%N
  = [Found 0%N 0 []; Started 4%N 0; Came 0; Found 7%N 1 [(u "n", 1%N)]; Started 7%N 1; Came 1; Found 12%N 2 [(u "n", 2%N)]].
Proof. vm_compute. reflexivity. Qed.
