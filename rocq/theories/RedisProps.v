(** C223 to C226: the redis cache. *)
From Verif Require Import PyStr PyStrFacts Utf8 JsonSpec JsonModel JsonProps CacheModel CacheSpec CacheProps RedisModel.

(** The calls of a history and their times, without the loops. *)
Definition calls (h : list (nat * (Z * cop jvalue))) : list (Z * cop jvalue) := map snd h.
(** No two of the loops have the same identity. *)
Definition told_apart (ident : nat -> N) (loops : list nat) : Prop :=
  forall a b, In a loops -> In b loops -> ident a = ident b -> a = b.
(** A value JSON can carry. *)
Definition carried (v : jvalue) : Prop := proper v /\ presentable v.
(** A lifetime in seconds has not elapsed; times are in milliseconds. *)
Definition lasts (t0 : Z) (ttl : option Z) (now : Z) : Prop := match ttl with None => True | Some d => (now < t0 + d * 1000)%Z end.

(** * Facts *)
Lemma body_read v b : proper v -> json_body v = Some b -> loads_bytes b = Some v.
Proof.
  intros P E. destruct (C105_json_written v P) as (_ & R & _). destruct (R b E) as (t & _ & _ & Q). unfold request_json in Q. destruct b as [|c b]; [|exact Q].
  exfalso. assert (v = JNull). { assert (X : loads_bytes (u "null") = Some JNull) by (vm_compute; reflexivity). rewrite X in Q. congruence. }
  subst v. vm_compute in E. discriminate E.
Qed.
Lemma carried_body v : carried v -> exists b, json_body v = Some b /\ loads_bytes b = Some v.
Proof.
  intros [P PR]. destruct (C105_json_written v P) as (I & _). destruct (json_body v) as [b|] eqn:E; [|exfalso; apply (proj1 I PR); reflexivity].
  exists b. split; [reflexivity|]. exact (body_read v b P E).
Qed.
(** The lifetimes of the memory cache that the server's come to. *)
Definition cv (ttl : option Z) : option Z := match ttl with Some d => if Z.eqb d 0 then None else Some (d * 1000 - 1)%Z | None => None end.
Definition co (e : Z * cop jvalue) : Z * cop jvalue := (fst e, match snd e with CSet k v ttl => CSet k v (cv ttl) | CGet k => CGet k | CDelete k => CDelete k end).
Definition good (o : cop jvalue) : Prop := match o with CSet _ v ttl => carried v /\ match ttl with Some d => (0 <= d)%Z | None => True end | _ => True end.
Definition back (s : dict (str * option Z)) : dict (str * option Z) := map (fun e => (fst e, (fst (snd e), option_map (fun x => x - 1)%Z (snd (snd e))))) s.
Lemma back_dget k s : dget k (back s) = option_map (fun x => (fst x, option_map (fun x => x - 1)%Z (snd x))) (dget k s).
Proof. induction s as [|(k', (d, e)) s IH]; [reflexivity|]. cbn. destruct (seqb k k'); [reflexivity|exact IH]. Qed.
Lemma back_dset k d e s : back (dset k (d, e) s) = dset k (d, option_map (fun x => x - 1)%Z e) (back s).
Proof. induction s as [|(k', (d', e')) s IH]; [reflexivity|]. cbn. destruct (seqb k k'); [reflexivity|]. cbn. f_equal. exact IH. Qed.
Lemma back_ddel k s : back (ddel k s) = ddel k (back s).
Proof.
  induction s as [|(k', (d', e')) s IH]; [reflexivity|]. cbn. destruct (seqb k k'); cbn; [|f_equal]; exact IH.
Qed.

(** The clients of the registry. *)
Definition sound (ident : nat -> N) (loops : list nat) (w : world) : Prop :=
  forall i c, registered i (registry w) = Some c -> In (c_loop c) loops /\ i = ident (c_loop c).
Lemma registered_snoc i r j c : registered i (r ++ [(j, c)]) = match registered i r with Some x => Some x | None => if N.eqb i j then Some c else None end.
Proof. induction r as [|(a, b) r IH]; [reflexivity|]. cbn. destruct (N.eqb i a); [reflexivity|exact IH]. Qed.
Lemma client_sound ident loops loop w : told_apart ident (loop :: loops) -> sound ident loops w ->
  c_loop (fst (async_client ident loop w)) = loop /\ sound ident (loop :: loops) (snd (async_client ident loop w)) /\ server (snd (async_client ident loop w)) = server w.
Proof.
  intros T S0. unfold async_client. destruct (registered (ident loop) (registry w)) as [c|] eqn:R; cbn [fst snd c_loop server].
  - destruct (S0 _ _ R) as [I E]. refine (conj _ (conj _ eq_refl)); [symmetry; apply T; [left; reflexivity|right; exact I|exact E]|].
    intros i c' R'. destruct (S0 _ _ R') as [A B]. split; [right; exact A|exact B].
  - refine (conj eq_refl (conj _ eq_refl)). intros i c' R'. cbn [registry] in R'. rewrite registered_snoc in R'. destruct (registered i (registry w)) as [x|] eqn:Q.
    + assert (x = c') by congruence. subst x. destruct (S0 _ _ Q) as [A B]. split; [right; exact A|exact B].
    + destruct (N.eqb_spec i (ident loop)) as [->|]; [|discriminate R']. injection R' as <-. cbn. split; [left; reflexivity|reflexivity].
Qed.
Lemma call_ok ident loops loop now o w : told_apart ident (loop :: loops) -> sound ident loops w -> good o ->
  sound ident (loop :: loops) (fst (redis_call ident (loop, (now, o)) w))
  /\ back (server (fst (redis_call ident (loop, (now, o)) w))) = cache_step json_body loads_bytes (back (server w)) (co (now, o))
  /\ match o with CGet _ => True | _ => snd (redis_call ident (loop, (now, o)) w) = Done end.
Proof.
  intros T S0 G. destruct (client_sound ident loops loop w T S0) as (C & S1 & S2). unfold cache_step, co. cbn [fst snd redis_call].
  destruct o as [k v ttl|k|k].
  - destruct G as [G L]. destruct (carried_body v G) as (b & B & _). unfold redis_set, cache_set. rewrite B. destruct (async_client ident loop w) as (c, w1). cbn [fst snd] in C, S1, S2. rewrite C, Nat.eqb_refl.
    destruct ttl as [d|]; cbn [cv]; [destruct (Z.eqb_spec d 0) as [->|N0]|].
    + cbn [fst snd with_server server]. refine (conj S1 (conj _ eq_refl)). unfold srv_set. rewrite back_dset, S2. reflexivity.
    + unfold srv_setex. replace (d <=? 0)%Z with false by (symmetry; apply Z.leb_gt; lia). cbn [fst snd with_server server]. refine (conj S1 (conj _ eq_refl)). rewrite back_dset, S2. cbn [option_map].
      destruct (Z.eqb_spec (d * 1000 - 1) 0); [lia|]. replace (now + d * 1000 - 1)%Z with (now + (d * 1000 - 1))%Z by lia. reflexivity.
    + cbn [fst snd with_server server]. refine (conj S1 (conj _ eq_refl)). unfold srv_set. rewrite back_dset, S2. reflexivity.
  - unfold redis_get, cache_get. destruct (async_client ident loop w) as (c, w1). cbn [fst snd] in C, S1, S2. rewrite C, Nat.eqb_refl, back_dget, <- S2. unfold srv_get.
    destruct (dget k (server w1)) as [(data, e)|] eqn:D; cbn [option_map fst snd with_server server]; [|split; [exact S1|split; reflexivity || trivial]].
    destruct e as [e|]; cbn [option_map]; [|split; [exact S1|split; reflexivity || trivial]].
    destruct (Z.leb_spec e now); [replace (e - 1 <? now)%Z with true by (symmetry; apply Z.ltb_lt; lia)|replace (e - 1 <? now)%Z with false by (symmetry; apply Z.ltb_ge; lia)]; cbn [fst snd with_server server].
    + refine (conj S1 (conj _ I)). apply back_ddel.
    + refine (conj S1 (conj eq_refl I)).
  - unfold redis_delete, cache_delete. destruct (async_client ident loop w) as (c, w1). cbn [fst snd] in C, S1, S2. rewrite C, Nat.eqb_refl. cbn [fst snd with_server server]. refine (conj S1 (conj _ eq_refl)). rewrite back_ddel, S2. reflexivity.
Qed.
Lemma run_ok ident h : forall loops w, told_apart ident (map fst h ++ loops) -> sound ident loops w -> (forall t o, In (t, o) (calls h) -> good o) ->
  exists loops', sound ident loops' (fst (redis_run ident h w)) /\ (forall x, In x loops' -> In x (map fst h ++ loops))
  /\ back (server (fst (redis_run ident h w))) = fold_left (cache_step json_body loads_bytes) (map co (calls h)) (back (server w)).
Proof.
  induction h as [|(l, (t, o)) h IH]; intros loops w T S0 G.
  - exists loops. auto.
  - destruct (call_ok ident loops l t o w) as (A & B & _); [intros a b I J; apply T; cbn; [destruct I as [I|I]; [left; exact I|right; apply in_or_app; right; exact I]|destruct J as [J|J]; [left; exact J|right; apply in_or_app; right; exact J]]|exact S0|apply (G t); left; reflexivity|].
    cbn [redis_run]. destruct (redis_call ident (l, (t, o)) w) as (w1, a). cbn [fst snd] in A, B. destruct (IH (l :: loops) w1) as (ls & X & Y & Z0).
    + intros a' b' I J. apply T; cbn [map fst]; [apply in_app_or in I; destruct I as [I|[I|I]]; [right; apply in_or_app; left; exact I|left; exact I|right; apply in_or_app; right; exact I]|].
      apply in_app_or in J; destruct J as [J|[J|J]]; [right; apply in_or_app; left; exact J|left; exact J|right; apply in_or_app; right; exact J].
    + exact A.
    + intros t' o' I. apply (G t'). right. exact I.
    + exists ls. destruct (redis_run ident h w1) as (w2, as_). cbn [fst] in *. split; [exact X|]. split.
      * intros x I. specialize (Y x I). cbn [map fst app]. apply in_app_or in Y. destruct Y as [Y|[Y|Y]]; [right; apply in_or_app; left; exact Y|left; exact Y|right; apply in_or_app; right; exact Y].
      * rewrite Z0, B. reflexivity.
Qed.
Lemma last_set_co key h t0 v ttl : last_set key (map co h) t0 v ttl <-> exists d, last_set key h t0 v d /\ ttl = cv d.
Proof.
  induction h as [|(t, o) h IH] using rev_ind.
  - split; [intros (p & q & E & _); destruct p; discriminate E|intros (d & (p & q & E & _) & _); destruct p; discriminate E].
  - rewrite map_app. cbn [map]. unfold co at 2. cbn [fst snd]. rewrite last_set_snoc, IH.
    assert (EN : ends key (match o with CSet k v ttl => CSet k v (cv ttl) | CGet k => CGet k | CDelete k => CDelete k end) <-> ends key o) by (destruct o; reflexivity).
    split.
    + intros [[-> E]|[N (d & L & ->)]].
      * destruct o as [k w d|k|k]; try discriminate E. injection E as -> -> <-. exists d. split; [apply last_set_snoc; left; auto|reflexivity].
      * exists d. split; [apply last_set_snoc; right; split; [intros X; exact (N (proj2 EN X))|exact L]|reflexivity].
    + intros (d & L & ->). apply last_set_snoc in L. destruct L as [[-> ->]|[N L]]; [left; auto|]. right. split; [intros X; exact (N (proj1 EN X))|]. exists d. auto.
Qed.
Lemma in_order_co h now : in_order h now -> in_order (map co h) now.
Proof.
  induction h as [|(t, o) h IH]; [trivial|]. cbn [in_order map]. unfold co at 1. cbn [fst]. intros (A & B & C). refine (conj A (conj _ (IH C))).
  intros t' o' I. apply in_map_iff in I. destruct I as ((t1, o1) & E & I). injection E as <- _. exact (B t1 o1 I).
Qed.
(** What a get finds, for lifetimes that are not negative: 0 is no lifetime. *)
Lemma get_ok ident h loop now key : told_apart ident (map fst h ++ [loop]) -> in_order (calls h) now -> (forall t o, In (t, o) (calls h) -> good o) ->
  exists x, snd (redis_get ident loop now key (fst (redis_run ident h empty))) = Value (match x with Some v => v | None => JNull end)
  /\ forall v, x = Some v <-> exists t0 ttl, last_set key (calls h) t0 v ttl /\ (ttl = Some 0%Z \/ lasts t0 ttl now).
Proof.
  intros T O G. destruct (run_ok ident h [] empty) as (ls & S1 & IN & E).
  { intros a b I J. rewrite app_nil_r in I, J. apply T; apply in_or_app; left; assumption. } { intros i c R. discriminate R. } { exact G. }
  change (fold_left (cache_step json_body loads_bytes) (map co (calls h)) (back (server empty))) with (cache_run json_body loads_bytes (map co (calls h))) in E.
  set (w := fst (redis_run ident h empty)) in *. destruct (client_sound ident ls loop w) as (C & _ & S2).
  { intros a b I J. assert (W : forall x, In x (loop :: ls) -> In x (map fst h ++ [loop])) by (intros x [X|X]; [apply in_or_app; right; left; exact X|specialize (IN x X); rewrite app_nil_r in IN; apply in_or_app; left; exact IN]). apply T; apply W; assumption. } { exact S1. }
  assert (K := C43_get_partial jvalue json_body loads_bytes (map co (calls h)) now key). rewrite <- E in K. clear E.
  exists (snd (cache_get loads_bytes now key (back (server w)))).
  assert (KK : forall v, snd (cache_get loads_bytes now key (back (server w))) = Some v <-> alive key (map co (calls h)) now v).
  { apply K; [|apply in_order_co, O]. intros t k v ttl I. apply in_map_iff in I. destruct I as ((t1, o1) & E & I). unfold co in E. cbn [fst snd] in E. destruct o1 as [k1 v1 d|k1|k1]; try (injection E; discriminate).
    injection E as -> -> -> <-. destruct (G _ _ I) as [G1 L]. split; [|apply carried_body, G1]. destruct d as [d|]; [|discriminate]. cbn [cv]. destruct (Z.eqb_spec d 0); [discriminate|]. intros X. injection X as X. lia. }
  clear K. split.
  - assert (LD : forall data e, dget key (server w) = Some (data, e) -> (match e with Some e' => (e' <=? now)%Z | None => false end) = false -> exists v, loads_bytes data = Some v).
    { intros data e D X. assert (TT := run_tells json_body loads_bytes (map co (calls h))). clear KK.
      destruct (run_ok ident h [] empty) as (_ & _ & _ & E). { intros a b I J. rewrite app_nil_r in I, J. apply T; apply in_or_app; left; assumption. } { intros i c R. discriminate R. } { exact G. }
      fold w in E. change (fold_left (cache_step json_body loads_bytes) (map co (calls h)) (back (server empty))) with (cache_run json_body loads_bytes (map co (calls h))) in E.
      specialize (TT (fun t k v ttl I => match proj1 (in_map_iff co (calls h) (t, CSet k v ttl)) I with ex_intro _ x (conj X1 X2) => ltac:(destruct x as (t1, o1); unfold co in X1; cbn [fst snd] in X1; destruct o1 as [k1 v1 d|k1|k1]; try discriminate X1; injection X1 as -> -> -> _; destruct (carried_body v (proj1 (G _ _ X2))) as (b & B & _); exists b; exact B) end) now (in_order_co _ _ O) key).
      unfold tells in TT. rewrite <- E, back_dget, D in TT. cbn [option_map fst snd] in TT. destruct TT as (t0 & v & ttl & LS & B & _).
      apply last_set_co in LS. destruct LS as (d & (p & q & EQ & _) & _). exists v. apply body_read; [|exact B]. apply (G t0 (CSet key v d)). rewrite EQ. apply in_or_app. right. left. reflexivity. }
    unfold redis_get, cache_get. destruct (async_client ident loop w) as (c, w1). cbn [fst snd] in C, S2. rewrite C, Nat.eqb_refl, back_dget, S2. unfold srv_get.
    destruct (dget key (server w)) as [(data, e)|] eqn:D; cbn [option_map fst snd]; [|reflexivity]. specialize (LD data e eq_refl). destruct e as [e|]; cbn [option_map].
    + destruct (Z.leb_spec e now); [replace (e - 1 <? now)%Z with true by (symmetry; apply Z.ltb_lt; lia); reflexivity|replace (e - 1 <? now)%Z with false by (symmetry; apply Z.ltb_ge; lia)]. cbn [snd].
      destruct (LD eq_refl) as (v & ->). reflexivity.
    + cbn [snd]. destruct (LD eq_refl) as (v & ->). reflexivity.
  - intros v. rewrite KK. unfold alive. split.
    + intros (t0 & ttl & LS & L). apply last_set_co in LS. destruct LS as (d & LS & ->). exists t0, d. split; [exact LS|]. destruct d as [d|]; [|right; exact I]. cbn [cv] in L. destruct (Z.eqb_spec d 0) as [->|]; [left; reflexivity|]. right. cbn in L |- *. lia.
    + intros (t0 & d & LS & L). exists t0, (cv d). split; [apply last_set_co; exists d; auto|]. destruct d as [d|]; [|exact I]. cbn [cv]. destruct (Z.eqb_spec d 0) as [->|N0]; [exact I|]. destruct L as [L|L]; [congruence|]. cbn in L |- *. lia.
Qed.
Lemma last_set_same key (h : list (Z * cop jvalue)) t0 v ttl t1 v1 ttl1 : last_set key h t0 v ttl -> last_set key h t1 v1 ttl1 -> t1 = t0 /\ v1 = v /\ ttl1 = ttl.
Proof.
  intros LS LS1. induction h as [|(a, b) h IH] using rev_ind; [destruct LS as (p & q & E & _); destruct p; discriminate E|].
  apply last_set_snoc in LS. apply last_set_snoc in LS1. destruct LS as [[-> ->]|[N LS]].
  - destruct LS1 as [[-> E]|[N _]]; [injection E as -> ->; auto|]. contradiction N. reflexivity.
  - destruct LS1 as [[-> ->]|[_ LS1]]; [contradiction N; reflexivity|]. apply IH; assumption.
Qed.

(** * C223: a map with lifetimes *)
(** After any history of calls in any loops that are told apart, with values JSON carries and positive
    lifetimes, a get answers the value of the last set, if it was not deleted and lasts, and None otherwise. *)
Theorem C223_map : forall ident h loop now key, told_apart ident (map fst h ++ [loop]) -> in_order (calls h) now ->
  (forall t k v ttl, In (t, CSet k v ttl) (calls h) -> carried v /\ forall d, ttl = Some d -> (0 < d)%Z) ->
  let got := snd (redis_get ident loop now key (fst (redis_run ident h empty))) in
  (forall v t0 ttl, last_set key (calls h) t0 v ttl -> lasts t0 ttl now -> got = Value v)
  /\ ((forall v t0 ttl, last_set key (calls h) t0 v ttl -> ~ lasts t0 ttl now) -> got = Value JNull).
Proof.
  intros ident h loop now key T O G got. unfold got. destruct (get_ok ident h loop now key T O) as (x & -> & X).
  { intros t o I. destruct o as [k v ttl| |]; [|exact Logic.I|exact Logic.I]. destruct (G _ _ _ _ I) as [C D]. split; [exact C|]. destruct ttl as [d|]; [|exact Logic.I]. specialize (D d eq_refl). lia. }
  split.
  - intros v t0 ttl LS L. rewrite (proj2 (X v)); [reflexivity|]. exists t0, ttl. auto.
  - intros N. destruct x as [v|]; [|reflexivity]. exfalso. destruct (proj1 (X v) eq_refl) as (t0 & ttl & LS & [->|L]); [|exact (N v t0 ttl LS L)].
    destruct LS as (p & q & E & _). destruct (G t0 key v (Some 0%Z)) as [_ D]; [rewrite E; apply in_or_app; right; left; reflexivity|]. specialize (D 0%Z eq_refl). lia.
Qed.
Print Assumptions C223_map.
Example C223_case : let h := [(0%nat, (0, CSet (u "k") (JStr (u "v")) (Some 5))); (1%nat, (1, CSet (u "l") (JInt 3) None)); (0%nat, (4999, CGet (u "k"))); (2%nat, (5000, CGet (u "k"))); (1%nat, (5001, CDelete (u "l")))]%Z in
  told_apart N.of_nat (map fst h ++ [1%nat]) /\ in_order (calls h) 6000%Z /\ carried (JStr (u "v"))
  /\ snd (redis_run N.of_nat h empty) = [Done; Done; Value (JStr (u "v")); Value JNull; Done].
Proof.
  cbn zeta. refine (conj _ (conj _ (conj _ _))).
  - intros a b _ _ E. apply Nnat.Nat2N.inj, E.
  - cbn. repeat split; try lia; intros t o I; repeat destruct I as [I|I]; try (injection I as <- _; lia); destruct I.
  - split; intros c C; cbn in C; destruct C as [<-|[]]; lia.
  - vm_compute. reflexivity.
Qed.

(** * C224: nothing outlives its lifetime *)
Definition C224_statement : Prop := forall ident h loop now key v t0 d, told_apart ident (map fst h ++ [loop]) -> in_order (calls h) now ->
  (forall t k v ttl, In (t, CSet k v ttl) (calls h) -> carried v) -> last_set key (calls h) t0 v (Some d) -> (t0 + d * 1000 <= now)%Z ->
  snd (redis_get ident loop now key (fst (redis_run ident h empty))) = Value JNull.
(** A lifetime of 0 seconds is none. *)
Theorem C224_refuted : ~ C224_statement.
Proof.
  intros H. specialize (H N.of_nat [(0%nat, (0%Z, CSet (u "k") (JInt 1) (Some 0%Z)))] 0%nat 1000000%Z (u "k") (JInt 1) 0%Z 0%Z).
  assert (X : snd (redis_get N.of_nat 0 1000000 (u "k") (fst (redis_run N.of_nat [(0%nat, (0%Z, CSet (u "k") (JInt 1) (Some 0%Z)))] empty))) = Value (JInt 1)) by (vm_compute; reflexivity).
  rewrite X in H. assert (Y : Value (JInt 1) = Value JNull); [|discriminate Y]. apply H; [intros a b _ _ E; apply Nnat.Nat2N.inj, E|cbn; repeat split; [lia|intros ? ? []]| | |lia].
  - intros t k v ttl [I|[]]. injection I as <- <- <- <-. split; exact I.
  - exists [], []. split; [reflexivity|intros ? ? []].
Qed.
Print Assumptions C224_refuted.
(** With a lifetime of at least a second nothing is found after it; other keys may be set with 0. *)
Theorem C224_partial : forall ident h loop now key v t0 d, told_apart ident (map fst h ++ [loop]) -> in_order (calls h) now ->
  (forall t k v ttl, In (t, CSet k v ttl) (calls h) -> carried v /\ forall d, ttl = Some d -> (0 <= d)%Z) ->
  last_set key (calls h) t0 v (Some d) -> (t0 + d * 1000 <= now)%Z -> d <> 0%Z ->
  snd (redis_get ident loop now key (fst (redis_run ident h empty))) = Value JNull.
Proof.
  intros ident h loop now key v t0 d T O G LS L N0. destruct (get_ok ident h loop now key T O) as (x & -> & X).
  { intros t o I. destruct o as [k w ttl| |]; [|exact Logic.I|exact Logic.I]. destruct (G _ _ _ _ I) as [C D]. split; [exact C|]. destruct ttl as [e|]; [|exact Logic.I]. apply (D e eq_refl). }
  destruct x as [w|]; [|reflexivity]. exfalso. destruct (proj1 (X w) eq_refl) as (t1 & ttl & LS1 & Y). destruct (last_set_same _ _ _ _ _ _ _ _ LS LS1) as (-> & -> & ->).
  destruct Y as [Y|Y]; [congruence|]. cbn in Y. lia.
Qed.
Print Assumptions C224_partial.
(** A negative lifetime is refused and what was kept stays, in every state in which the loop has its client. *)
Theorem C224_negative : forall ident loop now key v d w, (d < 0)%Z ->
  snd (redis_set ident loop now key v (Some d) w) = Error /\ server (fst (redis_set ident loop now key v (Some d) w)) = server w.
Proof.
  intros ident loop now key v d w L. unfold redis_set. destruct (json_body v) as [b|]; [|auto].
  assert (S2 : server (snd (async_client ident loop w)) = server w) by (unfold async_client; destruct (registered _ _); reflexivity).
  destruct (async_client ident loop w) as (c, w1). cbn [snd] in S2. destruct (Nat.eqb _ _); [|auto]. destruct (Z.eqb_spec d 0); [lia|]. unfold srv_setex.
  replace (d <=? 0)%Z with true by (symmetry; apply Z.leb_le; lia). auto.
Qed.
Print Assumptions C224_negative.

(** * C225: calls from any loops work *)
Definition C225_statement : Prop := forall ident h now, (forall t k v ttl, In (t, CSet k v ttl) (calls h) -> carried v /\ forall d, ttl = Some d -> (0 < d)%Z) ->
  in_order (calls h) now -> ~ In Error (snd (redis_run ident h empty)).
(** The second synchronous call may run in a loop with the identity of the first, which is gone. *)
Theorem C225_refuted : ~ C225_statement.
Proof.
  intros H. apply (H (fun _ => 7%N) [(0%nat, (0%Z, CSet (u "k") (JInt 1) None)); (1%nat, (1%Z, CGet (u "k")))] 1%Z).
  - intros t k v ttl [I|[I|[]]]; [|discriminate I]. injection I as <- <- <- <-. split; [split; exact I|discriminate].
  - cbn. repeat split; try lia; intros t o I; repeat destruct I as [I|I]; try (injection I as <- _; lia); destruct I.
  - vm_compute. right. left. reflexivity.
Qed.
Print Assumptions C225_refuted.
Lemma run_app ident h : forall h2 w, redis_run ident (h ++ h2) w = (fst (redis_run ident h2 (fst (redis_run ident h w))), snd (redis_run ident h w) ++ snd (redis_run ident h2 (fst (redis_run ident h w)))).
Proof.
  induction h as [|e h IH]; intros h2 w; [cbn; destruct (redis_run ident h2 w); reflexivity|]. cbn [app redis_run]. destruct (redis_call ident e w) as (w1, a). rewrite IH.
  destruct (redis_run ident h w1) as (w2, l). cbn [fst snd]. reflexivity.
Qed.
Lemma in_order_front (h : list (Z * cop jvalue)) t o now : in_order (h ++ [(t, o)]) now -> in_order h t.
Proof. intros O. exact (proj1 (in_order_snoc _ _ _ _ O)). Qed.
(** With loops that are told apart no call fails. *)
Theorem C225_partial : forall ident h now, told_apart ident (map fst h) -> (forall t k v ttl, In (t, CSet k v ttl) (calls h) -> carried v /\ forall d, ttl = Some d -> (0 < d)%Z) ->
  in_order (calls h) now -> ~ In Error (snd (redis_run ident h empty)).
Proof.
  intros ident h. induction h as [|(l, (t, o)) h IH] using rev_ind; [intros now _ _ _ []|]. intros now T G O.
  assert (GG : forall t' o', In (t', o') (calls (h ++ [(l, (t, o))])) -> good o').
  { intros t' o' I. destruct o' as [k w ttl| |]; [|exact Logic.I|exact Logic.I]. destruct (G _ _ _ _ I) as [C D]. split; [exact C|]. destruct ttl as [e|]; [|exact Logic.I]. specialize (D e eq_refl). lia. }
  unfold calls in G, O, GG. rewrite map_app in G, O, T, GG. cbn [map] in *. cbn [fst snd] in *. assert (O1 := in_order_front _ _ _ _ O).
  rewrite run_app. cbn [snd]. intros I. apply in_app_or in I. destruct I as [I|I].
  - apply (IH t) in I; [exact I| | |exact O1].
    + intros a b X Y. apply T; apply in_or_app; left; assumption.
    + intros t' k v ttl X. apply (G t' k). apply in_or_app. left. exact X.
  - destruct (run_ok ident h [] empty) as (ls & S1 & IN & _).
    { intros a b X Y. rewrite app_nil_r in X, Y. apply T; apply in_or_app; left; assumption. } { intros i c R. discriminate R. } { intros t' o' X. apply (GG t'). apply in_or_app. left. exact X. }
    destruct (call_ok ident ls l t o (fst (redis_run ident h empty))) as (_ & _ & D).
    { assert (W : forall x, In x (l :: ls) -> In x (map fst h ++ [l])) by (intros x [X|X]; [apply in_or_app; right; left; exact X|specialize (IN x X); rewrite app_nil_r in IN; apply in_or_app; left; exact IN]).
      intros a b X Y. apply T; apply W; assumption. } { exact S1. } { apply (GG t). apply in_or_app. right. left. reflexivity. }
    cbn [redis_run] in I. destruct o as [k v ttl|k|k].
    + destruct (redis_call ident (l, (t, CSet k v ttl)) (fst (redis_run ident h empty))) as (w1, a). cbn [snd] in D, I. subst a. destruct I as [I|[]]. discriminate I.
    + destruct (get_ok ident h l t k T O1) as (x & E & _); [intros t' o' X; apply (GG t'); apply in_or_app; left; exact X|].
      cbn [redis_call] in I. destruct (redis_get ident l t k (fst (redis_run ident h empty))) as (w1, a). cbn [snd] in E, I. subst a. destruct I as [I|[]]. discriminate I.
    + destruct (redis_call ident (l, (t, CDelete k)) (fst (redis_run ident h empty))) as (w1, a). cbn [snd] in D, I. subst a. destruct I as [I|[]]. discriminate I.
Qed.
Print Assumptions C225_partial.

(** * C226: close closes every client *)
(** All clients that were made are closed. *)
Definition all_closed (w : world) : Prop := forall n, (n < made w)%nat -> In n (closed w).
Definition C226_statement : Prop := forall ident h loop, told_apart ident (map fst h ++ [loop]) ->
  let w := fst (redis_close loop (fst (redis_run ident h empty))) in all_closed w /\ registry w = [].
Theorem C226_refuted : ~ C226_statement.
Proof.
  intros H. destruct (H N.of_nat [(0%nat, (0%Z, CGet (u "k"))); (1%nat, (1%Z, CGet (u "k")))] 1%nat ltac:(intros a b _ _ E; apply Nnat.Nat2N.inj, E)) as [_ X]. vm_compute in X. discriminate X.
Qed.
Print Assumptions C226_refuted.
Lemma alone_run ident loop h : forall w, (registry w = [] /\ made w = 0 \/ registry w = [(ident loop, {| c_number := 0; c_loop := loop |})] /\ made w = 1)%nat -> closed w = [] -> (forall x, In x (map fst h) -> x = loop) ->
  let w' := fst (redis_run ident h w) in
  (registry w' = [] /\ made w' = 0 \/ registry w' = [(ident loop, {| c_number := 0; c_loop := loop |})] /\ made w' = 1)%nat /\ closed w' = [].
Proof.
  induction h as [|(l, (t, o)) h IH]; intros w R C A; [auto|]. assert (l = loop) by (apply A; left; reflexivity). subst l.
  assert (K : let w1 := snd (async_client ident loop w) in (registry w1 = [] /\ made w1 = 0 \/ registry w1 = [(ident loop, {| c_number := 0; c_loop := loop |})] /\ made w1 = 1)%nat /\ closed w1 = []).
  { unfold async_client. destruct R as [[R M]|[R M]]; rewrite R; cbn [registered]; [cbn; rewrite M; auto|]. rewrite N.eqb_refl. cbn. auto. }
  assert (STEP : let w1 := fst (redis_call ident (loop, (t, o)) w) in (registry w1 = [] /\ made w1 = 0 \/ registry w1 = [(ident loop, {| c_number := 0; c_loop := loop |})] /\ made w1 = 1)%nat /\ closed w1 = []).
  { cbn zeta in *. cbn [redis_call]. destruct o as [k v ttl|k|k].
    - unfold redis_set. destruct (json_body v); [|auto]. destruct (async_client ident loop w) as (c, w1). destruct (Nat.eqb _ _); [|exact K]. destruct (match ttl with Some d => if Z.eqb d 0 then None else Some d | None => None end); [|exact K]. destruct (srv_setex _ _ _ _ _); exact K.
    - unfold redis_get. destruct (async_client ident loop w) as (c, w1). destruct (Nat.eqb _ _); [|exact K]. destruct (srv_get _ _ _). exact K.
    - unfold redis_delete. destruct (async_client ident loop w) as (c, w1). destruct (Nat.eqb _ _); exact K. }
  cbn zeta in *. cbn [redis_run]. destruct (redis_call ident (loop, (t, o)) w) as (w1, a). cbn [fst] in STEP. destruct STEP as [S1 S2].
  specialize (IH w1 S1 S2 (fun x I => A x (or_intror I))). destruct (redis_run ident h w1). exact IH.
Qed.
(** When all calls were made in the loop that closes, it works, for every history. *)
Theorem C226_partial : forall ident h loop, (forall x, In x (map fst h) -> x = loop) ->
  let w := fst (redis_run ident h empty) in
  snd (redis_close loop w) = Done /\ all_closed (fst (redis_close loop w)) /\ registry (fst (redis_close loop w)) = []
  /\ (made w <= 1)%nat /\ NoDup (closed (fst (redis_close loop w))).
Proof.
  intros ident h loop A. destruct (alone_run ident loop h empty (or_introl (conj eq_refl eq_refl)) eq_refl A) as [R C]. cbn zeta in *. set (w := fst (redis_run ident h empty)) in *.
  unfold redis_close, all_closed. rewrite C. destruct R as [[R M]|[R M]]; rewrite R; cbn [close_all c_loop c_number app].
  - cbn [fst snd made closed registry]. rewrite M. repeat split; [intros; lia|lia|constructor].
  - rewrite Nat.eqb_refl. cbn [fst snd made closed registry]. rewrite M. refine (conj eq_refl (conj _ (conj eq_refl (conj (le_n 1) _)))); [intros n L; left; lia|constructor; [intros []|constructor]].
Qed.
Print Assumptions C226_partial.
Example C226_case : let h := [(3%nat, (0%Z, CSet (u "k") (JInt 1) None)); (3%nat, (0%Z, CGet (u "k")))] in
  (forall x, In x (map fst h) -> x = 3%nat) /\ made (fst (redis_run N.of_nat h empty)) = 1%nat /\ closed (fst (redis_close 3 (fst (redis_run N.of_nat h empty)))) = [0%nat].
Proof. split; [intros x [<-|[<-|[]]]; reflexivity|]. vm_compute. auto. Qed.
(** Each synchronous call in a loop of its own leaves one more client open. *)
Theorem C226_left : forall ident h, told_apart ident (map fst h) -> NoDup (map fst h) -> (forall t k v ttl, In (t, CSet k v ttl) (calls h) -> carried v) ->
  made (fst (redis_run ident h empty)) = length h /\ closed (fst (redis_run ident h empty)) = [].
Proof.
  intros ident h. assert (X : forall loops w, told_apart ident (map fst h ++ loops) -> NoDup (map fst h ++ loops) -> (forall t k v ttl, In (t, CSet k v ttl) (calls h) -> carried v) -> sound ident loops w ->
    made (fst (redis_run ident h w)) = (length h + made w)%nat /\ closed (fst (redis_run ident h w)) = closed w).
  { induction h as [|(l, (t, o)) h IH]; intros loops w T ND G S0; [auto|]. cbn [map fst app] in T, ND.
    assert (T1 : told_apart ident (l :: loops)) by (intros a b I J; apply T; [destruct I as [I|I]; [left; exact I|right; apply in_or_app; right; exact I]|destruct J as [J|J]; [left; exact J|right; apply in_or_app; right; exact J]]).
    destruct (client_sound ident loops l w T1 S0) as (C & S1 & _). inversion ND as [|? ? NI ND1]; subst.
    assert (M : made (snd (async_client ident l w)) = S (made w) /\ closed (snd (async_client ident l w)) = closed w).
    { unfold async_client. destruct (registered (ident l) (registry w)) as [c|] eqn:R; [|auto]. exfalso. destruct (S0 _ _ R) as [I E]. apply NI. apply in_or_app. right.
      replace l with (c_loop c); [exact I|]. symmetry. apply T1; [left; reflexivity|right; exact I|exact E]. }
    assert (STEP : let w1 := fst (redis_call ident (l, (t, o)) w) in made w1 = S (made w) /\ closed w1 = closed w /\ sound ident (l :: loops) w1).
    { cbn zeta. cbn [redis_call]. destruct o as [k v ttl|k|k].
      - unfold redis_set. destruct (carried_body v (G t k v ttl (or_introl eq_refl))) as (b & -> & _). destruct (async_client ident l w) as (c, w1). cbn [snd] in *. destruct M as [M1 M2]. destruct (Nat.eqb _ _); [|auto]. destruct (match ttl with Some d => if Z.eqb d 0 then None else Some d | None => None end); [destruct (srv_setex _ _ _ _ _)|]; cbn; auto.
      - unfold redis_get. destruct (async_client ident l w) as (c, w1). cbn [snd] in *. destruct M as [M1 M2]. destruct (Nat.eqb _ _); [destruct (srv_get _ _ _)|]; cbn; auto.
      - unfold redis_delete. destruct (async_client ident l w) as (c, w1). cbn [snd] in *. destruct M as [M1 M2]. destruct (Nat.eqb _ _); cbn; auto. }
    cbn zeta in STEP. cbn [redis_run]. destruct (redis_call ident (l, (t, o)) w) as (w1, a). cbn [fst] in STEP. destruct STEP as (A1 & A2 & A3).
    destruct (IH (l :: loops) w1) as [B1 B2].
    - intros a' b' I J. apply T; [apply in_app_or in I; destruct I as [I|[I|I]]; [right; apply in_or_app; left; exact I|left; exact I|right; apply in_or_app; right; exact I]|].
      apply in_app_or in J; destruct J as [J|[J|J]]; [right; apply in_or_app; left; exact J|left; exact J|right; apply in_or_app; right; exact J].
    - apply NoDup_Add with (a := l) (l := map fst h ++ loops); [apply Add_app|]. auto.
    - intros t' k v ttl I. apply (G t' k v ttl). right. exact I.
    - exact A3.
    - destruct (redis_run ident h w1) as (w2, as_). cbn [fst] in *. split; [rewrite B1, A1; cbn; lia|rewrite B2; exact A2]. }
  intros T ND G. destruct (X [] empty) as [A B]; [rewrite app_nil_r; exact T|rewrite app_nil_r; exact ND|exact G|intros i c R; discriminate R|]. split; [rewrite A; cbn; lia|exact B].
Qed.
Print Assumptions C226_left.
