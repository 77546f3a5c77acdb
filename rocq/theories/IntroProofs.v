(** The graph is a list of blocks: a node and the layers around it. *)
From Coq Require Import List Bool Arith Lia.
From Verif Require Import PyStr IntroModel IntroSpec.
Import ListNotations.

Record block := { k_kind : kind; k_ref : ref; k_meta : meta; k_mws : list decl; k_perms : list decl; k_parent : option nat }.
Fixpoint layer_nodes (i : nat) (k : kind) (ds : list decl) : list node :=
  match ds with [] => [] | d :: ds' => {| n_id := i; n_kind := k; n_ref := RClass (resolve d); n_meta := MClass (resolve d) |} :: layer_nodes (S i) k ds' end.
Definition depth (x : block) : nat := length (k_mws x) + length (k_perms x).
Definition block_nodes (i : nat) (x : block) : list node :=
  {| n_id := i; n_kind := k_kind x; n_ref := k_ref x; n_meta := k_meta x |} ::
  layer_nodes (S i) MIDDLEWARE (k_mws x) ++ layer_nodes (S i + length (k_mws x)) PERMISSION (k_perms x).
Definition wedge (i : nat) : edge := {| e_source := i; e_target := S i; e_kind := WRAPS |}.
Definition block_edges (i : nat) (x : block) : list edge :=
  match k_parent x with Some s => [{| e_source := s; e_target := i; e_kind := DISPATCHES_TO |}] | None => [] end ++ map wedge (seq i (depth x)).
Fixpoint nodes_of (i : nat) (xs : list block) : list node :=
  match xs with [] => [] | x :: xs' => block_nodes i x ++ nodes_of (i + S (depth x)) xs' end.
Fixpoint edges_of (i : nat) (xs : list block) : list edge :=
  match xs with [] => [] | x :: xs' => block_edges i x ++ edges_of (i + S (depth x)) xs' end.
Fixpoint size (xs : list block) : nat := match xs with [] => 0 | x :: xs' => S (depth x) + size xs' end.

Lemma layer_nodes_length k ds : forall i, length (layer_nodes i k ds) = length ds.
Proof. induction ds as [|d ds IH]; intros i; [reflexivity|]. cbn [layer_nodes length]. rewrite IH. reflexivity. Qed.
Lemma block_nodes_length i x : length (block_nodes i x) = S (depth x).
Proof. unfold block_nodes, depth. cbn [length]. rewrite app_length, !layer_nodes_length. reflexivity. Qed.
Lemma nodes_of_length xs : forall i, length (nodes_of i xs) = size xs.
Proof. induction xs as [|x xs IH]; intros i; [reflexivity|]. cbn [nodes_of size]. rewrite app_length, block_nodes_length, IH. reflexivity. Qed.
Lemma nodes_of_app xs ys : forall i, nodes_of i (xs ++ ys) = nodes_of i xs ++ nodes_of (i + size xs) ys.
Proof.
  induction xs as [|x xs IH]; intros i; [cbn [app nodes_of size]; rewrite Nat.add_0_r; reflexivity|]. cbn [app nodes_of size]. rewrite IH, <- app_assoc. do 3 f_equal. lia.
Qed.
Lemma edges_of_app xs ys : forall i, edges_of i (xs ++ ys) = edges_of i xs ++ edges_of (i + size xs) ys.
Proof.
  induction xs as [|x xs IH]; intros i; [cbn [app edges_of size]; rewrite Nat.add_0_r; reflexivity|]. cbn [app edges_of size]. rewrite IH, <- app_assoc. do 3 f_equal. lia.
Qed.
Lemma size_app xs ys : size (xs ++ ys) = size xs + size ys.
Proof. induction xs as [|x xs IH]; [reflexivity|]. cbn [app size]. rewrite IH. lia. Qed.

Lemma add_layers_spec k ds : forall last b, length (b_nodes b) = S last ->
  add_layers k ds last b = ({| b_nodes := b_nodes b ++ layer_nodes (S last) k ds; b_edges := b_edges b ++ map wedge (seq last (length ds)); b_visited := b_visited b |}, last + length ds).
Proof.
  induction ds as [|d ds IH]; intros last b L.
  - cbn [add_layers layer_nodes length seq map]. rewrite !app_nil_r, Nat.add_0_r. destruct b; reflexivity.
  - cbn [add_layers]. unfold add_node, add_edge. cbv zeta beta iota. cbn [b_nodes b_edges b_visited]. rewrite L.
    rewrite IH by (cbn [b_nodes]; rewrite app_length, L; cbn [length]; lia). cbn [b_nodes b_edges b_visited layer_nodes length seq map]. rewrite <- !app_assoc. cbn [app]. apply f_equal2; [reflexivity|lia].
Qed.

Definition put (x : block) (b : builder) : builder :=
  {| b_nodes := b_nodes b ++ block_nodes (length (b_nodes b)) x; b_edges := b_edges b ++ block_edges (length (b_nodes b)) x; b_visited := b_visited b |}.
Lemma add_block k r m s mws perms b :
  (let (b1, i) := add_node k r m b in
   let (b3, l3) := add_layers MIDDLEWARE mws i (add_edge s i DISPATCHES_TO b1) in add_layers PERMISSION perms l3 b3) =
  (put {| k_kind := k; k_ref := r; k_meta := m; k_mws := mws; k_perms := perms; k_parent := Some s |} b, length (b_nodes b) + (length mws + length perms)).
Proof.
  unfold add_node, add_edge. cbv zeta beta iota. cbn [b_nodes b_edges b_visited]. rewrite add_layers_spec by (cbn [b_nodes]; rewrite app_length; cbn [length]; lia).
  cbv beta iota. cbn [b_nodes b_edges b_visited]. rewrite add_layers_spec by (cbn [b_nodes]; rewrite !app_length, layer_nodes_length; cbn [length]; lia).
  cbn [b_nodes b_edges b_visited]. unfold put, block_nodes, block_edges, depth. cbn [k_kind k_ref k_meta k_mws k_perms k_parent]. apply f_equal2; [|lia].
  f_equal; rewrite <- !app_assoc; cbn [app]; [reflexivity|]. rewrite seq_app, map_app. reflexivity.
Qed.
Definition route_block (a k s : nat) (p : option str) (ms : list str) (mws perms : list decl) : block :=
  {| k_kind := ROUTE; k_ref := REntry a k; k_meta := MRoute p ms; k_mws := mws; k_perms := perms; k_parent := Some s |}.
Definition incl_block (a k s : nat) (p : str) (nm : option str) (mws perms : list decl) : block :=
  {| k_kind := INCLUDE; k_ref := REntry a k; k_meta := MIncl p nm; k_mws := mws; k_perms := perms; k_parent := Some s |}.
Definition router_block (c s : nat) : block :=
  {| k_kind := ROUTER; k_ref := RRouter c; k_meta := MNone; k_mws := []; k_perms := []; k_parent := Some s |}.
Lemma loop_route rec a s k p ms mws perms es b :
  loop rec a s k (Route p ms mws perms :: es) b = loop rec a s (S k) es (put (route_block a k s p ms mws perms) b).
Proof.
  cbn [loop]. pose proof (add_block ROUTE (REntry a k) (MRoute p ms) s mws perms b) as E. destruct (add_node ROUTE (REntry a k) (MRoute p ms) b) as [b1 i]. cbv zeta.
  destruct (add_layers MIDDLEWARE mws i (add_edge s i DISPATCHES_TO b1)) as [b3 l3]. rewrite E. reflexivity.
Qed.
Lemma loop_incl rec a s k p nm mws perms t es b :
  loop rec a s k (Incl p nm mws perms t :: es) b =
  let b4 := put (incl_block a k s p nm mws perms) b in
  match include_app mws perms t with
  | Some c => if existsb (Nat.eqb c) (b_visited b) then loop rec a s (S k) es b4
              else match rec c (length (b_nodes b4)) (put (router_block c (length (b_nodes b))) (visit c b4)) with
                   | Some b6 => loop rec a s (S k) es b6 | None => None end
  | None => loop rec a s (S k) es b4
  end.
Proof.
  cbn [loop]. pose proof (add_block INCLUDE (REntry a k) (MIncl p nm) s mws perms b) as E. destruct (add_node INCLUDE (REntry a k) (MIncl p nm) b) as [b1 i]. cbv zeta.
  destruct (add_layers MIDDLEWARE mws i (add_edge s i DISPATCHES_TO b1)) as [b3 l3]. rewrite E. cbv beta iota. fold (incl_block a k s p nm mws perms).
  destruct (include_app mws perms t) as [c|] eqn:IA; [|reflexivity]. change (b_visited (put (incl_block a k s p nm mws perms) b)) with (b_visited b).
  destruct (existsb (Nat.eqb c) (b_visited b)); [reflexivity|]. unfold add_node. cbv zeta beta iota.
  assert (M : mws = [] /\ perms = []) by (destruct mws, perms, t; try discriminate IA; split; reflexivity). destruct M as [-> ->]. cbn [length Nat.add]. rewrite Nat.add_0_r.
  unfold visit, put, add_edge, router_block, block_nodes, block_edges, depth. cbn [b_nodes b_edges b_visited k_kind k_ref k_meta k_mws k_perms k_parent length Nat.add seq map app layer_nodes].
  rewrite app_nil_r. reflexivity.
Qed.

(** A builder holds blocks. *)
Definition rep (b : builder) (xs : list block) : Prop := b_nodes b = nodes_of 0 xs /\ b_edges b = edges_of 0 xs.
Lemma rep_put b xs x : rep b xs -> rep (put x b) (xs ++ [x]).
Proof.
  intros [N E]. unfold rep, put. cbn [b_nodes b_edges]. rewrite nodes_of_app, edges_of_app, N, E, nodes_of_length. cbn [nodes_of edges_of]. rewrite !app_nil_r. split; reflexivity.
Qed.
Lemma rep_visit b xs c : rep b xs -> rep (visit c b) xs.
Proof. intros H. exact H. Qed.
Lemma rep_length b xs : rep b xs -> length (b_nodes b) = size xs.
Proof. intros [N _]. rewrite N. apply nodes_of_length. Qed.

(** Blocks that describe entries of applications. *)
Definition ok_block (st : store) (x : block) : Prop :=
  match k_kind x with
  | ROUTE => exists a k ap p ms, k_ref x = REntry a k /\ nth_error st a = Some ap /\ nth_error (a_routes ap) k = Some (Route p ms (k_mws x) (k_perms x)) /\ k_meta x = MRoute p ms
  | INCLUDE => exists a k ap p nm t, k_ref x = REntry a k /\ nth_error st a = Some ap /\ nth_error (a_routes ap) k = Some (Incl p nm (k_mws x) (k_perms x) t) /\ k_meta x = MIncl p nm
  | ROUTER => exists a, k_ref x = RRouter a /\ k_mws x = [] /\ k_perms x = []
  | _ => False
  end.
(** Each block hangs from a node before it. *)
Fixpoint hangs (i : nat) (xs : list block) : Prop :=
  match xs with [] => True | x :: xs' => (exists s, k_parent x = Some s /\ s < i) /\ hangs (i + S (depth x)) xs' end.
Lemma hangs_app xs ys : forall i, hangs i xs -> hangs (i + size xs) ys -> hangs i (xs ++ ys).
Proof.
  induction xs as [|x xs IH]; intros i H G; [cbn [size] in G; rewrite Nat.add_0_r in G; exact G|]. destruct H as [P H]. cbn [app hangs]. split; [exact P|]. apply IH; [exact H|].
  cbn [size] in G. replace (i + S (depth x) + size xs) with (i + (S (depth x) + size xs)) by lia. exact G.
Qed.
Definition mem (c : nat) (l : list nat) : bool := existsb (Nat.eqb c) l.
Lemma mem_In c l : mem c l = true <-> In c l.
Proof. unfold mem. rewrite existsb_exists. split; [intros (x & I & E); apply Nat.eqb_eq in E; subst; exact I|intros I; exists c; split; [exact I|apply Nat.eqb_refl]]. Qed.
Definition ref_eqb (r : ref) (a k : nat) : bool := match r with REntry a' k' => Nat.eqb a' a && Nat.eqb k' k | _ => false end.
Definition count (a k : nat) (xs : list block) : nat := length (filter (fun x => ref_eqb (k_ref x) a k) xs).
Lemma count_app a k xs ys : count a k (xs ++ ys) = count a k xs + count a k ys.
Proof. unfold count. rewrite filter_app, app_length. reflexivity. Qed.
Definition b2n (b : bool) : nat := if b then 1 else 0.
Definition routes_of (st : store) (a : nat) : list entry := match nth_error st a with Some ap => a_routes ap | None => [] end.

(** What a traversal from [a] on, of the entries [es] from [k] on, does. *)
Definition goal (st : store) (a s k : nat) (es : list entry) (b b' : builder) : Prop :=
  forall xs, rep b xs -> s < size xs ->
  exists ys, rep b' (xs ++ ys) /\ Forall (ok_block st) ys /\ hangs (size xs) ys /\
    incl (b_visited b) (b_visited b') /\
    (forall c j, count c j ys = b2n (Nat.eqb c a && (k <=? j) && (j <? k + length es)) +
                               b2n (mem c (b_visited b') && negb (mem c (b_visited b)) && (j <? length (routes_of st c)))) /\
    (forall c, In c (b_visited b') -> ~ In c (b_visited b) ->
       exists d, (exists p nm, In (Incl p nm [] [] (ToApp d)) es) /\ (d = c \/ reaches st d c)) /\
    (forall c p nm, In (Incl p nm [] [] (ToApp c)) es -> In c (b_visited b')) /\
    (forall c d, In c (b_visited b') -> ~ In c (b_visited b) -> includes_bare st c d -> In d (b_visited b')).

Lemma skipn_step {A} (l : list A) : forall k x r, skipn k l = x :: r -> nth_error l k = Some x /\ skipn (S k) l = r /\ k < length l.
Proof.
  induction l as [|y l IH]; intros [|k] x r H; cbn [skipn] in H; try discriminate.
  - injection H as <- <-. repeat split; cbn; lia.
  - destruct (IH k x r H) as (A1 & A2 & A3). cbn [nth_error length]. repeat split; [exact A1|exact A2|lia].
Qed.
Lemma reaches_trans st a b c : reaches st a b -> reaches st b c -> reaches st a c.
Proof. intros H G. induction G as [c I|x c G IH I]; [exact (reaches_more _ _ _ _ H I)|exact (reaches_more _ _ _ _ IH I)]. Qed.
Lemma count_one a k x : count a k [x] = b2n (ref_eqb (k_ref x) a k).
Proof. unfold count. cbn [filter]. destruct (ref_eqb (k_ref x) a k); reflexivity. Qed.
Lemma range_step c a j k n : b2n (Nat.eqb c a && (k <=? j) && (j <? k + S n)) = b2n (Nat.eqb a c && Nat.eqb k j) + b2n (Nat.eqb c a && (S k <=? j) && (j <? S k + n)).
Proof.
  rewrite (Nat.eqb_sym a c). destruct (Nat.eqb c a); [|reflexivity]. cbn [andb].
  destruct (Nat.leb_spec k j), (Nat.ltb_spec j (k + S n)), (Nat.eqb_spec k j), (Nat.leb_spec (S k) j), (Nat.ltb_spec j (S k + n)); cbn [andb b2n]; lia.
Qed.

(** A block that leads nowhere, and then the rest. *)
Lemma goal_skip st a s k e es b b' x :
  goal st a s (S k) es (put x b) b' -> ok_block st x -> k_parent x = Some s -> k_ref x = REntry a k ->
  (forall p nm c, e <> Incl p nm [] [] (ToApp c)) \/ (exists p nm c, e = Incl p nm [] [] (ToApp c) /\ In c (b_visited b)) ->
  goal st a s k (e :: es) b b'.
Proof.
  intros G OK P R E xs RP L. destruct (G (xs ++ [x]) (rep_put _ _ _ RP) ltac:(rewrite size_app; lia)) as (ys & RP' & OKs & H & V & C & S1 & S2 & S3).
  exists (x :: ys). rewrite <- app_assoc in RP'. refine (conj RP' (conj (Forall_cons _ OK OKs) (conj _ (conj V (conj _ (conj _ (conj _ S3))))))).
  - cbn [hangs]. split; [exists s; split; assumption|]. rewrite size_app in H. cbn [size] in H. rewrite Nat.add_0_r in H. exact H.
  - intros c j. change (x :: ys) with ([x] ++ ys). rewrite count_app, count_one, C, R. cbn [ref_eqb length]. rewrite range_step. cbn [b_visited put]. lia.
  - intros c I NI. destruct (S1 c I NI) as (d & (p & nm & ID) & D). exists d. split; [exists p, nm; right; exact ID|exact D].
  - intros c p nm [Q|I]; [|exact (S2 c p nm I)]. destruct E as [E|(p' & nm' & c' & E & IV)]; [exfalso; exact (E p nm c Q)|]. rewrite E in Q. injection Q as _ _ <-. apply V. exact IV.
Qed.
Lemma loop_goal st rec : (forall c s b b', rec c s b = Some b' -> goal st c s 0 (routes_of st c) b b') ->
  forall es a s k b b' ap, nth_error st a = Some ap -> skipn k (a_routes ap) = es -> loop rec a s k es b = Some b' -> goal st a s k es b b'.
Proof.
  intros REC es. induction es as [|e es IH]; intros a s k b b' ap A SK H.
  - cbn [loop] in H. injection H as <-. intros xs RP L. exists []. rewrite app_nil_r. refine (conj RP (conj (Forall_nil _) (conj I (conj (incl_refl _) (conj _ (conj _ (conj _ _))))))).
    + intros c j. cbn [length]. destruct (Nat.eqb c a), (Nat.leb_spec k j), (Nat.ltb_spec j (k + 0)), (mem c (b_visited b)); cbn [andb negb b2n count filter length]; try reflexivity; lia.
    + intros c IN NI. contradiction.
    + intros c p nm [].
    + intros c d IN NI. contradiction.
  - destruct (skipn_step _ _ _ _ SK) as (NE & SK' & LT). destruct e as [p ms mws perms|p nm mws perms t].
    + rewrite loop_route in H. apply (goal_skip st a s k _ es b b' (route_block a k s p ms mws perms)); [exact (IH _ _ _ _ _ _ A SK' H)| |reflexivity|reflexivity|left; intros; discriminate].
      exists a, k, ap, p, ms. repeat split; assumption.
    + rewrite loop_incl in H. cbv zeta in H. set (x := incl_block a k s p nm mws perms) in *.
      assert (OK : ok_block st x) by (exists a, k, ap, p, nm, t; repeat split; assumption).
      destruct (include_app mws perms t) as [c|] eqn:IA.
      2:{ apply (goal_skip st a s k _ es b b' x); [exact (IH _ _ _ _ _ _ A SK' H)|exact OK|reflexivity|reflexivity|]. left. intros p' nm' c' E. injection E as -> -> -> -> ->. discriminate IA. }
      assert (M : mws = [] /\ perms = [] /\ t = ToApp c) by (destruct mws, perms, t; try discriminate IA; injection IA as ->; repeat split). destruct M as (-> & -> & ->).
      destruct (existsb (Nat.eqb c) (b_visited b)) eqn:V.
      { apply (goal_skip st a s k _ es b b' x); [exact (IH _ _ _ _ _ _ A SK' H)|exact OK|reflexivity|reflexivity|]. right. exists p, nm, c. split; [reflexivity|]. apply mem_In. exact V. }
      destruct (rec c _ _) as [b6|] eqn:RC; [|discriminate H]. apply REC in RC. apply (IH _ _ _ _ _ _ A SK') in H.
      intros xs RP L. set (r := router_block c (length (b_nodes b))) in *.
      assert (RP2 : rep (put r (visit c (put x b))) (xs ++ [x; r])).
      { change [x; r] with ([x] ++ [r]). rewrite app_assoc. apply rep_put, rep_visit, rep_put, RP. }
      destruct (RC _ RP2) as (ys & RP3 & OK1 & H1 & V1 & C1 & A1 & B1 & D1).
      { rewrite (rep_length _ _ (rep_put _ _ x RP)), !size_app. cbn [size]. unfold r, depth. cbn. lia. }
      destruct (H _ RP3) as (zs & RP4 & OK2 & H2 & V2 & C2 & A2 & B2 & D2); [rewrite !size_app; lia|].
      cbn [b_visited put visit] in V1, C1, A1, D1.
      exists ([x; r] ++ ys ++ zs). rewrite <- !app_assoc in RP4. refine (conj RP4 (conj _ (conj _ (conj _ (conj _ (conj _ (conj _ _))))))).
      * constructor; [exact OK|constructor; [exists c; repeat split|]]. apply Forall_app. split; assumption.
      * cbn [app hangs]. split; [exists s; split; [reflexivity|exact L]|]. split; [exists (length (b_nodes b)); split; [reflexivity|rewrite (rep_length _ _ RP); lia]|].
        rewrite size_app in H1. rewrite size_app, size_app in H2. cbn [size] in H1, H2. apply hangs_app; [|].
        -- replace (size xs + S (depth x) + S (depth r)) with (size xs + (S (depth x) + (S (depth r) + 0))) by lia. exact H1.
        -- replace (size xs + S (depth x) + S (depth r) + size ys) with (size xs + (S (depth x) + (S (depth r) + 0)) + size ys) by lia. exact H2.
      * intros v Iv. apply V2, V1. right. exact Iv.
      * intros v j. rewrite !count_app, C1, C2. change [x; r] with ([x] ++ [r]). rewrite count_app, !count_one. cbn [x r incl_block router_block k_ref ref_eqb length]. rewrite range_step.
        cbn [Nat.leb Nat.add]. cbn [b2n].
        assert (MV : mem v (c :: b_visited b) = Nat.eqb v c || mem v (b_visited b)) by reflexivity. rewrite MV.
        assert (M12 : mem v (b_visited b6) = true -> mem v (b_visited b') = true) by (rewrite !mem_In; apply V2).
        assert (M01 : Nat.eqb v c || mem v (b_visited b) = true -> mem v (b_visited b6) = true) by (rewrite <- MV, !mem_In; apply V1).
        destruct (Nat.eqb_spec v c) as [->|NE'].
        -- change (mem c (b_visited b)) with (existsb (Nat.eqb c) (b_visited b)). rewrite V. cbn [orb andb negb] in *. rewrite (M01 eq_refl), (M12 (M01 eq_refl)). cbn [andb negb b2n]. lia.
        -- cbn [orb andb] in *. destruct (mem v (b_visited b)), (mem v (b_visited b6)), (mem v (b_visited b')); cbn [andb negb b2n]; try lia; exfalso;
           try (discriminate (M01 eq_refl)); try (discriminate (M12 eq_refl)).
      * intros v Iv NI. destruct (in_dec Nat.eq_dec v (b_visited b6)) as [I6|N6].
        -- exists c. split; [exists p, nm; left; reflexivity|]. destruct (Nat.eq_dec v c) as [->|NE']; [left; reflexivity|right].
           destruct (A1 v I6) as (d & (p' & nm' & ID) & [->|RE]); [intros [E|E]; [congruence|contradiction]| |].
           ++ apply reaches_one. unfold routes_of in ID. destruct (nth_error st c) as [cp|] eqn:NC; [|destruct ID]. exists cp, p', nm'. split; assumption.
           ++ refine (reaches_trans _ _ _ _ _ RE). apply reaches_one. unfold routes_of in ID. destruct (nth_error st c) as [cp|] eqn:NC; [|destruct ID]. exists cp, p', nm'. split; assumption.
        -- destruct (A2 v Iv N6) as (d & (p' & nm' & ID) & D). exists d. split; [exists p', nm'; right; exact ID|exact D].
      * intros v p' nm' [Q|Iv]; [|exact (B2 v p' nm' Iv)]. injection Q as _ _ <-. apply V2, V1. left. reflexivity.
      * intros v d Iv NI Q. destruct (in_dec Nat.eq_dec v (b_visited b6)) as [I6|N6]; [|exact (D2 v d Iv N6 Q)]. apply V2. destruct (Nat.eq_dec v c) as [->|NE'].
        -- destruct Q as (cp & p' & nm' & NC & ID). apply (B1 d p' nm'). unfold routes_of. rewrite NC. exact ID.
        -- apply (D1 v d I6); [intros [E|E]; [congruence|contradiction]|exact Q].
Qed.
Lemma traverse_goal st fuel : forall a s b b', traverse st fuel a s b = Some b' -> goal st a s 0 (routes_of st a) b b'.
Proof.
  induction fuel as [|fuel IH]; intros a s b b' H; [discriminate H|]. cbn [traverse] in H. unfold routes_of. destruct (nth_error st a) as [ap|] eqn:A.
  - exact (loop_goal st (traverse st fuel) IH (a_routes ap) a s 0 b b' ap A eq_refl H).
  - injection H as <-. intros xs RP L. exists []. rewrite app_nil_r. refine (conj RP (conj (Forall_nil _) (conj I (conj (incl_refl _) (conj _ (conj _ (conj _ _))))))).
    + intros c j. cbn [length Nat.leb Nat.add]. rewrite (proj2 (Nat.ltb_ge j 0)) by lia. rewrite !andb_false_r. cbn [b2n Nat.add]. destruct (mem c (b_visited b)); cbn [andb negb b2n]; reflexivity.
    + intros c IN NI. contradiction.
    + intros c p nm [].
    + intros c d IN NI. contradiction.
Qed.

(** * The traversal ends *)
Definition sound (st : store) (b : builder) : Prop := NoDup (b_visited b) /\ forall c, In c (b_visited b) -> c < length st.
Lemma visited_short st b c : sound st b -> c < length st -> ~ In c (b_visited b) -> length (b_visited b) < length st.
Proof.
  intros [ND B] L NI. assert (ND' : NoDup (c :: b_visited b)) by (constructor; assumption).
  assert (I : incl (c :: b_visited b) (seq 0 (length st))) by (intros v [<-|Iv]; apply in_seq; [lia|specialize (B v Iv); lia]).
  pose proof (NoDup_incl_length ND' I) as K. rewrite seq_length in K. cbn [length] in K. lia.
Qed.
Lemma loop_ends st rec n : closed st ->
  (forall c s b, sound st b -> length st - length (b_visited b) < n -> exists b', rec c s b = Some b' /\ sound st b' /\ length (b_visited b) <= length (b_visited b')) ->
  forall es a s k b ap, In ap st -> incl es (a_routes ap) -> sound st b -> length st - length (b_visited b) < S n ->
  exists b', loop rec a s k es b = Some b' /\ sound st b' /\ length (b_visited b) <= length (b_visited b').
Proof.
  intros CL REC es. induction es as [|e es IH]; intros a s k b ap A SK SO L.
  - exists b. split; [reflexivity|split; [exact SO|lia]].
  - assert (SK' : incl es (a_routes ap)) by (intros y I; apply SK; right; exact I). destruct e as [p ms mws perms|p nm mws perms t].
    + rewrite loop_route. exact (IH a s (S k) (put (route_block a k s p ms mws perms) b) ap A SK' SO L).
    + rewrite loop_incl. cbv zeta. destruct (include_app mws perms t) as [c|] eqn:IA; [|exact (IH a s (S k) (put (incl_block a k s p nm mws perms) b) ap A SK' SO L)].
      destruct (existsb (Nat.eqb c) (b_visited b)) eqn:V; [exact (IH a s (S k) (put (incl_block a k s p nm mws perms) b) ap A SK' SO L)|].
      assert (T : t = ToApp c) by (destruct mws, perms, t; try discriminate IA; injection IA as ->; reflexivity). subst t.
      assert (CB : c < length st) by exact (CL ap p nm mws perms c A (SK _ (or_introl eq_refl))).
      assert (NI : ~ In c (b_visited b)) by (rewrite <- mem_In; unfold mem; rewrite V; discriminate).
      pose proof (visited_short st b c SO CB NI) as SH.
      match goal with |- context [rec c ?i ?bb] => destruct (REC c i bb) as (b6 & E & SO6 & L6) end.
      * destruct SO as [ND B]. split; cbn [b_visited put visit]; [constructor; assumption|intros v [<-|I]; [exact CB|exact (B v I)]].
      * cbn [b_visited put visit length]. lia.
      * rewrite E. cbn [b_visited put visit length] in L6. destruct (IH a s (S k) b6 ap A SK' SO6 ltac:(lia)) as (b' & E' & SO' & L'). exists b'. split; [exact E'|split; [exact SO'|lia]].
Qed.
Lemma traverse_ends st n : closed st -> forall a s b, sound st b -> length st - length (b_visited b) < n ->
  exists b', traverse st n a s b = Some b' /\ sound st b' /\ length (b_visited b) <= length (b_visited b').
Proof.
  intros CL. induction n as [|n IH]; intros a s b SO L; [lia|]. cbn [traverse]. destruct (nth_error st a) as [ap|] eqn:A; [|exists b; split; [reflexivity|split; [exact SO|lia]]].
  apply (loop_ends st (traverse st n) n CL IH (a_routes ap) a s 0 b ap (nth_error_In _ _ A) (incl_refl _) SO L).
Qed.
Lemma loop_mono rec rec' : (forall c s b b', rec c s b = Some b' -> rec' c s b = Some b') ->
  forall es a s k b b', loop rec a s k es b = Some b' -> loop rec' a s k es b = Some b'.
Proof.
  intros M es. induction es as [|e es IH]; intros a s k b b' H; [exact H|]. destruct e as [p ms mws perms|p nm mws perms t].
  - rewrite loop_route in *. apply IH. exact H.
  - rewrite loop_incl in *. cbv zeta in *. destruct (include_app mws perms t); [|apply IH; exact H]. destruct (existsb _ _); [apply IH; exact H|].
    destruct (rec n _ _) as [b6|] eqn:E; [|discriminate H]. rewrite (M _ _ _ _ E). apply IH. exact H.
Qed.
Lemma traverse_mono st n : forall m a s b b', n <= m -> traverse st n a s b = Some b' -> traverse st m a s b = Some b'.
Proof.
  induction n as [|n IH]; intros [|m] a s b b' L H; try discriminate H; [lia|]. cbn [traverse] in *. destruct (nth_error st a); [|exact H].
  refine (loop_mono _ _ _ _ _ _ _ _ _ H). intros c s' b1 b2. apply IH. lia.
Qed.

(** * The whole graph *)
Definition app_block (a : nat) (ap : application) : block :=
  {| k_kind := APPLICATION; k_ref := RApp a; k_meta := MDebug (a_debug ap); k_mws := a_middleware ap; k_perms := []; k_parent := None |}.
Definition start (a : nat) (ap : application) : builder :=
  {| b_nodes := nodes_of 0 [app_block a ap; router_block a (length (a_middleware ap))]; b_edges := edges_of 0 [app_block a ap; router_block a (length (a_middleware ap))]; b_visited := [] |}.
Lemma build_start st n a ap : nth_error st a = Some ap ->
  build st n a = option_map (fun b => {| g_nodes := b_nodes b; g_edges := b_edges b |}) (traverse st n a (S (length (a_middleware ap))) (start a ap)).
Proof.
  intros A. unfold build. rewrite A. unfold add_node at 1. cbv zeta beta iota. cbn [b_nodes b_edges b_visited empty length app].
  rewrite add_layers_spec by reflexivity. cbv beta iota. unfold add_node. cbv zeta beta iota. cbn [b_nodes b_edges b_visited app length Nat.add]. rewrite layer_nodes_length.
  unfold start. f_equal. f_equal. unfold add_edge. cbn [b_nodes b_edges b_visited nodes_of edges_of]. unfold block_nodes, block_edges, depth, app_block, router_block.
  cbn [k_kind k_ref k_meta k_mws k_perms k_parent length Nat.add layer_nodes app seq map]. rewrite !app_nil_r, Nat.add_0_r. reflexivity.
Qed.
Lemma build_blocks st n a g : build st n a = Some g -> exists ap ys V,
  nth_error st a = Some ap /\
  g_nodes g = nodes_of 0 ([app_block a ap; router_block a (length (a_middleware ap))] ++ ys) /\
  g_edges g = edges_of 0 ([app_block a ap; router_block a (length (a_middleware ap))] ++ ys) /\
  Forall (ok_block st) ys /\ hangs (S (S (length (a_middleware ap)))) ys /\
  (forall c j, count c j ys = b2n (Nat.eqb c a && (j <? length (routes_of st c))) + b2n (mem c V && (j <? length (routes_of st c)))) /\
  (forall c, In c V <-> reaches st a c).
Proof.
  intros B. destruct (nth_error st a) as [ap|] eqn:A; [|unfold build in B; rewrite A in B; discriminate B]. rewrite (build_start st n a ap A) in B.
  destruct (traverse st n a (S (length (a_middleware ap))) (start a ap)) as [b'|] eqn:T; [|discriminate B]. cbn [option_map] in B. injection B as <-. cbn [g_nodes g_edges].
  apply traverse_goal in T. destruct (T [app_block a ap; router_block a (length (a_middleware ap))]) as (ys & [RN RE] & OK & H & V & C & S1 & S2 & S3).
  { split; reflexivity. }
  { cbn [size]. unfold depth, app_block, router_block. cbn. lia. }
  exists ap, ys, (b_visited b'). refine (conj eq_refl (conj RN (conj RE (conj OK (conj _ (conj _ _)))))).
  - cbn [size] in H. unfold depth, app_block, router_block in H. cbn [k_mws k_perms length] in H. replace (S (S (length (a_middleware ap)))) with (S (length (a_middleware ap) + 0) + (S (0 + 0) + 0)) by lia. exact H.
  - intros c j. rewrite C. cbn [b_visited start mem existsb negb Nat.leb Nat.add]. rewrite !andb_true_r. f_equal. f_equal. destruct (Nat.eqb_spec c a) as [->|]; reflexivity.
  - assert (RO : forall c, In c (b_visited b') -> reaches st a c).
    { intros c I. destruct (S1 c I (fun x => x)) as (d & (p & nm & ID) & D). assert (K : includes_bare st a d) by (unfold routes_of in ID; rewrite A in ID; exists ap, p, nm; split; assumption).
      destruct D as [->|D]; [apply reaches_one; exact K|exact (reaches_trans _ _ _ _ (reaches_one _ _ _ K) D)]. }
    intros c. split; [apply RO|]. induction 1 as [c (ap' & p & nm & A' & I)|x c R IH I].
    + rewrite A in A'. injection A' as <-. apply (S2 c p nm). unfold routes_of. rewrite A. exact I.
    + exact (S3 x c IH (fun z => z) I).
Qed.

(** * The queries *)
Definition layer_kind (k : kind) : bool := match k with MIDDLEWARE | PERMISSION => true | _ => false end.
Lemma layer_ids k ds : forall i, map n_id (layer_nodes i k ds) = seq i (length ds).
Proof. induction ds as [|d ds IH]; intros i; [reflexivity|]. cbn [layer_nodes map length seq n_id]. rewrite IH. reflexivity. Qed.
Lemma nodes_ids xs : forall i, map n_id (nodes_of i xs) = seq i (size xs).
Proof.
  induction xs as [|x xs IH]; intros i; [reflexivity|]. cbn [nodes_of size]. rewrite map_app, IH. replace (S (depth x) + size xs) with (S (depth x) + size xs) by reflexivity.
  rewrite seq_app. apply f_equal2; [|f_equal; lia]. unfold block_nodes, depth. cbn [map n_id seq]. rewrite map_app, !layer_ids, seq_app. f_equal.
Qed.
Lemma edges_targets xs : forall i, hangs i xs -> map e_target (edges_of i xs) = seq i (size xs) /\ Forall (fun e => e_source e < e_target e) (edges_of i xs).
Proof.
  induction xs as [|x xs IH]; intros i H; [split; [reflexivity|constructor]|]. destruct H as [(s & P & L) H]. destruct (IH _ H) as [A B]. cbn [edges_of size].
  unfold block_edges. rewrite P. cbn [app map]. rewrite map_app, A. split.
  - change (S (depth x) + size xs) with (S (depth x + size xs)). cbn [seq e_target]. f_equal. rewrite seq_app. apply f_equal2; [|f_equal; lia].
    rewrite map_map. cbn [wedge e_target]. apply seq_shift.
  - constructor; [exact L|]. apply Forall_app. split; [|exact B]. apply Forall_forall. intros e I. apply in_map_iff in I as (j & <- & _). cbn. lia.
Qed.
Lemma find_seq l : forall s, map n_id l = seq s (length l) -> forall i, List.find (fun n => Nat.eqb (n_id n) (s + i)) l = nth_error l i.
Proof.
  induction l as [|n l IH]; intros s M i; [destruct i; reflexivity|]. cbn [map length seq] in M. injection M as E M. cbn [List.find]. destruct i as [|i].
  - rewrite E, Nat.add_0_r, Nat.eqb_refl. reflexivity.
  - rewrite E. destruct (Nat.eqb_spec s (s + S i)); [lia|]. cbn [nth_error]. rewrite <- (IH (S s) M i). replace (s + S i) with (S s + i) by lia. reflexivity.
Qed.
Definition is_wrap (i : nat) (e : edge) : bool := Nat.eqb (e_source e) i && match e_kind e with WRAPS => true | _ => false end.
Lemma wrap_seq i : forall n s, filter (is_wrap i) (map wedge (seq s n)) = if (s <=? i) && (i <? s + n) then [wedge i] else [].
Proof.
  induction n as [|n IH]; intros s.
  - cbn [seq map filter]. destruct (Nat.leb_spec s i), (Nat.ltb_spec i (s + 0)); cbn [andb]; try reflexivity; lia.
  - cbn [seq map filter]. rewrite IH. unfold is_wrap at 1. cbn [wedge e_source e_kind]. rewrite andb_true_r. destruct (Nat.eqb_spec s i) as [->|D].
    + destruct (Nat.leb_spec (S i) i), (Nat.leb_spec i i), (Nat.ltb_spec i (i + S n)); cbn [andb]; try reflexivity; lia.
    + destruct (Nat.leb_spec (S s) i), (Nat.leb_spec s i), (Nat.ltb_spec i (S s + n)), (Nat.ltb_spec i (s + S n)); cbn [andb]; try reflexivity; lia.
Qed.
Definition layer_at (l : list node) (j : nat) : bool := match nth_error l j with Some n => layer_kind (n_kind n) | None => false end.
Lemma layer_nodes_at k ds : layer_kind k = true -> forall i j, j < length ds -> layer_at (layer_nodes i k ds) j = true.
Proof. intros K. induction ds as [|d ds IH]; intros i j L; [cbn in L; lia|]. destruct j as [|j]; [exact K|]. cbn [layer_nodes]. unfold layer_at. cbn [nth_error]. apply IH. cbn in L. lia. Qed.
Lemma layer_at_app l r j : layer_at (l ++ r) j = if j <? length l then layer_at l j else layer_at r (j - length l).
Proof. unfold layer_at. destruct (Nat.ltb_spec j (length l)); [rewrite nth_error_app1 by assumption; reflexivity|rewrite nth_error_app2 by assumption; reflexivity]. Qed.
Definition head_ok (x : block) : Prop := layer_kind (k_kind x) = false.
Lemma block_layer_at x i j : head_ok x -> j < S (depth x) -> layer_at (block_nodes i x) j = negb (Nat.eqb j 0).
Proof.
  intros H L. destruct j as [|j]; [exact H|]. unfold block_nodes. change (layer_at (layer_nodes (S i) MIDDLEWARE (k_mws x) ++ layer_nodes (S i + length (k_mws x)) PERMISSION (k_perms x)) j = true).
  rewrite layer_at_app, layer_nodes_length. unfold depth in L. destruct (Nat.ltb_spec j (length (k_mws x))); [apply layer_nodes_at; [reflexivity|assumption]|apply layer_nodes_at; [reflexivity|lia]].
Qed.
Lemma head_not_layer xs i : Forall head_ok xs -> layer_at (nodes_of i xs) 0 = false.
Proof. intros H. destruct H as [|x xs H _]; [reflexivity|]. exact H. Qed.
Lemma wrap_edges xs i : Forall head_ok xs -> forall s, filter (is_wrap i) (edges_of s xs) = if layer_at (nodes_of s xs) (S i - s) then [wedge i] else [].
Proof.
  induction 1 as [|x xs H F IH]; intros s; [cbn [edges_of nodes_of filter]; unfold layer_at; destruct (S i - s); reflexivity|].
  cbn [edges_of nodes_of]. rewrite filter_app, IH, layer_at_app, block_nodes_length. unfold block_edges. rewrite filter_app, wrap_seq.
  assert (D : filter (is_wrap i) match k_parent x with Some s0 => [{| e_source := s0; e_target := s; e_kind := DISPATCHES_TO |}] | None => [] end = []).
  { destruct (k_parent x); [|reflexivity]. cbn [filter]. unfold is_wrap. cbn [e_kind e_source]. rewrite andb_false_r. reflexivity. }
  rewrite D. cbn [app]. destruct (Nat.ltb_spec (S i - s) (S (depth x))) as [L|L].
  - rewrite block_layer_at by assumption. replace (S i - (s + S (depth x))) with 0 by lia. rewrite (head_not_layer xs _ F), app_nil_r.
    destruct (Nat.leb_spec s i), (Nat.ltb_spec i (s + depth x)), (Nat.eqb_spec (S i - s) 0); cbn [andb negb]; try reflexivity; lia.
  - replace (S i - s - S (depth x)) with (S i - (s + S (depth x))) by lia. destruct (Nat.ltb_spec i (s + depth x)); [lia|]. rewrite andb_false_r. reflexivity.
Qed.
Lemma flat_filter {A B} (q : A -> bool) (f : A -> list B) l : flat_map (fun e => if q e then f e else []) l = flat_map f (filter q l).
Proof. induction l as [|x l IH]; [reflexivity|]. cbn [flat_map filter]. rewrite IH. destruct (q x); reflexivity. Qed.
Section queries.
  Variables (g : graph) (xs : list block).
  Hypothesis N : g_nodes g = nodes_of 0 xs.
  Hypothesis E : g_edges g = edges_of 0 xs.
  Hypothesis H : Forall head_ok xs.
  Lemma node_at i : node_of g i = nth_error (g_nodes g) i.
  Proof. unfold node_of. apply (find_seq (g_nodes g) 0). rewrite N, nodes_ids, nodes_of_length. reflexivity. Qed.
  Lemma id_at i n : nth_error (g_nodes g) i = Some n -> n_id n = i.
  Proof.
    intros A. assert (M : nth_error (map n_id (g_nodes g)) i = Some (n_id n)) by (apply map_nth_error; exact A). rewrite N, nodes_ids in M.
    assert (L : i < size xs) by (rewrite <- (seq_length (size xs) 0); apply nth_error_Some; rewrite M; discriminate).
    rewrite (nth_error_nth' (seq 0 (size xs)) 0) in M by (rewrite seq_length; exact L). rewrite seq_nth in M by exact L. injection M as <-. reflexivity.
  Qed.
  Lemma wraps_at i : wraps g i = match nth_error (g_nodes g) (S i) with Some n => if layer_kind (n_kind n) then [n] else [] | None => [] end.
  Proof.
    unfold wraps. change (flat_map (fun e => if is_wrap i e then match node_of g (e_source e), node_of g (e_target e) with Some _, Some n => [n] | _, _ => [] end else []) (g_edges g) = match nth_error (g_nodes g) (S i) with Some n => if layer_kind (n_kind n) then [n] else [] | None => [] end).
    rewrite flat_filter, E, (wrap_edges xs i H 0), Nat.sub_0_r. unfold layer_at. rewrite <- N. destruct (nth_error (g_nodes g) (S i)) as [n|] eqn:A; [|reflexivity].
    destruct (layer_kind (n_kind n)); [|reflexivity]. cbn [flat_map wedge e_source e_target]. rewrite !node_at, A. destruct (nth_error (g_nodes g) i) eqn:B; [reflexivity|].
    apply nth_error_None in B. assert (S i < length (g_nodes g)) by (apply nth_error_Some; rewrite A; discriminate). lia.
  Qed.
  Fixpoint while (q : node -> bool) (l : list node) : list node := match l with [] => [] | n :: l' => if q n then n :: while q l' else [] end.
  Lemma nth_skip {A} (l : list A) : forall i, match skipn i l with [] => nth_error l i = None | x :: r => nth_error l i = Some x /\ skipn (S i) l = r end.
  Proof. induction l as [|y l IH]; intros [|i]; cbn [skipn nth_error]; try reflexivity; [split; reflexivity|]. specialize (IH i). destruct (skipn i l); [exact IH|]. destruct IH as [P Q]. split; [exact P|exact Q]. Qed.
  Lemma chain_at k : layer_kind k = true -> forall fuel i, length (skipn (S i) (g_nodes g)) < fuel ->
    chain g fuel k i = Some (while (fun n => kind_eqb (n_kind n) k) (skipn (S i) (g_nodes g))).
  Proof.
    intros K. induction fuel as [|fuel IH]; intros i L; [lia|]. cbn [chain]. rewrite wraps_at. pose proof (nth_skip (g_nodes g) (S i)) as S.
    destruct (skipn (Datatypes.S i) (g_nodes g)) as [|n r]; [rewrite S; reflexivity|]. destruct S as [A B]. rewrite A. cbn [while].
    destruct (kind_eqb (n_kind n) k) eqn:Q.
    - assert (layer_kind (n_kind n) = true) by (destruct (n_kind n), k; try discriminate; reflexivity). rewrite H0, Q, (id_at _ _ A), IH by (rewrite B; cbn [length] in L; lia). rewrite B. reflexivity.
    - destruct (layer_kind (n_kind n)); [rewrite Q|]; reflexivity.
  Qed.
  Lemma layers_at : forall fuel i, length (skipn (S i) (g_nodes g)) < fuel ->
    layers g fuel i = Some (filter (fun n => kind_eqb (n_kind n) MIDDLEWARE) (while (fun n => layer_kind (n_kind n)) (skipn (S i) (g_nodes g))),
                            filter (fun n => kind_eqb (n_kind n) PERMISSION) (while (fun n => layer_kind (n_kind n)) (skipn (S i) (g_nodes g)))).
  Proof.
    induction fuel as [|fuel IH]; intros i L; [lia|]. cbn [layers]. rewrite wraps_at. pose proof (nth_skip (g_nodes g) (S i)) as S.
    destruct (skipn (Datatypes.S i) (g_nodes g)) as [|n r]; [rewrite S; reflexivity|]. destruct S as [A B]. rewrite A. cbn [while].
    destruct (n_kind n) eqn:Q; cbn [layer_kind]; try reflexivity; rewrite Q, (id_at _ _ A), IH, B by (rewrite B; cbn [length] in L; lia);
      cbn [option_map fst snd filter]; rewrite Q; reflexivity.
  Qed.
  (** Where the block of a node is. *)
  Lemma block_of n : In n (g_nodes g) -> layer_kind (n_kind n) = false -> exists ys x zs,
    xs = ys ++ x :: zs /\ n = {| n_id := size ys; n_kind := k_kind x; n_ref := k_ref x; n_meta := k_meta x |} /\
    skipn (S (size ys)) (g_nodes g) = layer_nodes (S (size ys)) MIDDLEWARE (k_mws x) ++ layer_nodes (S (size ys) + length (k_mws x)) PERMISSION (k_perms x) ++ nodes_of (size ys + S (depth x)) zs.
  Proof.
    rewrite N. intros I K.
    assert (X : forall bs i, In n (nodes_of i bs) -> exists ys x zs, bs = ys ++ x :: zs /\ n = {| n_id := i + size ys; n_kind := k_kind x; n_ref := k_ref x; n_meta := k_meta x |}).
    { clear -K. assert (LN : forall k ds i, layer_kind k = true -> ~ In n (layer_nodes i k ds)).
      { intros k ds. induction ds as [|d ds IH]; intros i KK []; [subst n; cbn [n_kind] in K; congruence|]. exact (IH (S i) KK H). }
      induction bs as [|x bs IH]; intros i I; [destruct I|]. cbn [nodes_of] in I. apply in_app_iff in I as [[I|I]|I].
      - exists [], x, bs. split; [reflexivity|]. cbn [size]. rewrite Nat.add_0_r. symmetry. exact I.
      - exfalso. apply in_app_iff in I as [I|I]; [exact (LN MIDDLEWARE _ _ eq_refl I)|exact (LN PERMISSION _ _ eq_refl I)].
      - destruct (IH _ I) as (ys & y & zs & -> & ->). exists (x :: ys), y, zs. split; [reflexivity|]. cbn [size]. f_equal. lia. }
    destruct (X xs 0 I) as (ys & x & zs & E1 & ->). exists ys, x, zs. split; [exact E1|]. split; [reflexivity|]. rewrite E1, nodes_of_app. cbn [nodes_of Nat.add].
    rewrite skipn_app, skipn_all2 by (rewrite nodes_of_length; lia). rewrite nodes_of_length. replace (S (size ys) - size ys) with 1 by lia. unfold block_nodes. cbn [app skipn]. rewrite <- app_assoc. reflexivity.
  Qed.
  Lemma while_layers k k' i ds l : kind_eqb k k' = true -> while (fun n => kind_eqb (n_kind n) k') (layer_nodes i k ds ++ l) = layer_nodes i k ds ++ while (fun n => kind_eqb (n_kind n) k') l.
  Proof. intros Q. revert i. induction ds as [|d ds IH]; intros i; [reflexivity|]. cbn [layer_nodes app while n_kind]. rewrite Q, IH. reflexivity. Qed.
  Lemma while_stop (q : node -> bool) i zs : Forall head_ok zs -> (forall n, q n = true -> layer_kind (n_kind n) = true) -> while q (nodes_of i zs) = [].
  Proof. intros F Q. destruct F as [|x zs HX F]; [reflexivity|]. cbn [nodes_of block_nodes app while]. match goal with |- (if q ?n then _ else _) = _ => destruct (q n) eqn:QE end; [|reflexivity]. apply Q in QE. cbn [n_kind] in QE. unfold head_ok in HX. congruence. Qed.
  Lemma kind_eqb_eq a b : kind_eqb a b = true -> a = b.
  Proof. destruct a, b; cbn; intros; try discriminate; reflexivity. Qed.
  Lemma while_mws i mws perms j zs z : Forall head_ok zs ->
    while (fun n => kind_eqb (n_kind n) MIDDLEWARE) (layer_nodes i MIDDLEWARE mws ++ layer_nodes j PERMISSION perms ++ nodes_of z zs) = layer_nodes i MIDDLEWARE mws.
  Proof.
    intros F. rewrite while_layers by reflexivity. rewrite <- (app_nil_r (layer_nodes i MIDDLEWARE mws)) at 2. f_equal. destruct perms; [|reflexivity].
    apply while_stop; [exact F|]. intros n Q. apply kind_eqb_eq in Q. rewrite Q. reflexivity.
  Qed.
  Lemma while_perms i mws perms j zs z : Forall head_ok zs ->
    while (fun n => kind_eqb (n_kind n) PERMISSION) (layer_nodes i MIDDLEWARE mws ++ layer_nodes j PERMISSION perms ++ nodes_of z zs) = match mws with [] => layer_nodes j PERMISSION perms | _ => [] end.
  Proof.
    intros F. destruct mws; [|reflexivity]. cbn [layer_nodes app]. rewrite while_layers by reflexivity. rewrite <- (app_nil_r (layer_nodes j PERMISSION perms)) at 2. f_equal.
    apply while_stop; [exact F|]. intros n Q. apply kind_eqb_eq in Q. rewrite Q. reflexivity.
  Qed.
  Lemma while_all i mws perms j zs z : Forall head_ok zs ->
    while (fun n => layer_kind (n_kind n)) (layer_nodes i MIDDLEWARE mws ++ layer_nodes j PERMISSION perms ++ nodes_of z zs) = layer_nodes i MIDDLEWARE mws ++ layer_nodes j PERMISSION perms.
  Proof.
    intros F. revert i. induction mws as [|d mws IH]; intros i; [|cbn [layer_nodes app while n_kind layer_kind]; rewrite IH; reflexivity].
    cbn [layer_nodes app]. revert j. induction perms as [|d perms IH]; intros j; [|cbn [layer_nodes app while n_kind layer_kind]; rewrite IH; reflexivity].
    cbn [layer_nodes app]. apply while_stop; [exact F|]. intros n Q. exact Q.
  Qed.
End queries.
Lemma layer_classes k ds : forall i, map class_of (layer_nodes i k ds) = map resolve ds.
Proof. induction ds as [|d ds IH]; intros i; [reflexivity|]. cbn [layer_nodes map class_of n_meta]. rewrite IH. reflexivity. Qed.
Lemma named_resolve ds : map resolve ds = named ds.
Proof. apply map_ext. intros []; reflexivity. Qed.
Lemma filter_layers k k' ds : forall i, filter (fun n => kind_eqb (n_kind n) k') (layer_nodes i k ds) = if kind_eqb k k' then layer_nodes i k ds else [].
Proof. induction ds as [|d ds IH]; intros i; [destruct (kind_eqb k k'); reflexivity|]. cbn [layer_nodes filter n_kind]. rewrite IH. destruct (kind_eqb k k'); reflexivity. Qed.
