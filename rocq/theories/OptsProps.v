(** C262: hooks of a route and of its controller.  C263: its guards, handlers and dependencies.  C264: [with_init].
    C265: dependencies given to a decorator. *)
From Coq Require Import Lia.
From Verif Require Import PyStr PyStrFacts EnvProofs CookieProofs OptsModel OptsSpec.

Lemma declared_attribute {X} (f : own -> option (list X)) g bodies : f nothing = None -> f base_controller = Some [] ->
  targets g bodies -> attribute f (class_of g) = declared f bodies.
Proof.
  intros F0 F1 [E|[E ->]]; unfold class_of; rewrite E; [|reflexivity]. unfold subclass, declared. clear E.
  induction bodies as [|o bodies IH]; cbn.
  - now rewrite F0, F1.
  - destruct (f o) eqn:Fo; [now rewrite Fo | exact IH].
Qed.

Lemma length_set_at a f h : length (set_at a f h) = length h.
Proof. revert a. induction h as [|l h IH]; intros [|a]; cbn; congruence. Qed.
Lemma nth_set_at a b f h : (a < length h)%nat -> nth b (set_at a f h) [] = if Nat.eqb a b then f (nth a h []) else nth b h [].
Proof.
  revert a b. induction h as [|l h IH]; intros [|a] [|b] H; cbn in *; try lia; try easy. apply IH. lia.
Qed.

(** What a route adds to a list. *)
Definition is_at (o : option nat) (a : nat) : bool := match o with Some b => Nat.eqb b a | None => false end.
Definition added (g : given) (a : nat) : list nat :=
  (if is_at (g_before g) a then attribute d_before (class_of g) else []) ++ (if is_at (g_after g) a then attribute d_after (class_of g) else []).

Lemma extend_length h x l : length (fst (extend h x l)) = length h.
Proof. destruct x; [apply length_set_at | easy]. Qed.
Lemma extend_nth h o l a : (forall b, o = Some b -> (b < length h)%nat) ->
  nth a (fst (extend h (hooks_of o) l)) [] = nth a h [] ++ if is_at o a then l else [].
Proof.
  intros H. destruct o as [b|]; cbn; [|now rewrite app_nil_r]. rewrite nth_set_at by (now apply H). destruct (Nat.eqb_spec b a); subst; [easy|].
  now rewrite app_nil_r.
Qed.
Lemma make_lists h g : fst (make h g) =
  fst (extend (fst (extend h (hooks_of (g_before g)) (attribute d_before (class_of g)))) (hooks_of (g_after g)) (attribute d_after (class_of g))).
Proof. unfold make. destruct (extend h _ _) as [h1 b]. cbn. destruct (extend h1 _ _) as [h2 a]. reflexivity. Qed.
Lemma make_length h g : length (fst (make h g)) = length h.
Proof. rewrite make_lists. now rewrite !extend_length. Qed.
Lemma make_nth h g a : exist h g -> nth a (fst (make h g)) [] = nth a h [] ++ added g a.
Proof.
  intros E. rewrite make_lists. rewrite extend_nth.
  - rewrite extend_nth; [unfold added; now rewrite app_assoc|]. intros b B. apply E. now left.
  - intros b B. rewrite extend_length. apply E. now right.
Qed.
Lemma exist_length h h' g : length h = length h' -> exist h g -> exist h' g.
Proof. intros L E a A. rewrite <- L. now apply E. Qed.
Lemma build_length gs : forall h, length (fst (build h gs)) = length h.
Proof.
  induction gs as [|g gs IH]; intros h; cbn; [easy|]. pose proof (make_length h g) as M. destruct (make h g) as [h1 r]. cbn in M.
  specialize (IH h1). destruct (build h1 gs) as [h2 rs]. cbn in *. congruence.
Qed.
Lemma build_nth gs : forall h a, (forall g, In g gs -> exist h g) -> nth a (fst (build h gs)) [] = nth a h [] ++ flat_map (fun g => added g a) gs.
Proof.
  induction gs as [|g gs IH]; intros h a E; cbn; [now rewrite app_nil_r|].
  pose proof (make_nth h g a (E g (or_introl eq_refl))) as M. pose proof (make_length h g) as L. destruct (make h g) as [h1 r]. cbn in M, L.
  assert (E1 : forall g', In g' gs -> exist h1 g') by (intros g' I; apply (exist_length h); [easy | apply E; now right]).
  specialize (IH h1 a E1). destruct (build h1 gs) as [h2 rs]. cbn in *. rewrite IH, M. now rewrite app_assoc.
Qed.
Lemma build_app gs1 g gs2 : forall h, let h1 := fst (build h gs1) in
  nth_error (snd (build h (gs1 ++ g :: gs2))) (length gs1) = Some (snd (make h1 g)) /\
  fst (build h (gs1 ++ g :: gs2)) = fst (build (fst (make h1 g)) gs2).
Proof.
  induction gs1 as [|g1 gs1 IH]; intros h; cbn zeta; cbn [app build length].
  - cbn [fst]. destruct (make h g) as [h1 r]. cbn [fst snd]. now destruct (build h1 gs2).
  - destruct (make h g1) as [h1 r1]. specialize (IH h1). cbn zeta in IH. destruct (build h1 gs1) as [h2 rs2]. cbn [fst] in *.
    destruct (build h1 (gs1 ++ g :: gs2)) as [h3 rs3]. cbn [fst snd nth_error] in *. exact IH.
Qed.

(** Hooks as they stand when the routes have been made. *)
Lemma named_added g bodies a : targets g bodies -> added g a <> [] -> adds_to g bodies a.
Proof.
  intros T. unfold added, adds_to. rewrite (declared_attribute d_before g bodies), (declared_attribute d_after g bodies) by easy.
  unfold is_at. destruct (g_before g) as [b|] eqn:B; destruct (g_after g) as [c|] eqn:C; cbn;
    repeat match goal with |- context [Nat.eqb ?x a] => destruct (Nat.eqb_spec x a); subst end; cbn; try easy;
    destruct (declared d_before bodies) eqn:D1; destruct (declared d_after bodies) eqn:D2; cbn; intros; try easy; try (left; now split); right; now split.
Qed.
Lemma adds_named g bodies a : adds_to g bodies a -> (1 <= count_occ Nat.eq_dec (named g) a)%nat.
Proof. intros H. apply (count_occ_In Nat.eq_dec). unfold named. apply in_or_app. destruct H as [[-> _]|[-> _]]; cbn; auto. Qed.

Section Unshared.
  Variables (h : lists) (gs1 gs2 : list given) (g : given) (bodies : list own).
  Let gs := gs1 ++ g :: gs2.
  Hypothesis Ex : forall g', In g' gs -> exist h g'.
  Hypothesis Cl : forall g', In g' gs -> exists b, targets g' b.
  Hypothesis Un : unshared gs.
  Hypothesis Tg : targets g bodies.

  Lemma count_split a : count_occ Nat.eq_dec (flat_map named gs) a =
    (count_occ Nat.eq_dec (flat_map named gs1) a + count_occ Nat.eq_dec (named g) a + count_occ Nat.eq_dec (flat_map named gs2) a)%nat.
  Proof. unfold gs. rewrite flat_map_app. cbn. rewrite !count_occ_app. lia. Qed.
  Lemma others_add_nothing gs' a : (forall x, In x gs' -> In x gs) -> (1 <= count_occ Nat.eq_dec (named g) a)%nat ->
    (count_occ Nat.eq_dec (flat_map named gs') a + count_occ Nat.eq_dec (named g) a <= count_occ Nat.eq_dec (flat_map named gs) a)%nat ->
    flat_map (fun g' => added g' a) gs' = [].
  Proof.
    intros Sub N1 Cnt. assert (All : forall g', In g' gs' -> added g' a = []).
    { intros g' I. destruct (added g' a) eqn:A; [easy|]. destruct (Cl g' (Sub g' I)) as [b T].
      assert (Ad : adds_to g' b a) by (apply named_added; [exact T | congruence]).
      pose proof (Un g' b a (Sub g' I) T Ad). pose proof (adds_named _ _ _ Ad) as Na. apply (count_occ_In Nat.eq_dec) in Na.
      assert (In a (flat_map named gs')) as K by (apply in_flat_map; eauto). apply (count_occ_In Nat.eq_dec) in K. lia. }
    clear - All. induction gs' as [|x gs' IH]; [easy|]. cbn. rewrite (All x (or_introl eq_refl)), IH; [easy|]. intros y I. apply All. now right.
  Qed.

  Let h1 := fst (build h gs1).
  Let r := snd (make h1 g).
  Lemma lists_at a : (1 <= count_occ Nat.eq_dec (named g) a)%nat ->
    nth a h1 [] = nth a h [] /\ nth a (fst (make h1 g)) [] = nth a h [] ++ added g a /\ nth a (fst (build h gs)) [] = nth a h [] ++ added g a.
  Proof.
    intros N1. pose proof (count_split a) as Cs.
    assert (Z1 : flat_map (fun g' => added g' a) gs1 = []).
    { apply others_add_nothing; [|exact N1 | lia]. intros x I. apply in_or_app. now left. }
    assert (Z2 : flat_map (fun g' => added g' a) gs2 = []).
    { apply others_add_nothing; [|exact N1 | lia]. intros x I. apply in_or_app. right. now right. }
    assert (H1 : nth a h1 [] = nth a h []).
    { unfold h1. rewrite build_nth; [now rewrite Z1, app_nil_r|]. intros g' I. apply Ex. apply in_or_app. now left. }
    refine (conj H1 (conj _ _)).
    - rewrite make_nth; [now rewrite H1|]. apply (exist_length h); [unfold h1; now rewrite build_length|]. apply Ex. apply in_or_app. right. now left.
    - rewrite build_nth by exact Ex. unfold gs. rewrite flat_map_app. cbn. now rewrite Z1, Z2, app_nil_r.
  Qed.
  (** The hooks that the class adds to a list do not meet those of the other parameter. *)
  Lemma added_before a : g_before g = Some a -> added g a = declared d_before bodies.
  Proof.
    intros B. unfold added. rewrite (declared_attribute d_before g bodies), (declared_attribute d_after g bodies) by easy.
    rewrite B. cbn. rewrite Nat.eqb_refl. destruct (g_after g) as [c|] eqn:A; cbn; [|now rewrite app_nil_r].
    destruct (Nat.eqb_spec c a) as [-> |]; [|now rewrite app_nil_r].
    destruct (declared d_after bodies) eqn:D; [now rewrite app_nil_r|].
    exfalso. assert (Ad : adds_to g bodies a) by (right; split; [exact A | congruence]).
    assert (I : In g gs) by (apply in_or_app; right; now left). pose proof (Un g bodies a I Tg Ad). pose proof (count_split a).
    assert (count_occ Nat.eq_dec (named g) a = 2)%nat; [|lia]. unfold named. rewrite B, A. cbn. destruct (Nat.eq_dec a a); congruence.
  Qed.
  Lemma added_after a : g_after g = Some a -> added g a = declared d_after bodies.
  Proof.
    intros A. unfold added. rewrite (declared_attribute d_before g bodies), (declared_attribute d_after g bodies) by easy.
    rewrite A. cbn. rewrite Nat.eqb_refl. destruct (g_before g) as [c|] eqn:B; cbn; [|easy].
    destruct (Nat.eqb_spec c a) as [-> |]; [|easy]. destruct (declared d_before bodies) eqn:D; [easy|].
    exfalso. assert (Ad : adds_to g bodies a) by (left; split; [exact B | congruence]).
    assert (I : In g gs) by (apply in_or_app; right; now left). pose proof (Un g bodies a I Tg Ad). pose proof (count_split a).
    assert (count_occ Nat.eq_dec (named g) a = 2)%nat; [|lia]. unfold named. rewrite B, A. cbn. destruct (Nat.eq_dec a a); congruence.
  Qed.

  Lemma named_before a : g_before g = Some a -> (1 <= count_occ Nat.eq_dec (named g) a)%nat.
  Proof. intros B. apply (count_occ_In Nat.eq_dec). unfold named. rewrite B. now left. Qed.
  Lemma named_after a : g_after g = Some a -> (1 <= count_occ Nat.eq_dec (named g) a)%nat.
  Proof. intros A. apply (count_occ_In Nat.eq_dec). unfold named. rewrite A. apply in_or_app. right. now left. Qed.

  Lemma runs_content (x : hooks) (flag looks : bool) (h2 h3 : lists) : flag = negb (is_empty (content h2 x)) -> content h2 x = content h3 x ->
    (if looks || flag then content h3 x else []) = content h3 x.
  Proof. intros -> E. rewrite <- E. destruct (content h2 x); cbn; destruct looks; reflexivity. Qed.

  Lemma r_fields : r_before r = snd (extend h1 (hooks_of (g_before g)) (attribute d_before (class_of g))) /\
    r_after r = snd (extend (fst (extend h1 (hooks_of (g_before g)) (attribute d_before (class_of g)))) (hooks_of (g_after g)) (attribute d_after (class_of g))) /\
    r_has_before r = negb (is_empty (content (fst (make h1 g)) (r_before r))) /\ r_has_after r = negb (is_empty (content (fst (make h1 g)) (r_after r))).
  Proof.
    unfold r, make. destruct (extend h1 _ _) as [h2 b]. cbn [fst]. destruct (extend h2 _ _) as [h3 a]. cbn. easy.
  Qed.
  Lemma hooks_right : runs_before (fst (build h gs)) r = given_list h (g_before g) ++ declared d_before bodies /\
    runs_after (fst (build h gs)) r = given_list h (g_after g) ++ declared d_after bodies.
  Proof.
    destruct r_fields as [Fb [Fa [Hb Ha]]]. unfold runs_before, runs_after. split.
    - rewrite (runs_content (r_before r) (r_has_before r) (r_looks r) (fst (make h1 g)) _ Hb).
      + rewrite Fb. destruct (g_before g) as [a|] eqn:B; cbn [hooks_of extend snd content given_list].
        * destruct (lists_at a (named_before a B)) as [_ [_ ->]]. now rewrite (added_before a B).
        * now rewrite (declared_attribute d_before g bodies).
      + rewrite Fb. destruct (g_before g) as [a|] eqn:B; cbn [hooks_of extend snd content]; [|easy].
        destruct (lists_at a (named_before a B)) as [_ [-> ->]]. easy.
    - rewrite (runs_content (r_after r) (r_has_after r) (r_looks r) (fst (make h1 g)) _ Ha).
      + rewrite Fa. destruct (g_after g) as [a|] eqn:A; cbn [hooks_of extend snd content given_list].
        * destruct (lists_at a (named_after a A)) as [_ [_ ->]]. now rewrite (added_after a A).
        * now rewrite (declared_attribute d_after g bodies).
      + rewrite Fa. destruct (g_after g) as [a|] eqn:A; cbn [hooks_of extend snd content]; [|easy].
        destruct (lists_at a (named_after a A)) as [_ [-> ->]]. easy.
  Qed.
End Unshared.

(** C262: every route runs the hooks it was given and then those of its class, whatever other routes there are. *)
Definition C262_claim (gs : list given) : Prop :=
  forall h i g bodies, (forall g', In g' gs -> exist h g') -> (forall g', In g' gs -> exists b, targets g' b) ->
    nth_error gs i = Some g -> targets g bodies ->
    exists r, nth_error (snd (build h gs)) i = Some r /\
      runs_before (fst (build h gs)) r = given_list h (g_before g) ++ declared d_before bodies /\
      runs_after (fst (build h gs)) r = given_list h (g_after g) ++ declared d_after bodies.
Definition C262_statement : Prop := forall gs, C262_claim gs.
Theorem C262_hooks_partial : forall gs, unshared gs -> C262_claim gs.
Proof.
  intros gs Un h i g bodies Ex Cl I T. apply nth_error_split in I. destruct I as [gs1 [gs2 [E L]]]. subst gs i.
  destruct (build_app gs1 g gs2 h) as [B1 _]. eexists. split; [exact B1|]. now apply hooks_right.
Qed.

(** C263: the guards from the outside to the inside, and the tables of a route. *)
Theorem C263_order : forall h gs i g bodies, nth_error gs i = Some g -> targets g bodies ->
  exists r b a, nth_error (snd (build h gs)) i = Some r /\
    request (fst (build h gs)) r =
      map Before b ++ map Middleware (g_middleware g ++ declared d_middleware bodies) ++ map Permission (g_permissions g ++ declared d_permissions bodies)
        ++ [Endpoint (g_endpoint g)] ++ map After a.
Proof.
  intros h gs i g bodies I T. apply nth_error_split in I. destruct I as [gs1 [gs2 [E L]]]. subst gs i.
  destruct (build_app gs1 g gs2 h) as [B1 _]. set (h' := fst (build h (gs1 ++ g :: gs2))). set (r := snd (make (fst (build h gs1)) g)) in *.
  exists r, (runs_before h' r), (runs_after h' r). split; [exact B1|]. unfold request.
  assert (W : forall k l inner, wrap k l inner = map k l ++ inner) by (intros k l inner; induction l as [|x l IH]; cbn; [easy | now f_equal]).
  rewrite !W.
  assert (R : r_middleware r = g_middleware g ++ declared d_middleware bodies /\ r_permissions r = g_permissions g ++ declared d_permissions bodies /\ r_endpoint r = g_endpoint g).
  { unfold r, make. destruct (extend _ _ _) as [h2 b]. destruct (extend h2 _ _) as [h3 a]. cbn. now rewrite !(declared_attribute _ g bodies). }
  destruct R as [-> [-> ->]]. now rewrite <- !app_assoc.
Qed.
Theorem C263_tables : forall h gs i g bodies k, nth_error gs i = Some g -> targets g bodies ->
  NoDup (dkeys (declared d_handlers bodies)) -> NoDup (dkeys (declared d_dependencies bodies)) ->
  exists r, nth_error (snd (build h gs)) i = Some r /\
    dget k (r_handlers r) = match dget k (declared d_handlers bodies) with Some x => Some x | None => dget k (g_handlers g) end /\
    dget k (r_dependencies r) = match dget k (declared d_dependencies bodies) with Some x => Some x | None => dget k (g_dependencies g) end.
Proof.
  intros h gs i g bodies k I T N1 N2. apply nth_error_split in I. destruct I as [gs1 [gs2 [E L]]]. subst gs i.
  destruct (build_app gs1 g gs2 h) as [B1 _]. eexists. split; [exact B1|].
  unfold make. destruct (extend _ _ _) as [h2 b]. destruct (extend h2 _ _) as [h3 a]. cbn. rewrite !(declared_attribute _ g bodies) by easy.
  rewrite !dget_dupdate, !dget_rev by assumption. easy.
Qed.

(** Two routes for classes with hooks of their own, given the same list; a function that shares it; and one route made twice,
    as by a factory of applications that is called twice. *)
Definition ex_body (b : list nat) (p : list nat) : own :=
  {| d_permissions := Some p; d_middleware := None; d_handlers := None; d_dependencies := None; d_before := Some b; d_after := None |}.
Definition ex_given (b : option nat) (c : option class) : given :=
  {| g_permissions := []; g_middleware := []; g_handlers := []; g_dependencies := []; g_before := b; g_after := None; g_controller := c; g_endpoint := 0; g_socket := false |}.
Lemma ex_exist l g : g_after g = None -> match g_before g with Some a => (a < length l)%nat | None => True end -> exist l g.
Proof. intros A B a [E|E]; [now rewrite E in B | congruence]. Qed.
Theorem C262_refuted : exists g1 g2 r1 r2, targets g1 [ex_body [10%nat] []] /\ targets g2 [] /\
  snd (build [[1%nat]] [g1; g2]) = [r1; r2] /\ runs_before (fst (build [[1%nat]] [g1; g2])) r2 = [1%nat; 10%nat] /\ given_list [[1%nat]] (g_before g2) = [1%nat] /\ ~ C262_statement.
Proof.
  exists (ex_given (Some 0%nat) (Some (subclass [ex_body [10%nat] []]))), (ex_given (Some 0%nat) None). do 2 eexists.
  refine (conj (or_introl eq_refl) (conj (or_intror (conj eq_refl eq_refl)) (conj eq_refl (conj eq_refl (conj eq_refl _))))).
  intros St. specialize (St [ex_given (Some 0%nat) (Some (subclass [ex_body [10%nat] []])); ex_given (Some 0%nat) None] [[1%nat]] 1%nat (ex_given (Some 0%nat) None) []).
  destruct St as [r [R [Hb _]]].
  - intros g [<- |[<- |[]]]; apply ex_exist; cbn; auto.
  - intros g [<- |[<- |[]]]; [exists [ex_body [10%nat] []]; now left | exists []; now right].
  - reflexivity.
  - now right.
  - cbn in R. inversion R; subst r. discriminate Hb.
Qed.
Theorem C262_twice_refuted : exists g r, targets g [ex_body [10%nat] []] /\ nth_error (snd (build [[1%nat]] [g; g])) 1 = Some r /\
  runs_before (fst (build [[1%nat]] [g; g])) r = [1%nat; 10%nat; 10%nat].
Proof. exists (ex_given (Some 0%nat) (Some (subclass [ex_body [10%nat] []]))). eexists. refine (conj (or_introl eq_refl) (conj eq_refl eq_refl)). Qed.

(** C264: a controller with arguments is a controller with the same options. *)
Definition C264_statement : Prop := forall bodies,
  attribute d_permissions (with_init (subclass bodies)) = declared d_permissions bodies /\
  attribute d_middleware (with_init (subclass bodies)) = declared d_middleware bodies /\
  attribute d_handlers (with_init (subclass bodies)) = declared d_handlers bodies /\
  attribute d_dependencies (with_init (subclass bodies)) = declared d_dependencies bodies /\
  attribute d_before (with_init (subclass bodies)) = declared d_before bodies /\
  attribute d_after (with_init (subclass bodies)) = declared d_after bodies.
(** What the route of such a class runs, whatever the class declares: nothing but what the path was given. *)
Theorem C264_lost : forall h gs i g bodies, nth_error gs i = Some g -> g_controller g = Some (with_init (subclass bodies)) ->
  exists r b a, nth_error (snd (build h gs)) i = Some r /\
    request (fst (build h gs)) r = map Before b ++ map Middleware (g_middleware g) ++ map Permission (g_permissions g) ++ [Endpoint (g_endpoint g)] ++ map After a.
Proof.
  intros h gs i g bodies I C. destruct (C263_order h gs i g [nothing] I (or_introl C)) as [r [b [a [R E]]]].
  exists r, b, a. split; [exact R|]. rewrite E. cbn [declared List.find nothing d_middleware d_permissions]. now rewrite !app_nil_r.
Qed.
Theorem C264_plain_partial : forall bodies,
  (forall o, In o bodies -> d_permissions o = None /\ d_middleware o = None /\ d_handlers o = None /\ d_dependencies o = None /\ d_before o = None /\ d_after o = None) ->
  attribute d_permissions (with_init (subclass bodies)) = declared d_permissions bodies /\
  attribute d_middleware (with_init (subclass bodies)) = declared d_middleware bodies /\
  attribute d_handlers (with_init (subclass bodies)) = declared d_handlers bodies /\
  attribute d_dependencies (with_init (subclass bodies)) = declared d_dependencies bodies /\
  attribute d_before (with_init (subclass bodies)) = declared d_before bodies /\
  attribute d_after (with_init (subclass bodies)) = declared d_after bodies.
Proof.
  intros bodies H.
  assert (D : forall X (f : own -> option (list X)), (forall o, In o bodies -> f o = None) -> declared f bodies = []).
  { intros X f N0. unfold declared. induction bodies as [|o l IH]; [easy|]. cbn. rewrite (N0 o (or_introl eq_refl)). apply IH; intros o' I; [apply H | apply N0]; now right. }
  rewrite !D; [repeat split; reflexivity | | | | | |]; intros o I; apply (H o I).
Qed.
Theorem C264_refuted : declared d_permissions [ex_body [] [7%nat]] = [7%nat] /\ attribute d_permissions (with_init (subclass [ex_body [] [7%nat]])) = [] /\ ~ C264_statement.
Proof. refine (conj eq_refl (conj eq_refl _)). intros H. destruct (H [ex_body [] [7%nat]]) as [E _]. discriminate E. Qed.

(** C265: what a handler gets from the dependencies of its decorator. *)
Definition what (d : dependency) : nat := match d with Provide n | Callable n | Value n => n end.
Definition C265_claim (cs : list decoration) : Prop := forall i c r name d,
  nth_error cs i = Some c -> nth_error (snd (decorate_all [] cs)) i = Some r ->
  dget name (c_dependencies c) = Some d -> inject (fst (decorate_all [] cs)) r name = Resolved (what d).
Definition C265_statement : Prop := forall cs, (forall c, In c cs -> NoDup (dkeys (c_dependencies c))) -> C265_claim cs.

Lemma decorate_routes cs : forall s i c, nth_error cs i = Some c ->
  nth_error (snd (decorate_all s cs)) i = Some (c_function c, map (fun p => (fst p, wrap_dependency (snd p))) (c_dependencies c)).
Proof.
  induction cs as [|c0 cs IH]; intros s [|i] c H; cbn in *; try discriminate.
  - destruct (decorate_all _ cs). cbn. inversion H. reflexivity.
  - specialize (IH ((c_function c0, c_dependencies c0) :: s) i c H). destruct (decorate_all _ cs). exact IH.
Qed.
Lemma decorate_attr cs : forall s f, attribute_of f (fst (decorate_all s cs)) =
  match List.find (fun c => Nat.eqb f (c_function c)) (rev cs) with Some c => c_dependencies c | None => attribute_of f s end.
Proof.
  induction cs as [|c cs IH]; intros s f; cbn; [easy|].
  specialize (IH ((c_function c, c_dependencies c) :: s) f). destruct (decorate_all _ cs) as [s' rs]. cbn in *. rewrite IH.
  assert (F : forall (l : list decoration) p x, List.find p (l ++ [x]) = match List.find p l with Some y => Some y | None => if p x then Some x else None end).
  { intros l p x. induction l as [|y l IHl]; cbn; [easy|]. now destruct (p y). }
  rewrite F. destruct (List.find _ (rev cs)); [easy|]. now destruct (Nat.eqb f (c_function c)).
Qed.
Lemma dget_map_wrap n (d : dict dependency) : dget n (map (fun p => (fst p, wrap_dependency (snd p))) d) = option_map wrap_dependency (dget n d).
Proof. induction d as [|[k v] d IH]; cbn; [easy|]. now destruct (seqb n k). Qed.

(** The last decoration of the function decides; the own one counts for the names that it does not have. *)
Theorem C265_last : forall cs i c last r name, (forall c, In c cs -> NoDup (dkeys (c_dependencies c))) ->
  nth_error cs i = Some c -> nth_error (snd (decorate_all [] cs)) i = Some r ->
  List.find (fun c' => Nat.eqb (c_function c) (c_function c')) (rev cs) = Some last ->
  inject (fst (decorate_all [] cs)) r name =
    match dget name (c_dependencies last) with
    | Some (Provide n) => Resolved n
    | Some _ => AttributeError
    | None => match dget name (c_dependencies c) with Some d => Resolved (what d) | None => Missing end
    end.
Proof.
  intros cs i c last r name ND C R F. rewrite (decorate_routes cs [] i c C) in R. inversion R; subst r. unfold inject. cbn [fst snd].
  rewrite decorate_attr, F. rewrite dget_dupdate, dget_rev.
  - destruct (dget name (c_dependencies last)) as [[]|]; try easy. rewrite dget_map_wrap. now destruct (dget name (c_dependencies c)) as [[]|].
  - apply ND. apply List.find_some in F. apply in_rev. apply F.
Qed.
Theorem C265_single_partial : forall cs, (forall c, In c cs -> NoDup (dkeys (c_dependencies c))) ->
  NoDup (map c_function cs) -> (forall c p, In c cs -> In p (c_dependencies c) -> exists n, snd p = Provide n) -> C265_claim cs.
Proof.
  intros cs ND Fn Pr i c r name d C R D.
  assert (Ic : In c cs) by (eapply nth_error_In; exact C).
  assert (F : List.find (fun c' => Nat.eqb (c_function c) (c_function c')) (rev cs) = Some c).
  { destruct (List.find _ (rev cs)) as [c'|] eqn:F.
    - apply List.find_some in F. destruct F as [I E]. apply Nat.eqb_eq in E. apply in_rev in I. f_equal. clear - Fn E I Ic.
      induction cs as [|x cs IH]; [easy|]. cbn in Fn. inversion Fn as [|? ? N1 N2]; subst. destruct I as [-> |I], Ic as [-> |Ic]; try easy.
      + exfalso. apply N1. rewrite <- E. now apply in_map.
      + exfalso. apply N1. rewrite E. now apply in_map.
      + now apply IH.
    - exfalso. pose proof (List.find_none _ _ F c). cbn in H. rewrite Nat.eqb_refl in H. discriminate H. now apply -> in_rev. }
  rewrite (C265_last cs i c c r name ND C R F), D.
  assert (In (name, d) (c_dependencies c)) as I.
  { clear - D. induction (c_dependencies c) as [|[k v] l IH]; cbn in *; [easy|]. destruct (seqb_spec name k) as [-> |]; [left; congruence | right; now apply IH]. }
  destruct (Pr c _ Ic I) as [n E]. cbn in E. now subst d.
Qed.
(** A plain callable, which a path takes, fails; and the second decoration of a function replaces the first one's. *)
Theorem C265_callable_refuted : inject (fst (decorate_all [] [{| c_function := 0; c_dependencies := [(u "db", Callable 1)] |}])) (0%nat, [(u "db", Provide 1)]) (u "db") = AttributeError
  /\ inject [] (0%nat, [(u "db", Provide 1)]) (u "db") = Resolved 1 /\ ~ C265_statement.
Proof.
  refine (conj eq_refl (conj eq_refl _)). intros H.
  specialize (H [{| c_function := 0; c_dependencies := [(u "db", Callable 1)] |}] ltac:(intros c [<- |[]]; repeat constructor; easy) 0%nat _ _ (u "db") (Callable 1) eq_refl eq_refl eq_refl). discriminate H.
Qed.
Theorem C265_shared_refuted : exists c1 c2 r, c_function c1 = c_function c2 /\ dget (u "db") (c_dependencies c1) = Some (Provide 1) /\
  nth_error (snd (decorate_all [] [c1; c2])) 0 = Some r /\ inject (fst (decorate_all [] [c1; c2])) r (u "db") = Resolved 2.
Proof.
  exists {| c_function := 0; c_dependencies := [(u "db", Provide 1)] |}, {| c_function := 0; c_dependencies := [(u "db", Provide 2)] |}. eexists.
  refine (conj eq_refl (conj eq_refl (conj eq_refl eq_refl))).
Qed.

Print Assumptions C262_hooks_partial.
Print Assumptions C262_refuted.
Print Assumptions C262_twice_refuted.
Print Assumptions C263_order.
Print Assumptions C263_tables.
Print Assumptions C264_lost.
Print Assumptions C264_plain_partial.
Print Assumptions C264_refuted.
Print Assumptions C265_last.
Print Assumptions C265_single_partial.
Print Assumptions C265_callable_refuted.
Print Assumptions C265_shared_refuted.

(** Two functions that share a list, and a class with a list of its own. *)
Definition ex_routes : list given := [ex_given (Some 0%nat) None; ex_given (Some 0%nat) None; ex_given (Some 1%nat) (Some (subclass [nothing; ex_body [10%nat] [7%nat]]))].
Example C262_case : unshared ex_routes /\ map (runs_before (fst (build [[1%nat]; [2%nat]] ex_routes))) (snd (build [[1%nat]; [2%nat]] ex_routes)) = [[1%nat]; [1%nat]; [2%nat; 10%nat]].
Proof.
  split; [|reflexivity]. intros g bodies a [<- |[<- |[<- |[]]]] T Ad; cbn in *.
  - destruct T as [T|[_ ->]]; [discriminate T|]. destruct Ad as [[_ K]|[K _]]; [now cbn in K | discriminate K].
  - destruct T as [T|[_ ->]]; [discriminate T|]. destruct Ad as [[_ K]|[K _]]; [now cbn in K | discriminate K].
  - destruct Ad as [[E _]|[E _]]; [|discriminate E]. inversion E. cbn. lia.
Qed.
Example C263_case : map (request (fst (build [[1%nat]; [2%nat]] ex_routes))) (snd (build [[1%nat]; [2%nat]] ex_routes)) =
  [[Before 1; Endpoint 0]; [Before 1; Endpoint 0]; [Before 2; Before 10; Permission 7; Endpoint 0]].
Proof. reflexivity. Qed.
Example C264_case : request (fst (build [] [ex_given None (Some (with_init (subclass [ex_body [10%nat] [7%nat]])))]))
  (snd (make [] (ex_given None (Some (with_init (subclass [ex_body [10%nat] [7%nat]])))))) = [Endpoint 0].
Proof. reflexivity. Qed.
Example C265_case : C265_claim [{| c_function := 0; c_dependencies := [(u "db", Provide 1)] |}; {| c_function := 1; c_dependencies := [(u "db", Provide 2)] |}].
Proof.
  apply C265_single_partial.
  - intros c [<- |[<- |[]]]; repeat constructor; easy.
  - repeat constructor; cbn; lia || (intros [E|[]]; discriminate E) || easy.
  - intros c p [<- |[<- |[]]] [<- |[]]; cbn; eauto.
Qed.
