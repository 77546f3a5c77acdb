(** C286-C291: the listing of directives, custom commands, [reverse], and scheduled tasks. *)
From Coq Require Import Sorted Permutation.
From Verif Require Import PyStr PyStrFacts PathModel CliModel DirsModel DirsSpec.

(** ** C286 *)
Definition right_listing (natives : list str) (customs : list (str * str)) : list (str * str) :=
  map (fun n => (u "lilya", n)) natives ++ map (fun d => (u "application", fst d)) customs.
Definition C286_statement : Prop := forall natives customs, Forall plain_name natives -> Forall (fun d => plain_name (fst d)) customs ->
  Permutation (snd (listing (map native natives) customs)) (right_listing natives customs).
Lemma item_native n : plain_name n -> concat (map item (native n)) = [(u "lilya", n)].
Proof.
  intros (_ & _ & L & _). unfold native. cbn [dset]. assert (seqb (u "location") n = false) as E.
  { destruct (seqb (u "location") n) eqn:E; [|reflexivity]. apply seqb_eq in E. congruence. }
  rewrite E. cbn [map concat]. unfold item at 1. cbn [fst snd]. assert (seqb n (u "location") = false) as ->; [|reflexivity].
  destruct (seqb n (u "location")) eqn:F; [|reflexivity]. apply seqb_eq in F. congruence.
Qed.
Lemma neq_seqb a b : a <> b -> seqb a b = false.
Proof. intros H. destruct (seqb a b) eqn:E; [|reflexivity]. apply seqb_eq in E. contradiction. Qed.
Lemma after_dot_id s : ~ In 46%N s -> after_dot s = s.
Proof. intros H. unfold after_dot. now rewrite (split_char_free 46 s H). Qed.
Lemma item_custom d : plain_name (fst d) -> concat (map item (custom d)) = [(u "application", fst d); (fst d, u "name")].
Proof.
  destruct d as [n l]. cbn [fst]. intros (D & NN & NL & NC). unfold custom. cbn [dset fst snd].
  rewrite (neq_seqb (u "location") n) by congruence. cbn [dset]. rewrite (neq_seqb (u "name") n) by congruence.
  change (seqb (u "name") (u "location")) with false. cbv iota. cbn [map concat]. unfold item at 1. cbn [fst snd]. rewrite (neq_seqb n (u "location")) by assumption.
  assert (item (u "location", Some l) = []) as -> by reflexivity.
  assert (item (u "name", Some n) = [(n, u "name")]) as ->; [|reflexivity].
  unfold item. cbn [fst snd]. rewrite (neq_seqb n (u "lilya.core")) by assumption. now rewrite after_dot_id by assumption.
Qed.
(** Every directive is shown once in its section; and for every custom directive there is besides a section of its own name, with
    the item "name" in it. *)
Theorem C286_partial natives customs : Forall plain_name natives -> Forall (fun d => plain_name (fst d)) customs ->
  snd (listing (map native natives) customs) =
  map (fun n => (u "lilya", n)) natives ++ concat (map (fun d => [(u "application", fst d); (fst d, u "name")]) customs).
Proof.
  intros Fn Fc. unfold listing, entries. cbn [snd]. rewrite !map_app, concat_app, !map_map. f_equal.
  - induction Fn as [|n ns H Fn IH]; [reflexivity|]. cbn [map concat]. now rewrite (item_native n H), IH.
  - induction Fc as [|d ds H Fc IH]; [reflexivity|]. cbn [map concat]. now rewrite (item_custom d H), IH.
Qed.
Print Assumptions C286_partial.
Lemma plain_by n : (cmem 46 n || smem n [u "name"; u "location"; u "lilya.core"])%bool = false -> plain_name n.
Proof.
  intros H. apply orb_false_iff in H as [H1 H2]. split; [now apply cmem_not_In|].
  assert (~ In n [u "name"; u "location"; u "lilya.core"]) as N by (intros I; apply smem_In in I; congruence).
  split; [|split]; intros ->; apply N; cbn; tauto.
Qed.
Theorem C286_refuted : ~ C286_statement.
Proof.
  intros H. specialize (H [u "runserver"] [(u "createsuperuser", u "/app/operations")]).
  assert (Forall plain_name [u "runserver"]) as F1 by (constructor; [now apply plain_by|constructor]).
  assert (Forall (fun d => plain_name (fst d)) [(u "createsuperuser", u "/app/operations")]) as F2 by (constructor; [now apply plain_by|constructor]).
  pose proof (Permutation_length (H F1 F2)) as L. vm_compute in L. discriminate.
Qed.
Print Assumptions C286_refuted.
Example C286_case : snd (listing (map native [u "runserver"; u "show_urls"]) [(u "seed", u "/app/operations")]) =
  [(u "lilya", u "runserver"); (u "lilya", u "show_urls"); (u "application", u "seed"); (u "seed", u "name")] /\ plain_name (u "seed").
Proof. split; [vm_compute; reflexivity|now apply plain_by]. Qed.

(** ** C287 *)
(** Listing twice shows the same twice. *)
Definition C287_statement : Prop := forall natives customs,
  let once := listing (map native natives) customs in snd (listing (fst once) customs) = snd once.
Theorem C287_refuted : ~ C287_statement.
Proof. intros H. specialize (H [] [(u "seed", u "/app/operations")]). vm_compute in H. discriminate. Qed.
Print Assumptions C287_refuted.
(** What a custom directive shows grows by one copy with every listing; what comes with the framework does not. *)
Fixpoint listed (k : nat) (cache : list (dict (option str))) (customs : list (str * str)) : list (str * str) :=
  match k with
  | O => snd (listing cache customs)
  | S k' => listed k' (fst (listing cache customs)) customs
  end.
Theorem C287_partial k : forall cache customs,
  listed k cache customs = entries cache ++ concat (repeat (entries (map custom customs)) (S k)).
Proof.
  induction k as [|k IH]; intros cache customs; cbn [listed].
  - unfold listing, entries. cbn [snd repeat concat]. now rewrite map_app, concat_app, app_nil_r.
  - rewrite IH. unfold listing at 1. cbn [fst]. unfold entries at 1. rewrite map_app, concat_app, <- app_assoc. reflexivity.
Qed.
Print Assumptions C287_partial.
Example C287_case : listed 1 (map native [u "runserver"]) [(u "seed", u "/a")] =
  [(u "lilya", u "runserver"); (u "application", u "seed"); (u "seed", u "name"); (u "application", u "seed"); (u "seed", u "name")].
Proof. vm_compute. reflexivity. Qed.

(** ** C288 *)
(** The command of a name: the last one found that is to be displayed. *)
Definition offered (file : str * str -> loaded) (found : list (str * str)) (n : str) (id : nat) : Prop :=
  exists pre l post, found = pre ++ (n, l) :: post /\ file (n, l) = Command id true /\
    forall l', In (n, l') post -> forall i, file (n, l') <> Command i true.
Definition C288_statement : Prop := forall file found, exists cmds, to_cli file found [] = Some cmds /\
  forall n id, dget n cmds = Some id <-> offered file found n id.
Theorem C288_refuted : ~ C288_statement.
Proof.
  intros H. destruct (H (fun _ => Kills) [(u "seed", u "/a")]) as (cmds & E & _). discriminate.
Qed.
Print Assumptions C288_refuted.
(** One file that raises a TypeError or exits costs all commands, wherever it is and whatever the others are. *)
Theorem C288_kills_refuted file pre d post acc : file d = Kills -> to_cli file (pre ++ d :: post) acc = None.
Proof.
  intros K. revert acc. induction pre as [|x pre IH]; intros acc; cbn [app to_cli]; [now rewrite K|].
  destruct (file x) as [id []| | |]; auto.
Qed.
Print Assumptions C288_kills_refuted.
Lemma to_cli_get file found n id : (forall d, In d found -> file d <> Kills) -> forall acc, exists cmds, to_cli file found acc = Some cmds /\
  (dget n cmds = Some id <-> offered file found n id \/ (forall l i, In (n, l) found -> file (n, l) <> Command i true) /\ dget n acc = Some id).
Proof.
  induction found as [|[m l] found IH]; intros K acc.
  - exists acc. split; [reflexivity|]. split; [intros G; right; split; [intros ? ? []|exact G]|]. intros [(pre & l & post & E & _)|[_ G]]; [now destruct pre|exact G].
  - assert (forall acc', (forall l' i, In (n, l') [(m, l)] -> file (n, l') <> Command i true) -> dget n acc' = dget n acc ->
      exists cmds, to_cli file found acc' = Some cmds /\
      (dget n cmds = Some id <-> offered file ((m, l) :: found) n id \/ (forall l' i, In (n, l') ((m, l) :: found) -> file (n, l') <> Command i true) /\ dget n acc = Some id)) as Skip.
    { intros acc' N Ea. destruct (IH ltac:(intros d I; apply K; now right) acc') as (cmds & E & G). exists cmds. split; [exact E|]. rewrite G, Ea. split.
      - intros [(pre & l0 & post & -> & F & P)|[P G']].
        + left. exists ((m, l) :: pre), l0, post. auto.
        + right. split; [|exact G']. intros l' i [I|I]; [apply N; now left|now apply P].
      - intros [(pre & l0 & post & Eq & F & P)|[P G']].
        + destruct pre as [|p pre]; cbn in Eq; injection Eq as E1 E2.
          * exfalso. subst m l. apply (N l0 id); [now left|exact F].
          * left. exists pre, l0, post. auto.
        + right. split; [|exact G']. intros l' i I. apply P. now right. }
    cbn [to_cli]. destruct (file (m, l)) as [i []| | |] eqn:F.
    + cbn [fst]. destruct (seqb n m) eqn:E.
      * apply seqb_eq in E as <-. destruct (IH ltac:(intros d I; apply K; now right) (dset n i acc)) as (cmds & E & G). exists cmds. split; [exact E|].
        rewrite G, dget_dset_same. split.
        -- intros [(pre & l0 & post & -> & F' & P)|[P G']].
           ++ left. exists ((n, l) :: pre), l0, post. auto.
           ++ left. exists [], l, found. split; [reflexivity|]. split; [congruence|]. intros l' I j. now apply P.
        -- intros [(pre & l0 & post & Eq & F' & P)|[P _]].
           ++ destruct pre as [|p pre]; cbn in Eq; injection Eq as E1 E2.
              ** subst l0 post. right. split; [intros l' j I; now apply P|]. rewrite F in F'. congruence.
              ** left. exists pre, l0, post. auto.
           ++ exfalso. apply (P l i); [now left|exact F].
      * apply Skip.
        -- intros l' j [Eq|[]]. injection Eq as <- <-. rewrite seqb_refl in E. discriminate.
        -- apply dget_dset_other. intros ->. rewrite seqb_refl in E. discriminate.
    + apply Skip; [|reflexivity]. intros l' j [Eq|[]]. injection Eq as <- <-. rewrite F. discriminate.
    + apply Skip; [|reflexivity]. intros l' j [Eq|[]]. injection Eq as <- <-. rewrite F. discriminate.
    + apply Skip; [|reflexivity]. intros l' j [Eq|[]]. injection Eq as <- <-. rewrite F. discriminate.
    + exfalso. apply (K (m, l)); [now left|exact F].
Qed.
(** Other failures, and files without a directive, cost nothing else. *)
Theorem C288_partial file found : (forall d, In d found -> file d <> Kills) -> exists cmds, to_cli file found [] = Some cmds /\
  forall n id, dget n cmds = Some id <-> offered file found n id.
Proof.
  intros K. destruct (to_cli_get file found [] 0 K []) as (cmds & E & _). exists cmds. split; [exact E|]. intros n id.
  destruct (to_cli_get file found n id K []) as (cmds' & E' & G). assert (cmds' = cmds) as -> by congruence. rewrite G. cbn [dget].
  split; [intros [H|[_ H]]; [exact H|discriminate]|now left].
Qed.
Print Assumptions C288_partial.
Definition seeds (d : str * str) : loaded :=
  if seqb (snd d) (u "/b/ops") then Command 2 true else if seqb (fst d) (u "broken") then Fails else Command 1 true.
Example C288_case : to_cli seeds [(u "broken", u "/a/ops"); (u "seed", u "/b/ops"); (u "seed", u "/a/ops")] [] = Some [(u "seed", 1)].
Proof. vm_compute. reflexivity. Qed.

(** ** C289 *)
(** [lilya seed] and [lilya run seed] run the same file. *)
Definition C289_statement : Prop := forall file found ds cmds n id l, Permutation found ds -> by_location ds ->
  to_cli file found [] = Some cmds -> dget n cmds = Some id -> fetch_custom n ds = Loads l n -> file (n, l) = Command id true.
Theorem C289_refuted : ~ C289_statement.
Proof.
  intros H. specialize (H seeds [(u "seed", u "/b/ops"); (u "seed", u "/a/ops")] [(u "seed", u "/a/ops"); (u "seed", u "/b/ops")]
    [(u "seed", 1)] (u "seed") 1 (u "/b/ops") (perm_swap _ _ _)). vm_compute in H.
  specialize (H ltac:(repeat constructor) eq_refl eq_refl eq_refl). discriminate.
Qed.
Print Assumptions C289_refuted.
Lemma fetch_unique n l : forall ds acc, (forall l', In (n, l') ds -> l' = l) -> In (n, l) ds -> n <> u "location" -> n <> u "name" ->
  fold_left (fun acc (d : str * str) => if smem n [fst d; u "location"; u "name"] then Some (snd d) else acc) ds acc = Some l.
Proof.
  assert (forall n' (a : option str) (l' : str) (N : n <> u "location") (M : n <> u "name"),
    (if smem n [n'; u "location"; u "name"] then Some l' else a) = if seqb n n' then Some l' else a) as St.
  { intros n' a l' N M. replace (smem n [n'; u "location"; u "name"]) with (seqb n n'); [reflexivity|].
    unfold smem, existsb. rewrite (neq_seqb n (u "location") N), (neq_seqb n (u "name") M). now destruct (seqb n n'). }
  induction ds as [|[m l'] ds IH]; intros acc U I N M; [destruct I|]. cbn [fold_left fst snd]. rewrite St by assumption.
  destruct (seqb n m) eqn:E.
  - apply seqb_eq in E as <-. assert (l' = l) as -> by (apply U; now left). clear I. clear IH.
    assert (forall x, In x ds -> fst x = n -> snd x = l) as U' by (intros [a b] I E; cbn in *; subst; apply U; now right). clear U.
    induction ds as [|[m l'] ds IH]; [reflexivity|]. cbn [fold_left fst snd]. rewrite St by assumption. destruct (seqb n m) eqn:E.
    + apply seqb_eq in E as <-. assert (l' = l) as -> by (apply (U' (n, l')); [now left|reflexivity]). apply IH. intros x I. apply U'. now right.
    + apply IH. intros x I. apply U'. now right.
  - apply IH; [intros l0 I0; apply U; now right| |assumption|assumption]. destruct I as [Eq|I]; [injection Eq as -> ->; now rewrite seqb_refl in E|exact I].
Qed.
(** They do when the name is found in one place only. *)
Theorem C289_partial file found ds cmds n id l : Permutation found ds -> n <> u "location" -> n <> u "name" ->
  (forall d, In d found -> file d <> Kills) -> (forall a b, In (n, a) found -> In (n, b) found -> a = b) ->
  to_cli file found [] = Some cmds -> dget n cmds = Some id -> fetch_custom n ds = Loads l n -> file (n, l) = Command id true.
Proof.
  intros P NL NN K U E G F. destruct (C288_partial file found K) as (cmds' & E' & O). assert (cmds' = cmds) as -> by congruence.
  apply O in G as (pre & l0 & post & Ef & Fl & _). assert (In (n, l0) found) as I by (rewrite Ef; apply in_elt).
  assert (In (n, l0) ds) as Ids by (eapply Permutation_in; eassumption).
  unfold fetch_custom in F. destruct ds as [|d ds]; [discriminate|].
  assert (forall l', In (n, l') (d :: ds) -> l' = l0) as Ud.
  { intros l' I'. apply (U l' l0); [|exact I]. eapply Permutation_in; [apply Permutation_sym, P|exact I']. }
  pose proof (fetch_unique n l0 (d :: ds) None Ud Ids NL NN) as R.
  change (match fold_left (fun acc (d0 : str * str) => if smem n [fst d0; u "location"; u "name"] then Some (snd d0) else acc) (d :: ds) None with
          | Some location => Loads location n | None => Unknown end = Loads l n) in F.
  rewrite R in F. injection F as ->. exact Fl.
Qed.
Print Assumptions C289_partial.
Example C289_case : let found := [(u "broken", u "/a/ops"); (u "seed", u "/b/ops")] in
  to_cli seeds found [] = Some [(u "seed", 2)] /\ fetch_custom (u "seed") found = Loads (u "/b/ops") (u "seed") /\
  (forall d, In d found -> seeds d <> Kills).
Proof. cbn zeta. split; [vm_compute; reflexivity|]. split; [vm_compute; reflexivity|]. intros d [<-|[<-|[]]]; vm_compute; discriminate. Qed.

(** ** C290 *)
(** Every call answers for the parameters it was given. *)
Definition answers (given : option (dict pvalue)) (call : (dict pvalue -> url_result) * dict pvalue) : url_result :=
  fst call (dupdate (match given with Some d => d | None => [] end) (snd call)).
Definition C290_statement : Prop := forall given calls, reverses given calls = map (answers given) calls.
(** A dictionary that is used for two calls keeps the keyword arguments of the first, and the second finds no route. *)
Definition item_route : dict pvalue -> url_result := url_path_for (u "/items/{id}/{tab}") [(u "id", CInt); (u "tab", CStr)].
Definition user_route : dict pvalue -> url_result := url_path_for (u "/users/{id}") [(u "id", CInt)].
Theorem C290_refuted : ~ C290_statement /\
  reverses (Some [(u "id", VInt 1)]) [(item_route, [(u "tab", VText (u "log"))]); (user_route, [])] = [Url (u "/items/1/log"); NoMatchFound] /\
  reverses (Some [(u "id", VInt 1)]) [(user_route, [])] = [Url (u "/users/1")].
Proof.
  assert (reverses (Some [(u "id", VInt 1)]) [(item_route, [(u "tab", VText (u "log"))]); (user_route, [])] = [Url (u "/items/1/log"); NoMatchFound]) as E by (vm_compute; reflexivity).
  refine (conj _ (conj E _)); [|vm_compute; reflexivity]. intros H. rewrite H in E. vm_compute in E. discriminate.
Qed.
Print Assumptions C290_refuted.
(** It is so for calls without a dictionary, and for calls without keyword arguments. *)
Theorem C290_partial given calls : given = None \/ Forall (fun c => snd c = []) calls -> reverses given calls = map (answers given) calls.
Proof.
  intros H. revert given H. induction calls as [|[lookup kw] calls IH]; intros given H; [reflexivity|]. cbn [reverses reverse map].
  unfold answers at 1. cbn [fst snd]. f_equal. destruct H as [->|F]; [apply IH; now left|]. inversion F as [|? ? E F']; subst. cbn [snd] in E. subst kw.
  destruct given as [d|]; [|apply IH; now left]. unfold dupdate. cbn [fold_left]. apply IH. now right.
Qed.
Print Assumptions C290_partial.
Example C290_case : reverses None [(item_route, [(u "id", VInt 7); (u "tab", VText (u "log"))]); (user_route, [(u "id", VInt 8)])] =
  [Url (u "/items/7/log"); Url (u "/users/8")].
Proof. vm_compute. reflexivity. Qed.

(** ** C291 *)
Definition adds (accepts : nat -> list nat -> bool) (t : nat) (s : list nat) : option (list nat) := if accepts t s then Some (s ++ [t]) else None.
(** The scheduler gets the enabled tasks in their order, all of them or those before the first one it refuses; the configuration
    fails exactly if it refuses one. *)
Theorem C291_tasks accepts tasks : forall s0 s fine, register (adds accepts) tasks s0 = (s, fine) ->
  exists added rest, map fst (filter snd tasks) = added ++ rest /\ s = s0 ++ added /\
    (forall pre t post, added = pre ++ t :: post -> accepts t (s0 ++ pre) = true) /\
    match rest with [] => fine = true | t :: _ => fine = false /\ accepts t s = false end.
Proof.
  induction tasks as [|[t []] ts IH]; intros s0 s fine; cbn [register negb filter map fst snd].
  - intros H. injection H as <- <-. exists [], []. split; [reflexivity|]. split; [now rewrite app_nil_r|]. split; [|reflexivity]. intros pre ? ? E. now destruct pre.
  - unfold adds at 1. destruct (accepts t s0) eqn:A.
    + intros H. destruct (IH _ _ _ H) as (added & rest & E & Es & Ac & R). exists (t :: added), rest. split; [cbn; now rewrite E|].
      split; [rewrite Es, <- app_assoc; reflexivity|]. split; [|exact R]. intros pre t' post Eq. destruct pre as [|p pre]; cbn in Eq; injection Eq as <- Eq.
      * now rewrite app_nil_r.
      * specialize (Ac pre t' post Eq). now rewrite <- app_assoc in Ac.
    + intros H. injection H as <- <-. exists [], (t :: map fst (filter snd ts)). split; [reflexivity|]. split; [now rewrite app_nil_r|].
      split; [intros pre ? ? E; now destruct pre|]. auto.
  - apply IH.
Qed.
Print Assumptions C291_tasks.
Example C291_case : register (adds (fun t s => negb (existsb (Nat.eqb t) s))) [(1, true); (2, false); (3, true); (1, true); (4, true)] [] = ([1; 3], false).
Proof. vm_compute. reflexivity. Qed.
