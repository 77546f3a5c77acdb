(** C45 and C81-C83: the environment loader. *)
From Verif Require Import PyStr PyStrFacts CookieProofs PathNestProofs RouterDeferProofs EnvModel EnvSpec EnvProofs.

(** ** C45 *)
Lemma fold_fixed {V} ic (l : list (str * V)) : (forall k, In k (map fst l) -> fold_key ic k = k) -> fold_keys ic l = l.
Proof.
  intros H. unfold fold_keys. rewrite <- (map_id l) at 2. apply map_ext_in. intros (k, v) I. cbn [fst snd]. rewrite H; [reflexivity|]. apply (in_map fst) in I. exact I.
Qed.
Lemma dset_keys {V} k (v : V) d x : In x (dkeys (dset k v d)) -> x = k \/ In x (dkeys d).
Proof. induction d as [|(j, w) d IH]; cbn [dset dkeys map fst In]; [intros [E|[]]; auto|]. destruct (seqb k j) eqn:E; cbn [dkeys map fst In]; [apply seqb_eq in E; subst; tauto|]. intros [I|I]; [auto|]. destruct (IH I); auto. Qed.
Lemma dupdate_keys {V} (l d : dict V) x : In x (dkeys (dupdate d l)) -> In x (dkeys d) \/ In x (map fst l).
Proof.
  revert d. induction l as [|(k, v) l IH]; intros d I; [auto|]. unfold dupdate in I. cbn [fold_left fst snd] in I. destruct (IH _ I) as [H|H]; [|right; right; exact H].
  apply dset_keys in H. cbn [map fst In]. destruct H; auto.
Qed.
Lemma dget_map {V W} (f : V -> W) n (d : dict V) : dget n (map (fun p => (fst p, f (snd p))) d) = option_map f (dget n d).
Proof. induction d as [|(k, v) d IH]; [reflexivity|]. cbn [map dget fst snd]. destruct (seqb n k); [reflexivity|exact IH]. Qed.
Definition in_capitals {V} (ic : bool) (l : list (str * V)) : list (str * V) := map (fun p => (if ic then upper (fst p) else fst p, snd p)) l.
Definition as_values (l : dict str) : list (str * value) := map (fun p => (fst p, Scalar (Some (snd p)))) l.

(** After a load a name has the value of the first of these sources that defines it: the overrides, the YAML
    file, the .env file, the variables of the system, what the loader held before. *)
Theorem C45_precedence : forall word digit show yaml l s l',
  (ignore_case l = true -> forall k, In k (map fst (pairs l)) -> upper k = k) ->
  load_from_files word digit show yaml l s = Some l' ->
  exists vars data,
    match env_file s with None => vars = [] | Some content => read_env_file word digit (ignore_case l) (strict s) (os_env s) content = Some vars end
    /\ match yaml_file s with
       | None => data = []
       | Some content => exists context raw, read_yaml word yaml (ignore_case l) (strict s) context content = Some raw
                         /\ data = if flatten s then flatten_dict (ignore_case l) raw else raw
       end
    /\ forall n, dget n (pairs l') = option_map (stored show (flatten s))
         (first_of [last_value n (in_capitals (ignore_case l) (overrides s)); last_value n data; last_value n (as_values vars);
                    if include_os s then last_value n (in_capitals (ignore_case l) (as_values (os_env s))) else None;
                    last_value n (pairs l)]).
Proof.
  intros word digit show yaml l s l' FK. unfold load_from_files, merged.
  assert (IK : forall k, In k (map fst (pairs l)) -> fold_key (ignore_case l) k = k) by (destruct (ignore_case l); [exact (FK eq_refl)|reflexivity]).
  assert (F0 : fold_keys (ignore_case l) (dupdate [] (pairs l)) = dupdate [] (pairs l)).
  { apply fold_fixed. intros k I. apply IK. destruct (dupdate_keys _ _ _ I) as [[]|H]. exact H. }
  rewrite F0, (dupdate_nodup (dupdate [] (pairs l))) by (apply NoDup_dupdate; constructor).
  set (base := if include_os s then _ else _).
  assert (B : forall n, dget n base = first_of [if include_os s then last_value n (in_capitals (ignore_case l) (as_values (os_env s))) else None; last_value n (pairs l)]).
  { intros n. unfold base. cbn [first_of]. destruct (include_os s).
    - rewrite !dget_dupdate_last. change (fold_keys (ignore_case l) (texts (os_env s))) with (in_capitals (ignore_case l) (as_values (os_env s))). cbn [dget].
      destruct (last_value n (in_capitals (ignore_case l) (as_values (os_env s)))); [reflexivity|]. destruct (last_value n (pairs l)); reflexivity.
    - rewrite dget_dupdate_last. cbn [dget]. destruct (last_value n (pairs l)); reflexivity. }
  clearbody base.
  match goal with |- context [match ?e with Some final => match match yaml_file s with _ => _ end with _ => _ end | None => None end] => destruct e as [final|] eqn:E1 end; [|discriminate].
  assert (V : exists vars, match env_file s with None => vars = [] | Some content => read_env_file word digit (ignore_case l) (strict s) (os_env s) content = Some vars end
     /\ forall n, dget n final = first_of [last_value n (as_values vars); dget n base]).
  { destruct (env_file s) as [content|].
    - destruct (read_env_file word digit (ignore_case l) (strict s) (os_env s) content) as [vars|] eqn:R; [|discriminate E1]. exists vars. split; [reflexivity|]. intros n. injection E1 as <-. rewrite dget_dupdate_last.
      change (texts vars) with (as_values vars). cbn [first_of]. destruct (last_value n (as_values vars)); [reflexivity|]. destruct (dget n base); reflexivity.
    - exists []. split; [reflexivity|]. intros n. injection E1 as <-. cbn. destruct (dget n base); reflexivity. }
  clear E1. destruct V as (vars & V1 & V2).
  match goal with |- context [match ?e with Some final => Some (dupdate final _) | None => None end] => destruct e as [final2|] eqn:E2 end; [|discriminate].
  intros [= <-]. exists vars.
  assert (D : exists data, match yaml_file s with None => data = [] | Some content => exists context raw, read_yaml word yaml (ignore_case l) (strict s) context content = Some raw
       /\ data = if flatten s then flatten_dict (ignore_case l) raw else raw end /\ forall n, dget n final2 = first_of [last_value n data; dget n final]).
  { destruct (yaml_file s) as [content|].
    - match type of E2 with match read_yaml _ _ _ _ ?c _ with _ => _ end = _ => set (context := c) in E2 end.
      destruct (read_yaml word yaml (ignore_case l) (strict s) context content) as [raw|] eqn:R; [|discriminate E2]. exists (if flatten s then flatten_dict (ignore_case l) raw else raw).
      split; [exists context, raw; split; [exact R|reflexivity]|]. intros n. injection E2 as <-. rewrite dget_dupdate_last. cbn [first_of]. destruct (last_value n _); [reflexivity|]. destruct (dget n final); reflexivity.
    - exists []. split; [reflexivity|]. intros n. injection E2 as <-. cbn. destruct (dget n final); reflexivity. }
  destruct D as (data & D1 & D2). exists data. split; [exact V1|]. split; [exact D1|]. intros n. cbn [pairs].
  rewrite (dget_map (stored show (flatten s))), dget_dupdate_last, D2. change (fold_keys (ignore_case l) (overrides s)) with (in_capitals (ignore_case l) (overrides s)). f_equal. cbn [first_of]. rewrite V2, B.
  destruct (last_value n (in_capitals _ (overrides s))); [reflexivity|]. destruct (last_value n data); [reflexivity|]. cbn [first_of]. destruct (last_value n (as_values vars)); [reflexivity|].
  destruct (if include_os s then _ else _); [reflexivity|]. destruct (last_value n (pairs l)); reflexivity.
Qed.
Print Assumptions C45_precedence.
Definition nl : str := [10%N].
Definition sample : sources :=
  {| os_env := [(u "HOST", u "os"); (u "A", u "1"); (u "USER", u "me")]; include_os := true;
     env_file := Some (u "# comment" ++ nl ++ u "HOST = 'file'" ++ nl ++ nl ++ u "URL=http://${HOST}:${PORT|80}/$USER" ++ nl ++ u "B=2");
     yaml_file := Some (u "anything"); overrides := [(u "B", Scalar (Some (u "over")))]; strict := true; flatten := true |}.
Example C45_precedence_case :
  option_map pairs (load_from_files is_word is_digit (fun _ => []) (fun _ => Some [(u "db", Mapping [(u "ports", Sequence [Scalar (Some (u "1")); Scalar None])]); (u "A", Scalar (Some (u "yaml")))])
    (new_loader [(u "OLD", Scalar (Some (u "x")))] [] false) sample)
  = Some [(u "OLD", Scalar (Some (u "x"))); (u "HOST", Scalar (Some (u "file"))); (u "A", Scalar (Some (u "yaml"))); (u "USER", Scalar (Some (u "me")));
          (u "URL", Scalar (Some (u "http://file:80/me"))); (u "B", Scalar (Some (u "over"))); (u "db.ports.0", Scalar (Some (u "1"))); (u "db.ports.1", Scalar (Some (u "None")))].
Proof. vm_compute. reflexivity. Qed.

(** A key counts as read once env() or indexing has returned a value for it. *)
Definition reads (l : loader) (o : op) (key : str) (v : value) : Prop :=
  (o = GetItem key \/ exists os d, o = Env os key d) /\ snd (env_step l o) = Value v.
Definition fixed (l : loader) (key : str) (v : value) : Prop :=
  (forall w, env_step l (SetItem key w) = (l, EnvError)) /\ env_step l (DelItem key) = (l, EnvError)
  /\ (forall os d, snd (env_step l (Env os key d)) = Value v).
Definition C45_readonly (own : op -> Prop) (stored_key : Prop -> Prop) : Prop := forall l o key v more,
  reads l o key v -> stored_key (dget (full_key l key) (pairs l) <> None) -> Forall own more -> fixed (env_run (fst (env_step l o)) more) key v.
Definition C45_readonly_statement : Prop := C45_readonly (fun _ => True) (fun _ => True).
(** The methods of multidict change keys that were read. *)
Theorem C45_readonly_refuted : ~ C45_readonly_statement.
Proof.
  intros H. destruct (H (new_loader [(u "K", Scalar (Some (u "1")))] [] false) (GetItem (u "K")) (u "K") (Scalar (Some (u "1"))) [Pop (u "K")]) as (_ & _ & E).
  - split; [left; reflexivity|]. vm_compute. reflexivity.
  - exact I.
  - repeat constructor.
  - specialize (E [] None). vm_compute in E. discriminate E.
Qed.
Print Assumptions C45_readonly_refuted.
(** A key that only the system defines follows the system, even after it was read. *)
Theorem C45_live_refuted : ~ C45_readonly (fun o => match o with Env _ _ _ | GetItem _ | SetItem _ _ | DelItem _ => True | _ => False end) (fun _ => True).
Proof.
  intros H. destruct (H (new_loader [] [] false) (Env [(u "K", u "1")] (u "K") None) (u "K") (Scalar (Some (u "1"))) []) as (_ & _ & E).
  - split; [right; eexists; eexists; reflexivity|]. vm_compute. reflexivity.
  - exact I.
  - constructor.
  - specialize (E [(u "K", u "2")] None). vm_compute in E. discriminate E.
Qed.
Print Assumptions C45_live_refuted.
Lemma dget_mset {V} n k (v : V) l : n <> k -> dget n (mset k v l) = dget n l.
Proof.
  intros NE. induction l as [|(j, w) l IH]; cbn [mset dget fst]; [rewrite (proj2 (seqb_neq n k) NE); reflexivity|]. destruct (seqb j k) eqn:E.
  - apply seqb_eq in E. subst j. cbn [dget]. rewrite (proj2 (seqb_neq n k) NE). clear IH. induction l as [|(i, x) l IH]; [reflexivity|]. cbn [filter fst]. destruct (seqb i k) eqn:F; cbn [negb dget].
    + apply seqb_eq in F. subst i. rewrite (proj2 (seqb_neq n k) NE). exact IH.
    + cbn [dget]. rewrite IH. reflexivity.
  - cbn [dget]. rewrite IH. reflexivity.
Qed.
Lemma dget_mdel {V} n k (l : list (str * V)) : n <> k -> dget n (mdel k l) = dget n l.
Proof.
  intros NE. unfold mdel. induction l as [|(i, x) l IH]; [reflexivity|]. cbn [filter fst]. destruct (seqb i k) eqn:F; cbn [negb dget].
  - apply seqb_eq in F. subst i. rewrite (proj2 (seqb_neq n k) NE). exact IH.
  - cbn [dget]. rewrite IH. reflexivity.
Qed.
Definition held (k : str) (v : value) (l0 l : loader) : Prop :=
  In k (read_keys l) /\ dget k (pairs l) = Some v /\ prefix l = prefix l0 /\ ignore_case l = ignore_case l0.
Theorem C45_readonly_partial :
  C45_readonly (fun o => match o with Env _ _ _ | GetItem _ | SetItem _ _ | DelItem _ => True | _ => False end) (fun stored => stored).
Proof.
  intros l o key v more (K & R) ST F. set (k := full_key l key).
  assert (H0 : held k v l (fst (env_step l o))).
  { destruct K as [-> | (os & d & ->)]; cbn [env_step] in R |- *; fold k in R |- *; fold k in ST.
    - destruct (dget k (pairs l)) as [w|] eqn:E; [|contradiction ST; reflexivity]. cbn [fst snd] in R |- *. repeat split; [left; reflexivity|cbn; congruence].
    - cbn [fst snd mark pairs] in R |- *. destruct (dget k (pairs l)) as [w|] eqn:E; [|contradiction ST; reflexivity]. repeat split; [left; reflexivity|cbn; congruence]. }
  assert (STEP : forall l1 o1, match o1 with Env _ _ _ | GetItem _ | SetItem _ _ | DelItem _ => True | _ => False end -> held k v l l1 -> held k v l (fst (env_step l1 o1))).
  { intros l1 o1 OWN (I1 & I2 & I3 & I4). destruct o1 as [os x d|x|x w|x|x|x w|]; try contradiction OWN; cbn [env_step].
    - repeat split; [right; exact I1|exact I2|exact I3|exact I4].
    - destruct (dget (full_key l1 x) (pairs l1)); repeat split; try assumption. right. exact I1.
    - destruct (smem (full_key l1 x) (read_keys l1)) eqn:E; [repeat split; assumption|]. repeat split; try assumption. cbn [fst with_pairs pairs]. rewrite dget_mset; [exact I2|]. intros EQ. rewrite <- EQ in E. apply smem_not_In in E. contradiction.
    - destruct (smem (full_key l1 x) (read_keys l1)) eqn:E; [repeat split; assumption|]. destruct (dget (full_key l1 x) (pairs l1)); repeat split; try assumption. cbn [fst with_pairs pairs]. rewrite dget_mdel; [exact I2|]. intros EQ. rewrite <- EQ in E. apply smem_not_In in E. contradiction. }
  assert (RUN : held k v l (env_run (fst (env_step l o)) more)).
  { revert H0. generalize (fst (env_step l o)). induction more as [|m more IH]; intros l1 H1; [exact H1|]. inversion F as [|? ? F1 F2]; subst. cbn [env_run fold_left]. apply (IH F2). apply STEP; assumption. }
  destruct RUN as (I1 & I2 & I3 & I4). set (l2 := env_run (fst (env_step l o)) more) in *.
  assert (FK : full_key l2 key = k) by (unfold full_key, k; rewrite I3, I4; reflexivity).
  assert (SM : smem k (read_keys l2) = true) by (apply smem_In; exact I1).
  refine (conj _ (conj _ _)).
  - intros w. cbn [env_step]. rewrite FK, SM. reflexivity.
  - cbn [env_step]. rewrite FK, SM. reflexivity.
  - intros os d. cbn [env_step snd mark pairs]. rewrite FK, I2. reflexivity.
Qed.
Print Assumptions C45_readonly_partial.
Example C45_readonly_case : let l := new_loader [(u "app_k", Scalar (Some (u "1")))] (u "app_") true in
  reads l (GetItem (u "K")) (u "K") (Scalar (Some (u "1"))) /\ dget (full_key l (u "K")) (pairs l) <> None
  /\ snd (env_step (fst (env_step l (GetItem (u "K")))) (SetItem (u "k") (Scalar None))) = EnvError.
Proof. split; [split; [left; reflexivity|reflexivity]|]. split; [discriminate|reflexivity]. Qed.

(** After a load no key counts as read, so each can be set again, and keys are looked up under the prefix of the loader as before. *)
Theorem C45_reload : forall word digit show yaml l s l', load_from_files word digit show yaml l s = Some l' -> forall key,
  let name := if ignore_case l then upper (prefix l ++ key) else prefix l ++ key in
  (forall v, snd (env_step l' (SetItem key v)) = Done)
  /\ (dget name (pairs l') <> None -> snd (env_step l' (DelItem key)) = Done)
  /\ (forall v, snd (env_step l' (GetItem key)) = Value v <-> dget name (pairs l') = Some v).
Proof.
  intros word digit show yaml l s l' H key. unfold load_from_files in H. destruct (merged word digit show yaml l s) as [final|]; [|discriminate H]. injection H as <-. cbn zeta.
  cbn [env_step]. unfold full_key, fold_key. cbn [ignore_case prefix read_keys pairs smem existsb].
  set (k := if ignore_case l then _ else _). refine (conj _ (conj _ _)).
  - reflexivity.
  - intros E. destruct (dget k _); [reflexivity|contradiction E; reflexivity].
  - intros v. destruct (dget k _) as [w|]; cbn [snd]; split; intros E; try discriminate E; injection E as ->; reflexivity.
Qed.
Print Assumptions C45_reload.
Example C45_reload_case : let l := new_loader [(u "app_k", Scalar (Some (u "1")))] (u "app_") true in
  let l1 := fst (env_step l (GetItem (u "K"))) in
  snd (env_step l1 (SetItem (u "k") (Scalar None))) = EnvError /\
  exists l2, load_from_files is_word is_digit (fun _ => []) (fun _ => None) l1 {| os_env := []; include_os := false; env_file := None; yaml_file := None; overrides := []; strict := true; flatten := true |} = Some l2
    /\ snd (env_step l2 (GetItem (u "k"))) = Value (Scalar (Some (u "1"))) /\ snd (env_step l2 (SetItem (u "k") (Scalar None))) = Done.
Proof. cbn zeta. split; [reflexivity|]. eexists. split; [vm_compute; reflexivity|]. split; reflexivity. Qed.

(** ** C81 *)
Definition C81_lines (extra : line -> Prop) : Prop := forall word digit ic strict os ls, usual_words word ->
  Forall (good_line word digit) ls -> Forall extra ls -> read_env_file word digit ic strict os (file_text ls) = file_meaning ic strict os [] ls.
Definition C81_statement : Prop := C81_lines (fun _ => True).
Lemma is_word_usual : usual_words is_word.
Proof.
  split; [reflexivity|]. intros c H. unfold is_space in H. repeat (apply orb_true_iff in H as [H|H]); repeat (rewrite andb_true_iff in H); repeat rewrite N.leb_le in H; repeat rewrite N.eqb_eq in H;
  unfold is_word, is_alpha_us, is_digit; repeat match goal with |- context [(?a <=? ?b)%N] => destruct (N.leb_spec a b); [|try reflexivity] | |- context [(?a =? ?b)%N] => destruct (N.eqb_spec a b) end; try reflexivity; exfalso; lia.
Qed.
(** An empty value takes the next line. *)
Theorem C81_refuted : ~ C81_statement.
Proof.
  intros H. specialize (H is_word is_digit false false [] [Assign (u "A") [] [] [] [] []; Assign (u "B") [] [] [] [Lit (u "2")] []] is_word_usual).
  assert (E : read_env_file is_word is_digit false false [] (file_text [Assign (u "A") [] [] [] [] []; Assign (u "B") [] [] [] [Lit (u "2")] []]) = Some [(u "A", u "B=2")]) by (vm_compute; reflexivity).
  rewrite E in H. discriminate H.
  - assert (S0 : spaces []) by (intros c []).
    assert (NM : forall c, is_word c = true -> is_name is_word [c]) by (intros c W; split; [discriminate|]; cbn; rewrite W; reflexivity).
    repeat constructor; try match goal with I : In _ [] |- _ => destruct I end; try exact S0; try (apply NM; reflexivity); try discriminate; try (apply cmem_not_In; reflexivity);
    try (cbn in *; match goal with H : _ \/ _ |- _ => destruct H as [H|H]; try discriminate H; injection H as <-; (reflexivity || discriminate) end).
  - repeat constructor.
Qed.
Print Assumptions C81_refuted.
(** A value that is not bare and empty, with non-empty defaults. *)
Definition with_value (l : line) : Prop :=
  match l with Assign _ _ _ quote v _ => quote ++ pieces_text v <> [] /\ Forall (fun p => match p with Braced _ (Some []) => False | _ => True end) v | _ => True end.
Theorem C81_lines_partial : C81_lines with_value.
Proof.
  intros word digit ic strict os ls UW G E. unfold read_env_file, assignments. rewrite (lines_raw word UW digit ls).
  - apply (read_lines word UW digit); [exact G|]. apply (Forall_impl _ (P := with_value)); [|exact E]. intros [n pre post q v t|s|s|c s]; cbn; [tauto|auto|auto|auto].
  - exact G.
  - apply (Forall_impl _ (P := with_value)); [|exact E]. intros [n pre post q v t|s|s|c s]; cbn; [tauto|auto|auto|auto].
  - lia.
Qed.
Print Assumptions C81_lines_partial.
Example C81_case :
  let ls := [Comment (u " A=1"); Assign (u "HOST") (u " ") (u " ") [39%N] [Lit (u "fi le")] (u " "); Blank []; Odd 49 (u "A=x"); Assign (u "E") [] [] [34%N] [] [];
             Assign (u "URL") [] [] [] [Lit (u "http://"); Braced (u "HOST") None; Lit (u ":"); Braced (u "PORT") (Some (u "80")); Lit (u "/"); Bare (u "USER")] []] in
  Forall (good_line is_word is_digit) ls /\ Forall with_value ls
  /\ read_env_file is_word is_digit false true [(u "USER", u "me")] (file_text ls) = Some [(u "HOST", u "fi le"); (u "E", []); (u "URL", u "http://fi le:80/me")].
Proof.
  cbn zeta. split; [|split; [repeat constructor; try discriminate|vm_compute; reflexivity]].
  assert (SP : forall s, forallb (fun c => is_space c && negb (N.eqb c 10)) s = true -> spaces s).
  { intros s H c I. assert (X := proj1 (forallb_forall _ _) H c I). cbv beta in X. apply andb_true_iff in X as [X1 X2]. split; [exact X1|]. intros ->. discriminate X2. }
  repeat first [match goal with |- _ \/ _ => solve [auto] end | constructor]; try match goal with I : In ?c ?l |- is_space _ = true => apply (SP l eq_refl c I) | I : In ?c ?l |- _ <> 10%N => apply (SP l eq_refl c I) end; try (apply SP; reflexivity); try discriminate; try (apply cmem_not_In; reflexivity); auto;
  try (cbn in *; match goal with H : _ \/ _ |- _ => destruct H as [H|H]; try discriminate H; injection H as <-; (reflexivity || discriminate) end).
Qed.

(** ** C82 *)
(** Every leaf of a nested mapping is found under its dotted path (the last one, if two have the same). *)
Theorem C82_flat : forall ic data n, Forall (fun p => fst p <> []) data ->
  dget n (flatten_dict ic data) = last_value n (map (fun p => (if ic then upper (dotted (fst p)) else dotted (fst p), snd p)) (leaves (Mapping data))).
Proof.
  intros ic data n NE. unfold flatten_dict. cbn [flatten_value leaves].
  enough (G : forall items acc, (forall n, dget n items = last_value n acc) ->
    dget n ((fix go (items : dict value) (m : list (str * value)) : dict value := match m with [] => items | (k, x) :: r => go (dupdate items (flatten_value ic (child ic [] k) x)) r end) items data)
    = last_value n (acc ++ map (fun p => (fold_key ic (dotted (fst p)), snd p)) ((fix go (m : list (str * value)) := match m with [] => [] | (k, x) :: r => map (fun p => (k :: fst p, snd p)) (leaves x) ++ go r end) data))).
  { apply (G [] []). reflexivity. }
  induction NE as [|(k, x) data NK NE IH]; intros items acc E; [rewrite app_nil_r; apply E|]. cbn [fst] in NK.
  destruct (flat_named ic x (child ic [] k)) as [N1 E1].
  { unfold child. intros H. apply fold_nil in H. contradiction. }
  { unfold child. apply fold_idem. }
  rewrite (IH _ (acc ++ map (fun p => (fold_key ic (dotted (fst p)), snd p)) (map (fun p => (k :: fst p, snd p)) (leaves x)))).
  - rewrite map_app, app_assoc. reflexivity.
  - intros m. rewrite dget_dupdate_last, (last_nodup _ _ N1), E1, E, last_app. f_equal. rewrite map_map. unfold named, child. cbn [fst snd].
    replace (map (fun p : list str * value => (fold_key ic (dotted (fold_key ic k :: fst p)), snd p)) (leaves x)) with (map (fun x0 : list str * value => (fold_key ic (dotted (k :: fst x0)), snd x0)) (leaves x)); [reflexivity|].
    apply map_ext. intros (p, v). cbn [fst snd]. f_equal. unfold dotted. rewrite !join_cons, !fold_app, fold_idem. reflexivity.
Qed.
Print Assumptions C82_flat.
(** In particular, if no two leaves have the same name, each leaf has its own. *)
Theorem C82_leaf : forall (ic : bool) data path v, Forall (fun p => fst p <> []) data ->
  NoDup (map (fun p : list str * value => if ic then upper (dotted (fst p)) else dotted (fst p)) (leaves (Mapping data))) ->
  In (path, v) (leaves (Mapping data)) -> dget (if ic then upper (dotted path) else dotted path) (flatten_dict ic data) = Some v.
Proof.
  intros ic data path v NE ND I. rewrite C82_flat by exact NE. set (f := fun p : list str * value => (if ic then upper (dotted (fst p)) else dotted (fst p), snd p)).
  assert (ND2 : NoDup (dkeys (map f (leaves (Mapping data))))) by (unfold dkeys; rewrite map_map; exact ND).
  rewrite last_nodup by exact ND2. apply (in_map f) in I. cbn [f fst snd] in I. revert ND2 I. generalize (map f (leaves (Mapping data))). clear.
  intros d ND I. induction d as [|(k, w) d IH]; [destruct I|]. cbn [dget]. inversion ND as [|? ? N1 N2]; subst. destruct I as [I|I].
  - injection I as -> ->. rewrite seqb_refl. reflexivity.
  - destruct (seqb _ k) eqn:E; [|apply IH; assumption]. apply seqb_eq in E. subst k. exfalso. apply N1. apply (in_map fst) in I. exact I.
Qed.
Print Assumptions C82_leaf.
Example C82_case : let data := [(u "db", Mapping [(u "ports", Sequence [Scalar (Some (u "1")); Mapping [(u "x", Scalar None)]])])] in
  Forall (fun p => fst p <> []) data /\ leaves (Mapping data) = [([u "db"; u "ports"; u "0"], Scalar (Some (u "1"))); ([u "db"; u "ports"; u "1"; u "x"], Scalar None)]
  /\ dget (u "DB.PORTS.1.X") (flatten_dict true data) = Some (Scalar None).
Proof. cbn zeta. split; [repeat constructor; discriminate|]. split; vm_compute; reflexivity. Qed.

(** ** C83 *)
Definition C83_expansion (extra : piece -> Prop) : Prop := forall word ic known strict ps, usual_words word ->
  good_pieces word ps -> Forall extra ps -> expand word ic known strict (pieces_text ps) = pieces_value ic strict known ps.
Definition C83_statement : Prop := C83_expansion (fun _ => True).
(** An empty default counts as none. *)
Theorem C83_refuted : ~ C83_statement.
Proof.
  intros H. specialize (H is_word false (fun _ => None) true [Braced (u "A") (Some [])] is_word_usual).
  assert (E : expand is_word false (fun _ => None) true (pieces_text [Braced (u "A") (Some [])]) = None) by (vm_compute; reflexivity). rewrite E in H.
  discriminate H; repeat constructor; try discriminate; intros [].
Qed.
Print Assumptions C83_refuted.
Theorem C83_expansion_partial : C83_expansion (fun p => match p with Braced _ (Some []) => False | _ => True end).
Proof. intros word ic known strict ps UW G F. unfold expand. apply (expand_pieces word UW); [exact G|exact F|lia]. Qed.
Print Assumptions C83_expansion_partial.
Example C83_case : let ps := [Lit (u "a{"); Braced (u "X-1.y") (Some (u "$Z")); Bare (u "Y"); Dollar; Lit (u " "); Bare (u "Y")] in
  good_pieces is_word ps /\ expand is_word false (fun n => if seqb n (u "Y") then Some (u "${Q}") else None) true (pieces_text ps) = Some (u "a{$Z${Q}$ ${Q}").
Proof. cbn zeta. split; [|vm_compute; reflexivity]. repeat split; try discriminate; try (apply cmem_not_In; reflexivity). Qed.
