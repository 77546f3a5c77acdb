(** Lemmas for C45 and C81-C83. *)
From Verif Require Import PyStr PyStrFacts CookieProofs PathNestProofs RouterDeferProofs EnvModel EnvSpec.

(** ** Values by name *)
Lemma dget_dupdate {V} (l d : dict V) n : dget n (dupdate d l) = match dget n (rev l) with Some v => Some v | None => dget n d end.
Proof.
  revert d. induction l as [|(k, v) l IH] using rev_ind; intros d; [reflexivity|]. unfold dupdate in *. rewrite fold_left_app. cbn [fold_left fst snd]. rewrite rev_app_distr. cbn [rev app dget].
  destruct (seqb n k) eqn:E; [apply seqb_eq in E; subst; apply dget_dset_same|]. rewrite dget_dset_other, IH; [reflexivity|]. intros ->. rewrite seqb_refl in E. discriminate E.
Qed.
Lemma last_rev {V} n (l : list (str * V)) : last_value n l = dget n (rev l).
Proof.
  induction l as [|(k, v) l IH]; [reflexivity|]. cbn [last_value rev]. rewrite dget_app, <- IH. destruct (last_value n l); [reflexivity|]. cbn [dget]. rewrite seqb_sym. reflexivity.
Qed.
Lemma last_app {V} n (a b : list (str * V)) : last_value n (a ++ b) = match last_value n b with Some v => Some v | None => last_value n a end.
Proof. rewrite !last_rev, rev_app_distr. apply dget_app. Qed.
Lemma dget_dupdate_last {V} (l d : dict V) n : dget n (dupdate d l) = match last_value n l with Some v => Some v | None => dget n d end.
Proof. rewrite dget_dupdate, last_rev. reflexivity. Qed.
Lemma last_nodup {V} (d : dict V) n : NoDup (dkeys d) -> last_value n d = dget n d.
Proof. intros H. rewrite last_rev. apply dget_rev. exact H. Qed.

(** ** Flattening *)
Section ValueInd.
Context (P : value -> Prop) (HS : forall t, P (Scalar t)) (HM : forall m, Forall (fun p => P (snd p)) m -> P (Mapping m)) (HL : forall l, Forall P l -> P (Sequence l)).
Fixpoint value_all (v : value) : P v :=
  match v with
  | Scalar t => HS t
  | Mapping m => HM m ((fix go (m : list (str * value)) : Forall (fun p => P (snd p)) m := match m with [] => Forall_nil _ | p :: r => Forall_cons p (value_all (snd p)) (go r) end) m)
  | Sequence l => HL l ((fix go (l : list value) : Forall P l := match l with [] => Forall_nil _ | x :: r => Forall_cons x (value_all x) (go r) end) l)
  end.
End ValueInd.
Lemma upper_app a b : upper (a ++ b) = upper a ++ upper b.
Proof. apply map_app. Qed.
Lemma upper_c_idem c : upper_c (upper_c c) = upper_c c.
Proof. unfold upper_c. destruct ((97 <=? c)%N && (c <=? 122)%N) eqn:E; [|rewrite E; reflexivity]. apply andb_true_iff in E as [A B]. apply N.leb_le in A, B. destruct ((97 <=? c - 32)%N && (c - 32 <=? 122)%N) eqn:F; [|reflexivity]. apply andb_true_iff in F as [F _]. apply N.leb_le in F. lia. Qed.
Lemma upper_idem s : upper (upper s) = upper s.
Proof. unfold upper. rewrite map_map. apply map_ext. apply upper_c_idem. Qed.
Lemma fold_idem ic k : fold_key ic (fold_key ic k) = fold_key ic k.
Proof. destruct ic; [apply upper_idem|reflexivity]. Qed.
Lemma fold_app ic a b : fold_key ic (a ++ b) = fold_key ic a ++ fold_key ic b.
Proof. destruct ic; [apply upper_app|reflexivity]. Qed.
Lemma fold_nil ic a : fold_key ic a = [] -> a = [].
Proof. destruct ic, a; try reflexivity; discriminate. Qed.
Lemma digits_fold ic s : forallb is_digit s = true -> fold_key ic s = s.
Proof.
  destruct ic; [|reflexivity]. cbn [fold_key]. induction s as [|c s IH]; [reflexivity|]. cbn [forallb]. intros H. apply andb_true_iff in H as [A B]. cbn [upper map]. f_equal; [|apply IH; exact B].
  unfold is_digit in A. apply andb_true_iff in A as [_ A]. apply N.leb_le in A. unfold upper_c. destruct (N.leb_spec 97 c); [lia|reflexivity].
Qed.
Lemma join_cons (k : str) p : join (u ".") (k :: p) = k ++ match p with [] => [] | _ => u "." ++ join (u ".") p end.
Proof. destruct p; cbn [join]; [rewrite app_nil_r|]; reflexivity. Qed.
Definition named (ic : bool) (key : str) (l : list (list str * value)) : list (str * value) := map (fun p => (fold_key ic (dotted (key :: fst p)), snd p)) l.
Lemma named_child ic (key k : str) l : key <> [] -> named ic (child ic key k) l = map (fun p => (fold_key ic (dotted (key :: k :: fst p)), snd p)) l.
Proof.
  intros NE. unfold named. apply map_ext. intros (p, v). cbn [fst snd]. f_equal. unfold dotted.
  assert (CH : child ic key k = fold_key ic (key ++ u "." ++ k)) by (destruct key; [contradiction NE; reflexivity|reflexivity]).
  rewrite CH, (join_cons key (k :: p)), (join_cons k p), (join_cons _ p). rewrite !fold_app, !fold_idem, <- !app_assoc. reflexivity.
Qed.
Lemma flat_named ic v : forall key : str, key <> [] -> fold_key ic key = key ->
  NoDup (dkeys (flatten_value ic key v)) /\ forall n, dget n (flatten_value ic key v) = last_value n (named ic key (leaves v)).
Proof.
  induction v as [t|m IH|l IH] using value_all; intros key NE FK.
  - split; [repeat constructor; intros []|]. intros n. cbn [flatten_value leaves named map dotted join last_value fst snd]. rewrite FK. cbn [dget]. rewrite seqb_sym. reflexivity.
  - cbn [flatten_value leaves].
    enough (G : forall items acc, NoDup (dkeys items) -> (forall n, dget n items = last_value n acc) ->
      let r := (fix go (items : dict value) (m : list (str * value)) : dict value := match m with [] => items | (k, x) :: r => go (dupdate items (flatten_value ic (child ic key k) x)) r end) items m in
      NoDup (dkeys r) /\ forall n, dget n r = last_value n (acc ++ named ic key ((fix go (m : list (str * value)) := match m with [] => [] | (k, x) :: r => map (fun p => (k :: fst p, snd p)) (leaves x) ++ go r end) m))).
    { apply (G [] []); [constructor|reflexivity]. }
    induction IH as [|(k, x) m H1 H2 IHm]; intros items acc ND E.
    + cbn. rewrite app_nil_r. auto.
    + cbn [snd] in H1. destruct (H1 (child ic key k)) as [N1 E1].
      { unfold child. intros H. apply fold_nil in H. destruct key; [contradiction NE; reflexivity|discriminate H]. }
      { unfold child. apply fold_idem. }
      specialize (IHm (dupdate items (flatten_value ic (child ic key k) x)) (acc ++ named ic key (map (fun p => (k :: fst p, snd p)) (leaves x)))).
      cbn zeta in IHm |- *. destruct IHm as [I1 I2].
      * apply NoDup_dupdate. exact ND.
      * intros n. rewrite dget_dupdate_last, (last_nodup _ _ N1), E1, E, last_app, named_child by exact NE. unfold named. rewrite map_map. cbn [fst snd]. reflexivity.
      * split; [exact I1|]. intros n. rewrite I2. unfold named. rewrite map_app, app_assoc. reflexivity.
  - cbn [flatten_value leaves].
    enough (G : forall i items acc, NoDup (dkeys items) -> (forall n, dget n items = last_value n acc) ->
      let r := (fix go (i : N) (items : dict value) (l : list value) : dict value :=
                     match l with
                     | [] => items
                     | x :: r => go (i + 1)%N (match x with
                                               | Scalar _ => dset (key ++ u "." ++ dec i) x items
                                               | _ => dupdate items (flatten_value ic (child ic key (dec i)) x)
                                               end) r
                     end) i items l in
      NoDup (dkeys r) /\ forall n, dget n r = last_value n (acc ++ named ic key ((fix go (i : N) (l : list value) := match l with [] => [] | x :: r => map (fun p => (dec i :: fst p, snd p)) (leaves x) ++ go (i + 1)%N r end) i l))).
    { apply (G 0%N [] []); [constructor|reflexivity]. }
    induction IH as [|x l H1 H2 IHl]; intros i items acc ND E.
    + cbn. rewrite app_nil_r. auto.
    + destruct (H1 (child ic key (dec i))) as [N1 E1].
      { unfold child. intros H. apply fold_nil in H. destruct key; [contradiction NE; reflexivity|discriminate H]. }
      { unfold child. apply fold_idem. }
      set (items' := match x with Scalar _ => dset (key ++ u "." ++ dec i) x items | _ => dupdate items (flatten_value ic (child ic key (dec i)) x) end).
      assert (EQ : items' = dupdate items (flatten_value ic (child ic key (dec i)) x)).
      { unfold items'. destruct x as [t| |]; [|reflexivity|reflexivity]. cbn [flatten_value]. unfold dupdate. cbn [fold_left fst snd]. f_equal. unfold child. destruct key as [|c key]; [contradiction NE; reflexivity|].
        rewrite !fold_app, FK, (digits_fold ic (dec i)) by apply dec_digits. f_equal. f_equal. destruct ic; reflexivity. }
      specialize (IHl (i + 1)%N items' (acc ++ named ic key (map (fun p => (dec i :: fst p, snd p)) (leaves x)))).
      cbn zeta in IHl |- *. fold items'. destruct IHl as [I1 I2].
      * rewrite EQ. apply NoDup_dupdate. exact ND.
      * intros n. rewrite EQ. rewrite dget_dupdate_last, (last_nodup _ _ N1), E1, E, last_app, named_child by exact NE. unfold named. rewrite map_map. cbn [fst snd]. reflexivity.
      * split; [exact I1|]. intros n. rewrite I2. unfold named. rewrite map_app, app_assoc. reflexivity.
Qed.

(** ** Expansion *)
Lemma take_stop (p : N -> bool) a c r : forallb p a = true -> p c = false -> take_while p (a ++ c :: r) = (a, c :: r).
Proof. intros A C. induction a as [|x a IH]; cbn [app take_while]; [rewrite C; reflexivity|]. cbn [forallb] in A. apply andb_true_iff in A as [A1 A2]. rewrite A1, IH by exact A2. reflexivity. Qed.
Lemma take_end (p : N -> bool) a : forallb p a = true -> take_while p a = (a, []).
Proof. intros A. induction a as [|x a IH]; [reflexivity|]. cbn [forallb] in A. apply andb_true_iff in A as [A1 A2]. cbn [take_while]. rewrite A1, IH by exact A2. reflexivity. Qed.
Lemma take_name (p : N -> bool) a r : forallb p a = true -> match r with [] => True | c :: _ => p c = false end -> take_while p (a ++ r) = (a, r).
Proof. intros A R. destruct r as [|c r]; [rewrite app_nil_r; apply take_end; exact A|apply take_stop; assumption]. Qed.
Lemma no_char c (s : str) : ~ In c s -> forallb (fun x => negb (N.eqb x c)) s = true.
Proof. intros H. apply forallb_forall. intros x I. destruct (N.eqb_spec x c) as [->|]; [contradiction|reflexivity]. Qed.
Section Words.
Context (word : N -> bool) (UW : usual_words word).
Lemma ascii_name c : (c < 128)%N -> name_char word c = is_word c || N.eqb c 45 || N.eqb c 46.
Proof. intros H. unfold name_char. rewrite (proj1 UW) by exact H. reflexivity. Qed.
Lemma braced_reference n d rest : is_name word n -> match d with Some d => ~ In 10%N d /\ ~ In 125%N d | None => True end ->
  exists r, u "${" ++ n ++ match d with Some d => u "|" ++ d ++ u "}" | None => u "}" end ++ rest = 36%N :: r
    /\ reference word r = Some (n, match d with Some [] => None | _ => d end, rest).
Proof.
  intros [NE F] D. exists (123%N :: n ++ match d with Some d => u "|" ++ d ++ u "}" | None => u "}" end ++ rest). split; [reflexivity|]. cbn [reference].
  fold (name_char word) in F. destruct d as [d|].
  - change ((u "|" ++ d ++ u "}") ++ rest) with (124%N :: (d ++ u "}") ++ rest). rewrite take_stop by (try exact F; apply ascii_name; reflexivity). rewrite <- app_assoc. change (u "}" ++ rest) with (125%N :: rest).
    destruct n as [|c n]; [contradiction NE; reflexivity|]. destruct D as [D1 D2]. rewrite take_stop; [destruct d; reflexivity| |reflexivity].
    apply forallb_forall. intros x I. unfold not_newline. destruct (N.eqb_spec x 10) as [->|]; [contradiction|]. destruct (N.eqb_spec x 125) as [->|]; [contradiction|]. reflexivity.
  - change (u "}" ++ rest) with (125%N :: rest). rewrite take_stop by (try exact F; apply ascii_name; reflexivity). destruct n; [contradiction NE; reflexivity|]. reflexivity.
Qed.
Lemma bare_reference n rest : is_name word n -> ends_name word rest -> reference word (n ++ rest) = Some (n, None, rest).
Proof.
  intros [NE F] E. fold (name_char word) in F. assert (T : take_while (name_char word) (n ++ rest) = (n, rest)).
  { apply take_name; [exact F|]. destruct rest as [|c rest]; [exact I|]. destruct E as [E _]. exact E. }
  destruct n as [|c n]; [contradiction NE; reflexivity|].
  assert (C : c <> 123%N). { intros ->. cbn [forallb] in F. apply andb_true_iff in F as [F _]. change (name_char word 123 = true) in F. rewrite ascii_name in F by reflexivity. discriminate F. }
  assert (R : reference word ((c :: n) ++ rest) = let (name, r) := take_while (name_char word) ((c :: n) ++ rest) in
      match name, r with
      | [], _ => None
      | _, 124%N :: r => let (d, rest) := take_while not_newline r in Some (name, Some d, rest)
      | _, _ => Some (name, None, r)
      end).
  { cbn [app]. unfold reference. destruct c as [|p]; [reflexivity|]. do 7 (try destruct p as [p|p|]; try reflexivity). contradiction C; reflexivity. }
  rewrite R, T. destruct rest as [|x rest]; [reflexivity|]. destruct E as [_ E]. destruct x as [|p]; [reflexivity|]. do 7 (try destruct p as [p|p|]; try reflexivity). contradiction E; reflexivity.
Qed.
Lemma stray_dollar rest : no_reference word rest -> reference word rest = None.
Proof.
  destruct rest as [|c rest]; [reflexivity|]. intros [E C]. assert (T : take_while (name_char word) (c :: rest) = ([], c :: rest)) by (cbn [take_while]; unfold name_char; rewrite E; reflexivity).
  assert (R : reference word (c :: rest) = let (name, r) := take_while (name_char word) (c :: rest) in
      match name, r with
      | [], _ => None
      | _, 124%N :: r => let (d, rest) := take_while not_newline r in Some (name, Some d, rest)
      | _, _ => Some (name, None, r)
      end).
  { unfold reference. destruct c as [|p]; [reflexivity|]. do 7 (try destruct p as [p|p|]; try reflexivity). contradiction C; reflexivity. }
  rewrite R, T. reflexivity.
Qed.
Lemma expand_lit ic known strict s rest : ~ In 36%N s -> forall fuel fuel', (length s + fuel' <= fuel)%nat -> 
  (forall f, (fuel' <= f)%nat -> expand_fuel word f ic known strict rest = expand_fuel word fuel' ic known strict rest) ->
  expand_fuel word fuel ic known strict (s ++ rest) = match expand_fuel word fuel' ic known strict rest with Some t => Some (s ++ t) | None => None end.
Proof.
  induction s as [|c s IH]; intros NI fuel fuel' L ST.
  - cbn [app]. rewrite ST by (cbn in L; lia). destruct (expand_fuel word fuel' ic known strict rest); reflexivity.
  - cbn [length] in L. destruct fuel as [|fuel]; [lia|]. cbn [app expand_fuel]. destruct (N.eqb_spec c 36) as [->|_]; [contradiction NI; left; reflexivity|].
    rewrite (IH (fun I => NI (or_intror I)) fuel fuel') by (lia || exact ST). destruct (expand_fuel word fuel' ic known strict rest); reflexivity.
Qed.
Definition nonempty_default (p : piece) : Prop := match p with Braced _ (Some []) => False | _ => True end.
Lemma expand_pieces ic known strict ps : good_pieces word ps -> Forall nonempty_default ps ->
  forall fuel, (length (pieces_text ps) < fuel)%nat -> expand_fuel word fuel ic known strict (pieces_text ps) = pieces_value ic strict known ps.
Proof.
  induction ps as [|p ps IH]; intros G F fuel L.
  - destruct fuel; reflexivity.
  - inversion F as [|? ? F1 F2]; subst. unfold pieces_text in *. cbn [map concat] in L |- *. rewrite app_length in L. fold (pieces_text ps) in *. destruct p as [s|n d|n|]; cbn [good_pieces] in G; cbn [pieces_value].
    + destruct G as [G1 G2]. cbn [piece_text] in L |- *. rewrite (expand_lit ic known strict s (pieces_text ps) G1 fuel (S (length (pieces_text ps)))).
      * cbn [piece_value]. rewrite IH by (assumption || lia). reflexivity.
      * lia.
      * intros f H. rewrite !IH by (assumption || lia). reflexivity.
    + destruct G as (G1 & G2 & G3). destruct (braced_reference n d (pieces_text ps) G1 G2) as (r & E1 & E2).
      assert (ET : piece_text (Braced n d) ++ pieces_text ps = 36%N :: r) by (rewrite <- E1; destruct d; cbn [piece_text]; rewrite <- !app_assoc; reflexivity).
      rewrite ET. destruct fuel as [|fuel]; [lia|]. cbn [expand_fuel N.eqb Pos.eqb]. rewrite E2.
      assert (LT : (2 <= length (piece_text (Braced n d)))%nat) by (destruct d; cbn; lia).
      rewrite IH by (assumption || lia). cbn [piece_value]. unfold expand_variable. destruct d as [[|x d]|]; [contradiction F1| |]; reflexivity.
    + destruct G as (G1 & G2 & G3). cbn [piece_text] in L |- *. change ((u "$" ++ n) ++ pieces_text ps) with (36%N :: n ++ pieces_text ps). destruct fuel as [|fuel]; [lia|]. cbn [expand_fuel N.eqb Pos.eqb].
      rewrite bare_reference by assumption. assert (LT : (1 <= length (u "$" ++ n))%nat) by (cbn; lia). rewrite IH by (assumption || lia). reflexivity.
    + destruct G as (G1 & G2). cbn [piece_text] in L |- *. change (u "$" ++ pieces_text ps) with (36%N :: pieces_text ps). destruct fuel as [|fuel]; [lia|]. cbn [expand_fuel N.eqb Pos.eqb].
      rewrite stray_dollar by assumption. change (length (u "$")) with 1%nat in L. rewrite IH by (assumption || lia). cbn [piece_value]. destruct (pieces_value ic strict known ps); reflexivity.
Qed.

(** ** Lines *)
Context (digit : N -> bool).
Definition raw_value (q : str) (v : list piece) (trail : str) : str := q ++ pieces_text v ++ q ++ trail.
Fixpoint raw (ls : list line) : list (str * str) :=
  match ls with [] => [] | Assign n _ _ q v trail :: r => (n, raw_value q v trail) :: raw r | _ :: r => raw r end.
Definition solid_value (l : line) : Prop := match l with Assign _ _ _ q v _ => q ++ pieces_text v <> [] | _ => True end.
Lemma skip_line s rest : ~ In 10%N s -> forall fuel, (length (s ++ rest) < fuel)%nat ->
  exists f, (length rest < f)%nat /\ assignments_fuel word digit fuel false (s ++ rest) = assignments_fuel word digit f false rest.
Proof.
  induction s as [|c s IH]; intros NI fuel L; [exists fuel; auto|]. cbn [app length] in L. destruct fuel as [|fuel]; [lia|]. cbn [app assignments_fuel].
  destruct (N.eqb_spec c 10) as [->|_]; [contradiction NI; left; reflexivity|]. apply IH; [intros I; apply NI; right; exact I|lia].
Qed.
Lemma assignment_no c s : name_char word c = false -> assignment word digit (c :: s) = None.
Proof. intros H. unfold assignment. cbn [take_while]. rewrite H. reflexivity. Qed.
Lemma lstrip_spaces s r : spaces s -> match r with [] => True | c :: _ => is_space c = false end -> lstrip_by is_space (s ++ r) = r.
Proof.
  intros S R. induction s as [|c s IH]; [destruct r as [|c r]; [reflexivity|]; cbn [app lstrip_by]; rewrite R; reflexivity|].
  cbn [app lstrip_by]. rewrite (proj1 (S c (or_introl eq_refl))). apply IH. intros x I. apply S. right. exact I.
Qed.
Lemma spaces_no_newline s : spaces s -> ~ In 10%N s.
Proof. intros S I. destruct (S _ I) as [_ H]. apply H. reflexivity. Qed.
Lemma space_no_name c : is_space c = true -> name_char word c = false.
Proof.
  intros H. unfold name_char. rewrite (proj2 UW c H). cbn. destruct (N.eqb_spec c 45) as [->|_]; [discriminate H|]. destruct (N.eqb_spec c 46) as [->|_]; [discriminate H|]. reflexivity.
Qed.
Lemma quote_cases q : q = [] \/ q = [34%N] \/ q = [39%N] -> ~ In 10%N q.
Proof. intros [-> | [-> | -> ]] I; cbn in I; repeat destruct I as [I|I]; try discriminate I; exact I. Qed.
Lemma assign_match n pre post q v trail rest : good_line word digit (Assign n pre post q v trail) -> q ++ pieces_text v <> [] ->
  match rest with [] => True | c :: _ => c = 10%N end ->
  assignment word digit (line_text (Assign n pre post q v trail) ++ rest) = Some (n, raw_value q v trail, rest).
Proof.
  intros ((NE & F) & DG & SP & SO & ST & Q & GP & NN & ED) NV R. unfold assignment. cbn [line_text]. fold (name_char word) in F. rewrite <- !app_assoc. change (u "=") with [61%N]. cbn [app].
  rewrite (take_name (name_char word) n) by (first [exact F| destruct pre as [|c pre]; cbn [app]; [apply ascii_name; reflexivity|apply space_no_name; apply SP; left; reflexivity]]).
  destruct n as [|c n]; [contradiction NE; reflexivity|]. cbn [hd] in DG. rewrite DG.
  rewrite (lstrip_spaces pre (61%N :: _)) by (exact SP || reflexivity).
  assert (FN : forall x r, q ++ pieces_text v = x :: r -> is_space x = false).
  { intros x r E. destruct Q as [-> | [-> | -> ]]; cbn [app] in E; [|injection E as <- _; reflexivity|injection E as <- _; reflexivity]. destruct (ED x) as [H _]; [left; rewrite E; reflexivity|exact H]. }
  rewrite lstrip_spaces.
  - assert (T : take_while not_newline (q ++ pieces_text v ++ q ++ trail ++ rest) = (q ++ pieces_text v ++ q ++ trail, rest)).
    { rewrite !app_assoc. apply take_name; [|destruct rest as [|x rest]; [exact I|rewrite R; reflexivity]]. rewrite <- !app_assoc. unfold not_newline.
      rewrite !forallb_app, !(no_char 10) by (exact NN || (apply quote_cases; exact Q) || (apply spaces_no_newline; exact ST)). reflexivity. }
    rewrite T. reflexivity.
  - exact SO.
  - rewrite app_assoc. destruct (q ++ pieces_text v) as [|x r] eqn:E; [contradiction NV; reflexivity|]. cbn [app]. exact (FN x r eq_refl).
Qed.
Lemma file_cons l ls : file_text (l :: ls) = line_text l ++ match ls with [] => [] | _ => 10%N :: file_text ls end.
Proof. unfold file_text. destruct ls; cbn [map join]; [rewrite app_nil_r|]; reflexivity. Qed.
Lemma lines_raw ls : Forall (good_line word digit) ls -> Forall solid_value ls ->
  forall fuel, (length (file_text ls) < fuel)%nat -> assignments_fuel word digit fuel true (file_text ls) = raw ls.
Proof.
  induction ls as [|l ls IH]; intros G S fuel L; [destruct fuel as [|fuel]; [inversion L|]; reflexivity|].
  inversion G as [|? ? G1 G2]; inversion S as [|? ? S1 S2]; subst. rewrite file_cons in *. set (rest := match ls with [] => [] | _ => 10%N :: file_text ls end) in *.
  assert (NEXT : forall f, (length rest < f)%nat -> assignments_fuel word digit f false rest = raw ls).
  { intros f Lf. unfold rest in *. destruct ls as [|l2 ls2]; [destruct f; reflexivity|]. destruct f as [|f]; [inversion Lf|]. cbn [assignments_fuel N.eqb Pos.eqb]. apply IH; [exact G2|exact S2|]. cbn [length] in Lf. lia. }
  assert (R : match rest with [] => True | c :: _ => c = 10%N end) by (unfold rest; destruct ls; [exact I|reflexivity]).
  assert (SKIP : forall c s, ~ In 10%N (c :: s) -> assignment word digit (c :: s ++ rest) = None -> (length (c :: s ++ rest) < fuel)%nat -> assignments_fuel word digit fuel true (c :: s ++ rest) = raw ls).
  { intros c s NI NC Lf. destruct fuel as [|f]; [inversion Lf|]. cbn [assignments_fuel]. rewrite NC. destruct (N.eqb_spec c 10) as [->|_]; [contradiction NI; left; reflexivity|].
    destruct (skip_line s rest (fun I => NI (or_intror I)) f) as (f2 & L2 & ->); [cbn [length] in Lf; lia|]. apply NEXT. exact L2. }
  destruct l as [n pre post q v trail|s|s|c s].
  - destruct fuel as [|f]; [inversion L|]. cbn [raw assignments_fuel]. rewrite (assign_match n pre post q v trail rest G1 S1 R). f_equal. apply NEXT.
    rewrite app_length in L. assert (1 <= length (line_text (Assign n pre post q v trail)))%nat; [|lia]. destruct G1 as ((NE & _) & _). cbn [line_text]. destruct n; [contradiction NE; reflexivity|]. cbn. lia.
  - cbn [line_text raw] in *. change ((u "#" ++ s) ++ rest) with (35%N :: s ++ rest) in *. apply SKIP; [|apply assignment_no; apply ascii_name; reflexivity|exact L]. intros [E|I]; [discriminate E|exact (G1 I)].
  - cbn [line_text raw] in *. destruct s as [|c s].
    + cbn [app] in *. unfold rest in *. destruct ls as [|l2 ls2]; [destruct fuel as [|f]; [inversion L|]; reflexivity|]. destruct fuel as [|f]; [inversion L|]. cbn [assignments_fuel]. rewrite assignment_no by (apply space_no_name; reflexivity).
      cbn [N.eqb Pos.eqb]. apply IH; [exact G2|exact S2|]. cbn [length] in L. lia.
    + cbn [app] in *. apply SKIP; [apply spaces_no_newline; exact G1|apply assignment_no; apply space_no_name; exact (proj1 (G1 c (or_introl eq_refl)))|exact L].
  - cbn [line_text raw app] in *. destruct G1 as [G1 NI]. apply SKIP; [exact NI| |exact L]. destruct G1 as [G1|G1]; [apply assignment_no; exact G1|].
    unfold assignment. cbn [take_while]. destruct (name_char word c); [|reflexivity]. destruct (take_while (name_char word) (s ++ rest)). rewrite G1. reflexivity.
Qed.
Lemma strip_value q v trail : spaces trail -> (q = [] \/ q = [34%N] \/ q = [39%N]) ->
  (forall c, hd_error (pieces_text v) = Some c \/ hd_error (rev (pieces_text v)) = Some c -> solid_edge c) ->
  strip_by (fun c => N.eqb c 34 || N.eqb c 39) (strip (raw_value q v trail)) = pieces_text v.
Proof.
  intros ST Q ED. set (t := pieces_text v) in *. assert (E1 : strip (raw_value q v trail) = q ++ t ++ q).
  { unfold strip, raw_value. fold t. replace (q ++ t ++ q ++ trail) with ([] ++ (q ++ t ++ q) ++ trail) by (cbn [app]; rewrite <- !app_assoc; reflexivity).
    apply strip_by_pad.
    - reflexivity.
    - apply forallb_forall. intros c I. exact (proj1 (ST c I)).
    - destruct Q as [-> | [-> | -> ]]; cbn [app]; [|reflexivity|reflexivity]. rewrite app_nil_r. destruct t as [|c t']; [exact I|]. apply (ED c). left. reflexivity.
    - rewrite !rev_app_distr. destruct Q as [-> | [-> | -> ]]; cbn [rev app]; [|reflexivity|reflexivity]. rewrite app_nil_r. destruct (rev t) as [|c t']; [exact I|]. apply (ED c). right. reflexivity. }
  rewrite E1. apply strip_by_pad.
  - destruct Q as [-> | [-> | -> ]]; reflexivity.
  - destruct Q as [-> | [-> | -> ]]; reflexivity.
  - destruct t as [|c t']; [exact I|]. destruct (ED c (or_introl eq_refl)) as (_ & H1 & H2). destruct (N.eqb_spec c 34); [contradiction|]. destruct (N.eqb_spec c 39); [contradiction|]. reflexivity.
  - destruct (rev t) as [|c t']; [exact I|]. destruct (ED c (or_intror eq_refl)) as (_ & H1 & H2). destruct (N.eqb_spec c 34); [contradiction|]. destruct (N.eqb_spec c 39); [contradiction|]. reflexivity.
Qed.
Definition full_defaults (l : line) : Prop := match l with Assign _ _ _ _ v _ => Forall nonempty_default v | _ => True end.
Lemma read_lines ic strict os ls : forall vars, Forall (good_line word digit) ls -> Forall full_defaults ls ->
  read_env word ic strict os vars (raw ls) = file_meaning ic strict os vars ls.
Proof.
  induction ls as [|l ls IH]; intros vars G D; [reflexivity|]. inversion G as [|? ? G1 G2]; inversion D as [|? ? D1 D2]; subst. destruct l as [n pre post q v trail|s|s|c s]; cbn [raw file_meaning]; [|apply IH; assumption..].
  destruct G1 as (NM & DG & SP & SO & ST & Q & GP & NN & ED). cbn [read_env]. rewrite strip_value by assumption. unfold expand. rewrite expand_pieces by (try assumption; lia).
  destruct (pieces_value _ _ _ v); [|reflexivity]. rewrite andb_comm. destruct (strict && _); [reflexivity|]. apply IH; assumption.
Qed.
End Words.
