(** Proofs about multipart parsing. *)
From Verif Require Import PyStr PyStrFacts Utf8 MultipartModel MultipartSpec.

(** ** Finding *)
Definition first_at (p s x : str) : Prop := forall x' y', s = x' ++ p ++ y' -> length x <= length x'.

Lemma app_split {A} (a b c d : list A) : a ++ b = c ++ d -> length a <= length c -> exists t, c = a ++ t /\ b = t ++ d.
Proof.
  revert c. induction a as [|x a IH]; intros c E L; [exists c; split; [reflexivity | exact E]|].
  destruct c as [|y c]; [cbn in L; lia|]. cbn [app] in E. injection E as -> E. cbn in L.
  destruct (IH c E ltac:(lia)) as (t & -> & ->). exists t. split; reflexivity.
Qed.

Lemma firstn_app_exact {A} (a b : list A) n : length a = n -> firstn n (a ++ b) = a.
Proof. intros <-. rewrite firstn_app, Nat.sub_diag, firstn_all. cbn. apply app_nil_r. Qed.
Lemma skipn_app_exact {A} (a b : list A) n : length a = n -> skipn n (a ++ b) = b.
Proof. intros <-. rewrite skipn_app, Nat.sub_diag, skipn_all. reflexivity. Qed.

Lemma find_decomp p s i : find p s = Some i -> exists x y, s = x ++ p ++ y /\ length x = i /\ first_at p s x.
Proof.
  intros H. destruct (find_some _ _ _ H) as (E & F & L).
  exists (firstn i s), (skipn (i + length p) s). split; [exact E|].
  assert (Li : length (firstn i s) = i) by (apply firstn_length_le; lia). split; [exact Li|].
  intros x' y' E'. rewrite Li. destruct (Nat.le_gt_cases i (length x')) as [|G]; [assumption|].
  specialize (F _ G). rewrite E', skipn_app_exact, prefixb_app in F by reflexivity. discriminate F.
Qed.

Lemma find_first p x y : p <> [] -> first_at p (x ++ p ++ y) x -> find p (x ++ p ++ y) = Some (length x).
Proof.
  intros Hp F. destruct (find p (x ++ p ++ y)) as [i|] eqn:E.
  - destruct (find_decomp _ _ _ E) as (x' & y' & E' & <- & F').
    f_equal. apply Nat.le_antisymm; [exact (F' x y eq_refl) | exact (F x' y' E')].
  - exfalso. exact (find_none _ _ E x y eq_refl).
Qed.

Lemma find_miss p s : (forall x y, s <> x ++ p ++ y) -> find p s = None.
Proof.
  intros H. destruct (find p s) as [i|] eqn:E; [|reflexivity].
  destruct (find_decomp _ _ _ E) as (x & y & E' & _). exfalso. exact (H x y E').
Qed.

(** A delimiter whose first character does not come back is found right after a text without it. *)
Lemma first_at_after c p x y : ~ In c p -> ~ occurs (c :: p) x -> first_at (c :: p) (x ++ (c :: p) ++ y) x.
Proof.
  intros Hc Hx x' y' E. destruct (Nat.le_gt_cases (length x) (length x')) as [|G]; [assumption|exfalso].
  symmetry in E. destruct (app_split _ _ _ _ E ltac:(lia)) as (t & -> & E2).
  rewrite app_length in G. destruct t as [|d t]; [cbn in G; lia|].
  cbn [app] in E2. injection E2 as <- E2.
  destruct (Nat.le_gt_cases (length p) (length t)) as [L|L].
  - destruct (app_split _ _ _ _ E2 L) as (t' & -> & _). apply Hx. exists x', t'. reflexivity.
  - symmetry in E2. destruct (app_split _ _ _ _ E2 ltac:(lia)) as (t' & -> & E3).
    rewrite app_length in L. destruct t' as [|f t']; [cbn in L; lia|]. cbn [app] in E3. injection E3 as <- _.
    apply Hc, in_or_app. right. left. reflexivity.
Qed.

Lemma first_at_cr x y : ~ In 13%N x -> first_at crlf (x ++ crlf ++ y) x.
Proof.
  intros H. apply (first_at_after 13 [10%N]); [intros [X|[]]; discriminate X|].
  intros (a & b & ->). apply H, in_or_app. right. left. reflexivity.
Qed.

(** ** Runs *)
Definition run' (bd : str) (ph : phase) (hs : dict str) (buf : str) : wout := run (S (length buf)) bd ph hs buf.

Lemma drop_crlf_length b : length (drop_crlf b) <= length b.
Proof. unfold drop_crlf. destruct (prefixb crlf b); [rewrite skipn_length|]; lia. Qed.

Lemma find_len p s i : find p s = Some i -> i + length p <= length s.
Proof. intros H. apply find_some in H. tauto. Qed.

Lemma run_fuel bd : forall n m ph hs buf, length buf < n -> length buf < m -> run n bd ph hs buf = run m bd ph hs buf.
Proof.
  induction n as [|n IH]; intros m ph hs buf Hn Hm; [lia|]. destruct m as [|m]; [lia|]. cbn [run].
  destruct ph.
  - destruct (find crlf buf) as [i|] eqn:E; [|reflexivity]. apply find_len in E. cbn [length crlf] in E.
    assert (L : length (skipn (i + 2) buf) + 2 <= length buf) by (rewrite skipn_length; lia).
    destruct (prefixb bd (firstn (i + 2) buf)); [destruct (prefixb (term bd) (firstn (i + 2) buf)); [reflexivity|]|];
      rewrite (IH m) by lia; reflexivity.
  - destruct (find crlf buf) as [i|] eqn:E; [|reflexivity]. apply find_len in E. cbn [length crlf] in E.
    assert (L : length (skipn (i + 2) buf) + 2 <= length buf) by (rewrite skipn_length; lia).
    destruct (seqb (firstn (i + 2) buf) crlf); [rewrite (IH m) by lia; reflexivity|].
    destruct (split1 58 (firstn (i + 2) buf)) as [(name, val)|]; [|reflexivity]. apply IH; lia.
  - destruct (find (crlf ++ bd) buf) as [i|] eqn:E; [|reflexivity]. apply find_len in E. rewrite app_length in E. cbn [length crlf] in E.
    destruct (prefixb (term bd) (skipn (i + 2) buf)); [reflexivity|].
    assert (L : length (drop_crlf (skipn (length bd) (skipn (i + 2) buf))) + 2 <= length buf).
    { pose proof (drop_crlf_length (skipn (length bd) (skipn (i + 2) buf))). rewrite !skipn_length in H. lia. }
    rewrite (IH m) by lia. reflexivity.
Qed.

Lemma run_S n bd ph hs buf : length buf < n -> run n bd ph hs buf = run' bd ph hs buf.
Proof. intros H. apply run_fuel; [exact H | lia]. Qed.

Lemma run'_wait bd ph hs buf : ph <> Bod -> find crlf buf = None -> run' bd ph hs buf = ([], WWait, (ph, hs, buf)).
Proof. intros Hp E. unfold run'. cbn [run]. rewrite E. destruct ph; [reflexivity | reflexivity | congruence]. Qed.

Lemma line_split x rest i : length x = i -> firstn (i + 2) (x ++ crlf ++ rest) = x ++ crlf /\ skipn (i + 2) (x ++ crlf ++ rest) = rest.
Proof.
  intros H. rewrite app_assoc. assert (length (x ++ crlf) = i + 2) by (rewrite app_length; cbn; lia).
  split; [apply firstn_app_exact | apply skipn_app_exact]; assumption.
Qed.

Lemma run'_pre bd hs x rest : first_at crlf (x ++ crlf ++ rest) x ->
  run' bd Pre hs (x ++ crlf ++ rest) =
  if prefixb bd (x ++ crlf) then
    if prefixb (term bd) (x ++ crlf) then ([EEnd], WEnd, (Pre, hs, rest)) else emit [EBegin] (run' bd Hdr hs rest)
  else run' bd Pre hs rest.
Proof.
  intros F. unfold run' at 1. cbn [run]. rewrite (find_first crlf x rest) by (discriminate || exact F).
  destruct (line_split x rest _ eq_refl) as (-> & ->).
  assert (L : length rest < length (x ++ crlf ++ rest)) by (rewrite !app_length; cbn; lia).
  rewrite !run_S by exact L. reflexivity.
Qed.

Lemma run'_hdr bd hs x rest : first_at crlf (x ++ crlf ++ rest) x ->
  run' bd Hdr hs (x ++ crlf ++ rest) =
  if seqb (x ++ crlf) crlf then emit (emit_headers hs) (run' bd Bod hs rest)
  else match split1 58 (x ++ crlf) with
       | None => ([], WBad, (Hdr, hs, rest))
       | Some (name, val) => run' bd Hdr (dset (lower (strip name)) (strip val) hs) rest
       end.
Proof.
  intros F. unfold run' at 1. cbn [run]. rewrite (find_first crlf x rest) by (discriminate || exact F).
  destruct (line_split x rest _ eq_refl) as (-> & ->).
  assert (L : length rest < length (x ++ crlf ++ rest)) by (rewrite !app_length; cbn; lia).
  rewrite !run_S by exact L. destruct (split1 58 (x ++ crlf)) as [(name, val)|]; [rewrite run_S by exact L|]; reflexivity.
Qed.

Lemma run'_bod_wait bd hs buf : find (crlf ++ bd) buf = None -> run' bd Bod hs buf = (data_ev buf, WWait, (Bod, hs, [])).
Proof. intros E. unfold run'. cbn [run]. rewrite E. reflexivity. Qed.

Lemma run'_bod bd hs x y : first_at (crlf ++ bd) (x ++ (crlf ++ bd) ++ y) x ->
  run' bd Bod hs (x ++ (crlf ++ bd) ++ y) =
  if prefixb (u "--") y then (data_ev x ++ [EPartEnd; EEnd], WEnd, (Bod, hs, drop_crlf (skipn 2 y)))
  else emit (data_ev x ++ [EPartEnd; EBegin]) (run' bd Hdr [] (drop_crlf y)).
Proof.
  intros F. unfold run' at 1. cbn [run]. rewrite (find_first (crlf ++ bd) x y) by (discriminate || exact F).
  assert (E2 : skipn (length x + 2) (x ++ (crlf ++ bd) ++ y) = bd ++ y).
  { rewrite <- app_assoc, app_assoc. apply skipn_app_exact. rewrite app_length. reflexivity. }
  assert (E1 : firstn (length x) (x ++ (crlf ++ bd) ++ y) = x) by (apply firstn_app_exact; reflexivity).
  rewrite E1, E2.
  assert (P : prefixb (term bd) (bd ++ y) = prefixb (u "--") y).
  { unfold term. clear. induction bd as [|c bd IH]; [reflexivity|]. cbn [app prefixb]. rewrite N.eqb_refl. exact IH. }
  rewrite P. assert (E3 : skipn (length (term bd)) (bd ++ y) = skipn 2 y).
  { unfold term. rewrite app_length, Nat.add_comm. rewrite <- skipn_skipn. f_equal. apply skipn_app_exact. reflexivity. }
  rewrite E3, (skipn_app_exact bd y) by reflexivity.
  destruct (prefixb (u "--") y); [reflexivity|].
  rewrite run_S; [reflexivity|]. pose proof (drop_crlf_length y). rewrite !app_length. cbn. lia.
Qed.

(** ** Events, one at a time with the files written at once *)
Definition flush_res (r : ast + merr) : ast + merr := match r with inl s => inl (write_file_data s) | inr x => inr x end.
Fixpoint evs_now (e : env) (s : ast) (xs : list ev) : ast + merr :=
  match xs with
  | [] => inl s
  | x :: r => match flush_res (on_ev e s x) with inl s' => evs_now e s' r | inr x => inr x end
  end.
Definition flushed (s : ast) : Prop := a_write s = [] /\ a_finish s = [].

Lemma flush_flushed s : flushed s -> write_file_data s = s.
Proof. intros (H1 & H2). unfold write_file_data. rewrite H1, H2. destruct s; cbn in *; subst; reflexivity. Qed.
Lemma flushed_flush s : flushed (write_file_data s).
Proof. split; reflexivity. Qed.

Lemma upd_length {A} (f : A -> A) l : forall i, length (upd i f l) = length l.
Proof. induction l as [|x l IH]; intros [|i]; cbn; auto. Qed.
Lemma upd_app {A} (f : A -> A) l m : forall i, i < length l -> upd i f (l ++ m) = upd i f l ++ m.
Proof. induction l as [|x l IH]; intros [|i] H; cbn in *; try lia; auto. f_equal. apply IH. lia. Qed.
Lemma upd_comm {A} (f g : A -> A) l : forall i j, i <> j -> upd i f (upd j g l) = upd j g (upd i f l).
Proof. induction l as [|x l IH]; intros [|i] [|j] H; cbn; auto; try congruence. f_equal. apply IH. congruence. Qed.
Lemma upd_upd {A} (f g : A -> A) l : forall i, upd i f (upd i g l) = upd i (fun x => f (g x)) l.
Proof. induction l as [|x l IH]; intros [|i]; cbn; auto. f_equal. apply IH. Qed.

Definition writes (ws : list (nat * str)) (fs : list file) : list file := fold_left (fun fs w => upd (fst w) (file_write (snd w)) fs) ws fs.
Definition seeks (is : list nat) (fs : list file) : list file := fold_left (fun fs i => upd i file_seek0 fs) is fs.
Lemma writes_length ws : forall fs, length (writes ws fs) = length fs.
Proof. induction ws as [|w ws IH]; intros fs; [reflexivity|]. unfold writes in *. cbn [fold_left]. rewrite IH. apply upd_length. Qed.
Lemma seeks_length is : forall fs, length (seeks is fs) = length fs.
Proof. induction is as [|w is IH]; intros fs; [reflexivity|]. unfold seeks in *. cbn [fold_left]. rewrite IH. apply upd_length. Qed.
Lemma writes_app ws m : forall fs, (forall w, In w ws -> fst w < length fs) -> writes ws (fs ++ m) = writes ws fs ++ m.
Proof.
  induction ws as [|w ws IH]; intros fs H; [reflexivity|]. unfold writes in *. cbn [fold_left].
  rewrite upd_app by (apply H; left; reflexivity). apply IH. intros x Hx. rewrite upd_length. apply H. right. exact Hx.
Qed.
Lemma seeks_app is m : forall fs, (forall w, In w is -> w < length fs) -> seeks is (fs ++ m) = seeks is fs ++ m.
Proof.
  induction is as [|w is IH]; intros fs H; [reflexivity|]. unfold seeks in *. cbn [fold_left].
  rewrite upd_app by (apply H; left; reflexivity). apply IH. intros x Hx. rewrite upd_length. apply H. right. exact Hx.
Qed.
Lemma seeks_upd is i f : forall fs, ~ In i is -> upd i f (seeks is fs) = seeks is (upd i f fs).
Proof.
  induction is as [|w is IH]; intros fs H; [reflexivity|]. unfold seeks in *. cbn [fold_left].
  rewrite IH by (intros X; apply H; right; exact X). f_equal. apply upd_comm. intros ->. apply H. left. reflexivity.
Qed.

(** Pending writes and the current part point to existing files. *)
Definition inv (s : ast) : Prop :=
  (forall w, In w (a_write s) -> fst w < length (a_files s)) /\
  (forall i, In i (a_finish s) -> i < length (a_files s)) /\
  (forall i, p_file (a_part s) = Some i -> i < length (a_files s)) /\
  (forall f, In f (a_files s) -> f_pos f <= length (f_content f)).
Definition open_part (s : ast) : Prop := forall i, p_file (a_part s) = Some i -> ~ In i (a_finish s).

(** The current part may still get data. *)
Fixpoint tidy (opn : bool) (xs : list ev) : Prop :=
  match xs with
  | [] => True
  | EBegin :: r => tidy true r
  | EHeadersDone :: r => tidy true r
  | EData _ :: r => opn = true /\ tidy opn r
  | EPartEnd :: r => tidy false r
  | EHeader _ _ :: r => tidy opn r
  | EEnd :: r => tidy opn r
  end.
Fixpoint open_after (opn : bool) (xs : list ev) : bool :=
  match xs with
  | [] => opn
  | EBegin :: r | EHeadersDone :: r => open_after true r
  | EPartEnd :: r => open_after false r
  | _ :: r => open_after opn r
  end.

Lemma flush_split s : a_files (write_file_data s) = seeks (a_finish s) (writes (a_write s) (a_files s)).
Proof. reflexivity. Qed.

Lemma ast_eq a b : a_part a = a_part b -> a_items a = a_items b -> a_files a = a_files b -> a_nfiles a = a_nfiles b ->
  a_nfields a = a_nfields b -> a_write a = a_write b -> a_finish a = a_finish b -> a = b.
Proof. destruct a, b; cbn; intros; subst; reflexivity. Qed.

Lemma step_now e s x opn : inv s -> (opn = true -> open_part s) -> (match x with EData _ => opn = true | _ => True end) ->
  flush_res (on_ev e s x) = flush_res (on_ev e (write_file_data s) x).
Proof.
  intros (I1 & I2 & I3 & _) Ho Hd.
  assert (LW : length (seeks (a_finish s) (writes (a_write s) (a_files s))) = length (a_files s)) by (rewrite seeks_length; apply writes_length).
  destruct x as [|n v| |b| |]; cbn [on_ev].
  - cbn [flush_res]. f_equal.
  - cbn [flush_res]. f_equal.
  - unfold headers_done. change (a_part (write_file_data s)) with (a_part s).
    change (a_nfiles (write_file_data s)) with (a_nfiles s). change (a_nfields (write_file_data s)) with (a_nfields s).
    destruct (field_name e (header_options (p_disp (a_part s)))) as [n|x]; [|reflexivity].
    destruct (dget (u "filename") (header_options (p_disp (a_part s)))) as [fn|].
    + destruct (max_files e <? S (a_nfiles s))%nat; [reflexivity|]. destruct (user_safe_decode e fn) as [f|]; [|reflexivity].
      cbn [flush_res]. f_equal. unfold write_file_data. cbn [a_part a_items a_files a_nfiles a_nfields a_write a_finish].
      fold (writes (a_write s) (a_files s)). fold (seeks (a_finish s) (writes (a_write s) (a_files s))).
      cbn [fold_left]. rewrite LW. f_equal.
      match goal with |- fold_left _ _ (fold_left _ _ (_ ++ ?m)) = _ => set (mm := m) end.
      fold (writes (a_write s) (a_files s ++ mm)). rewrite writes_app by exact I1.
      fold (seeks (a_finish s) (writes (a_write s) (a_files s) ++ mm)). rewrite seeks_app; [reflexivity|].
      intros w Hw. rewrite writes_length. apply I2. exact Hw.
    + destruct (max_fields e <? S (a_nfields s))%nat; [reflexivity|]. reflexivity.
  - change (a_part (write_file_data s)) with (a_part s). cbn [flush_res]. f_equal.
    destruct (p_file (a_part s)) as [i|] eqn:Ei; [|reflexivity].
    unfold write_file_data, aadd_write. cbn [a_part a_items a_files a_nfiles a_nfields a_write a_finish].
    f_equal. cbn [app fold_left fst snd]. rewrite fold_left_app. cbn [fold_left fst snd].
    fold (writes (a_write s) (a_files s)). fold (seeks (a_finish s) (upd i (file_write b) (writes (a_write s) (a_files s)))).
    fold (seeks (a_finish s) (writes (a_write s) (a_files s))). symmetry. apply seeks_upd. exact (Ho Hd i Ei).
  - change (a_part (write_file_data s)) with (a_part s).
    destruct (p_file (a_part s)) as [i|] eqn:Ei.
    + cbn [flush_res]. f_equal. unfold write_file_data, aadd_item. cbn [a_part a_items a_files a_nfiles a_nfields a_write a_finish].
      f_equal. rewrite fold_left_app. reflexivity.
    + destruct (user_safe_decode e (p_data (a_part s))); [|reflexivity]. cbn [flush_res]. f_equal.
      unfold write_file_data, aadd_item. cbn [a_part a_items a_files a_nfiles a_nfields a_write a_finish]. rewrite app_nil_r. reflexivity.
  - cbn [flush_res]. f_equal.
Qed.

(** Invariants of a step. *)
Lemma upd_In {A} (f : A -> A) l : forall i x, In x (upd i f l) -> In x l \/ exists y, In y l /\ x = f y.
Proof.
  induction l as [|a l IH]; intros [|i] x; cbn; [tauto | tauto | |].
  - intros [<-|H]; [right; exists a; split; [left; reflexivity | reflexivity] | left; right; exact H].
  - intros [<-|H]; [left; left; reflexivity|]. destruct (IH i x H) as [G|(y & G & ->)]; [left; right; exact G|].
    right. exists y. split; [right; exact G | reflexivity].
Qed.
Definition sane (fs : list file) : Prop := forall f, In f fs -> f_pos f <= length (f_content f).
Lemma file_write_sane d f : f_pos f <= length (f_content f) -> f_pos (file_write d f) <= length (f_content (file_write d f)).
Proof. intros H. cbn. rewrite !app_length, firstn_length_le by exact H. lia. Qed.
Lemma sane_upd (g : file -> file) i fs : (forall f, f_pos f <= length (f_content f) -> f_pos (g f) <= length (f_content (g f))) -> sane fs -> sane (upd i g fs).
Proof. intros G H f Hf. destruct (upd_In _ _ _ _ Hf) as [X|(y & X & ->)]; [exact (H f X) | apply G, H, X]. Qed.
Lemma sane_writes ws : forall fs, sane fs -> sane (writes ws fs).
Proof.
  induction ws as [|w ws IH]; intros fs H; [exact H|]. unfold writes in *. cbn [fold_left]. apply IH.
  apply sane_upd; [apply file_write_sane | exact H].
Qed.
Lemma sane_seeks is : forall fs, sane fs -> sane (seeks is fs).
Proof.
  induction is as [|w is IH]; intros fs H; [exact H|]. unfold seeks in *. cbn [fold_left]. apply IH.
  apply sane_upd; [cbn; lia | exact H].
Qed.

Lemma inv_flush s : inv s -> inv (write_file_data s).
Proof.
  intros (_ & _ & I3 & I4). assert (L : length (a_files (write_file_data s)) = length (a_files s)) by (rewrite flush_split, seeks_length; apply writes_length).
  repeat split.
  - intros w [].
  - intros i [].
  - intros i Hi. rewrite L. apply I3. exact Hi.
  - rewrite flush_split. apply sane_seeks, sane_writes. exact I4.
Qed.

Lemma step_inv e s x s' opn : inv s -> (opn = true -> open_part s) -> on_ev e s x = inl s' ->
  inv s' /\ (open_after opn [x] = true -> open_part s').
Proof.
  intros (I1 & I2 & I3 & I4) Ho. destruct x as [|n v| |b| |]; cbn [on_ev open_after].
  - intros H. injection H as <-. split; [repeat split; try assumption; intros i Hi; discriminate Hi|].
    intros _ i Hi. discriminate Hi.
  - intros H. injection H as <-. split; [repeat split; try assumption|]. exact Ho.
  - unfold headers_done. destruct (field_name e _) as [nm|]; [|discriminate].
    destruct (dget (u "filename") _) as [fn|].
    + destruct (max_files e <? _)%nat; [discriminate|]. destruct (user_safe_decode e fn) as [f|]; [|discriminate].
      intros H. injection H as <-. cbn [a_part a_files a_write a_finish pset_file p_file].
      assert (LL : forall m : list file, length (a_files s) <= length (a_files s ++ m)) by (intros m; rewrite app_length; lia).
      split; [repeat split; cbn [a_part a_files a_write a_finish pset_file p_file]|].
      * intros w Hw. specialize (I1 w Hw). rewrite app_length. cbn. lia.
      * intros i Hi. specialize (I2 i Hi). rewrite app_length. cbn. lia.
      * intros i Hi. injection Hi as <-. rewrite app_length. cbn. lia.
      * intros g Hg. apply in_app_iff in Hg. destruct Hg as [Hg|[<-|[]]]; [exact (I4 g Hg) | cbn; lia].
      * intros _ i Hi Hf. injection Hi as <-. specialize (I2 _ Hf). lia.
    + destruct (max_fields e <? _)%nat; [discriminate|]. intros H. injection H as <-.
      split; [repeat split; cbn [a_part a_files a_write a_finish pset_file p_file]; try assumption; intros i Hi; discriminate Hi|].
      intros _ i Hi. discriminate Hi.
  - intros H. injection H as <-. destruct (p_file (a_part s)) as [i|] eqn:Ei in |- *.
    + split; [repeat split; cbn [a_part a_files a_write a_finish aadd_write]; try assumption|].
      * intros w Hw. apply in_app_iff in Hw. destruct Hw as [Hw|[<-|[]]]; [exact (I1 w Hw)|]. apply I3. exact Ei.
      * intros O. exact (Ho O).
    + split; [repeat split; cbn; try assumption; intros i Hi; congruence|]. intros O i Hi. cbn in Hi. congruence.
  - destruct (p_file (a_part s)) as [i|] eqn:Ei in |- *.
    + intros H. injection H as <-. split; [|discriminate]. repeat split; cbn [a_part a_files a_write a_finish aadd_item]; try assumption.
      intros j Hj. apply in_app_iff in Hj. destruct Hj as [Hj|[<-|[]]]; [exact (I2 j Hj) | apply I3; exact Ei].
    + destruct (user_safe_decode e (p_data (a_part s))); [|discriminate]. intros H. injection H as <-. split; [|discriminate].
      repeat split; cbn [a_part a_files a_write a_finish aadd_item]; try assumption.
      intros j Hj. rewrite app_nil_r in Hj. exact (I2 j Hj).
  - intros H. injection H as <-. split; [repeat split; assumption | exact Ho].
Qed.

Lemma evs_now_flush_eq e xs : forall s opn, inv s -> (opn = true -> open_part s) -> tidy opn xs ->
  flush_res (on_evs e s xs) = evs_now e (write_file_data s) xs.
Proof.
  induction xs as [|x xs IH]; intros s opn I Ho T; [reflexivity|]. cbn [on_evs evs_now].
  assert (Hd : match x with EData _ => opn = true | _ => True end) by (destruct x; cbn in T; tauto).
  rewrite <- (step_now e s x opn I Ho Hd). destruct (on_ev e s x) as [s'|] eqn:E; [|reflexivity]. cbn [flush_res].
  destruct (step_inv e s x s' opn I Ho E) as (I' & O').
  apply (IH s' (open_after opn [x])); [exact I' | exact O' |]. destruct x; cbn in T |- *; tauto.
Qed.

Lemma on_evs_inv e xs : forall s s' opn, inv s -> (opn = true -> open_part s) -> on_evs e s xs = inl s' ->
  inv s' /\ (open_after opn xs = true -> open_part s').
Proof.
  induction xs as [|x xs IH]; intros s s' opn I Ho; cbn [on_evs].
  - intros H. injection H as <-. split; assumption.
  - destruct (on_ev e s x) as [s1|] eqn:E; [|discriminate]. intros H.
    destruct (step_inv e s x s1 opn I Ho E) as (I1 & O1).
    destruct (IH s1 s' (open_after opn [x]) I1 O1 H) as (I2 & O2). split; [exact I2|]. intros X. apply O2. destruct x; exact X.
Qed.

(** *** Lists of events with the same effect *)
Lemma evs_now_app e xs ys : forall s, evs_now e s (xs ++ ys) = match evs_now e s xs with inl s' => evs_now e s' ys | inr x => inr x end.
Proof.
  induction xs as [|x xs IH]; intros s; [reflexivity|]. cbn [app evs_now]. destruct (flush_res (on_ev e s x)); [apply IH | reflexivity].
Qed.

Lemma evs_now_inv e xs : forall s s', inv s -> flushed s -> evs_now e s xs = inl s' -> inv s' /\ flushed s'.
Proof.
  induction xs as [|x xs IH]; intros s s' I F; cbn [evs_now].
  - intros H. injection H as <-. split; assumption.
  - destruct (on_ev e s x) as [s1|] eqn:E; [|discriminate]. cbn [flush_res].
    destruct (step_inv e s x s1 false I ltac:(discriminate) E) as (I1 & _).
    apply IH; [apply inv_flush; exact I1 | apply flushed_flush].
Qed.

Definition same (xs ys : list ev) : Prop := forall e s, inv s -> flushed s -> evs_now e s xs = evs_now e s ys.
Lemma same_refl xs : same xs xs.
Proof. intros e s _ _. reflexivity. Qed.
Lemma same_pre zs xs ys : same xs ys -> same (zs ++ xs) (zs ++ ys).
Proof.
  intros H e s I F. rewrite !evs_now_app. destruct (evs_now e s zs) as [s'|] eqn:E; [|reflexivity].
  destruct (evs_now_inv e zs s s' I F E). apply H; assumption.
Qed.
Lemma same_post zs xs ys : same xs ys -> same (xs ++ zs) (ys ++ zs).
Proof. intros H e s I F. rewrite !evs_now_app, (H e s I F). reflexivity. Qed.

Lemma skipn_skipn_app {A} n (l : list A) k : skipn n (skipn k l) = skipn (k + n) l.
Proof. rewrite skipn_skipn. f_equal. lia. Qed.

Lemma file_write_write x y f : f_pos f <= length (f_content f) -> file_write y (file_write x f) = file_write (x ++ y) f.
Proof.
  intros H. destruct f as [fn fh c p sz]. unfold file_write. cbn [f_name f_headers f_content f_pos f_size] in *.
  assert (L : length (firstn p c) = p) by (apply firstn_length_le; exact H).
  assert (L2 : length (firstn p c ++ x) = p + length x) by (rewrite app_length, L; reflexivity).
  f_equal; [|rewrite app_length; lia | rewrite app_length; lia].
  rewrite !(app_assoc (firstn p c) x). rewrite (firstn_app_exact (firstn p c ++ x)) by exact L2.
  rewrite skipn_app. rewrite (skipn_all2 (firstn p c ++ x)) by lia. rewrite L2. cbn [app].
  replace (p + length x + length y - (p + length x)) with (length y) by lia.
  rewrite skipn_skipn_app, (app_length x y), Nat.add_assoc. rewrite <- !app_assoc. reflexivity.
Qed.

Lemma upd_ext {A} (P : A -> Prop) (f g : A -> A) l : (forall x, In x l -> f x = g x) -> forall i, upd i f l = upd i g l.
Proof.
  induction l as [|a l IH]; intros H [|i]; cbn; [reflexivity | reflexivity | |].
  - rewrite (H a) by (left; reflexivity). reflexivity.
  - f_equal. apply IH. intros x Hx. apply H. right. exact Hx.
Qed.

Lemma same_data x y : same [EData (x ++ y)] [EData x; EData y].
Proof.
  intros e s (_ & _ & _ & I4) F. cbn [evs_now on_ev flush_res].
  destruct (p_file (a_part s)) as [i|] eqn:Ei.
  - change (p_file (a_part (write_file_data (aadd_write s i x)))) with (p_file (a_part s)). rewrite Ei. f_equal.
    destruct F as (F1 & F2). unfold write_file_data, aadd_write. cbn [a_part a_items a_files a_nfiles a_nfields a_write a_finish].
    rewrite F1, F2. cbn [app fold_left fst snd]. f_equal. rewrite upd_upd. symmetry. apply (upd_ext (fun _ => True)).
    intros f Hf. apply file_write_write. exact (I4 f Hf).
  - assert (FF : forall p, write_file_data (aset_part s p) = aset_part s p) by (intros p; apply flush_flushed; exact F).
    rewrite !FF. cbn [aset_part a_part pset_data p_file p_data]. rewrite Ei.
    unfold aset_part at 2. cbn [a_part a_items a_files a_nfiles a_nfields a_write a_finish].
    f_equal. symmetry. transitivity (aset_part s (pset_data (a_part s) ((p_data (a_part s) ++ x) ++ y))).
    + apply (FF (pset_data (a_part s) ((p_data (a_part s) ++ x) ++ y))).
    + rewrite <- app_assoc. reflexivity.
Qed.

Lemma same_data_ev x y : same (data_ev (x ++ y)) (data_ev x ++ data_ev y).
Proof.
  destruct x as [|a x]; [apply same_refl|]. destruct y as [|b y]; [rewrite app_nil_r; cbn [data_ev app]; apply same_refl|].
  apply (same_data (a :: x) (b :: y)).
Qed.

(** The same bytes of a part in one piece or in two: what cutting a body may change. *)
Inductive eqv : list ev -> list ev -> Prop :=
| eqv_refl xs : eqv xs xs
| eqv_data x y : eqv [EData (x ++ y)] [EData x; EData y]
| eqv_pre zs xs ys : eqv xs ys -> eqv (zs ++ xs) (zs ++ ys)
| eqv_post zs xs ys : eqv xs ys -> eqv (xs ++ zs) (ys ++ zs).
Lemma eqv_same xs ys : eqv xs ys -> same xs ys.
Proof. induction 1; [apply same_refl | apply same_data | apply same_pre; assumption | apply same_post; assumption]. Qed.
Lemma eqv_data_ev x y : eqv (data_ev (x ++ y)) (data_ev x ++ data_ev y).
Proof.
  destruct x as [|a x]; [apply eqv_refl|]. destruct y as [|b y]; [rewrite app_nil_r; cbn [data_ev app]; apply eqv_refl|].
  apply (eqv_data (a :: x) (b :: y)).
Qed.

(** *** Shape of runs *)
Lemma tidy_app xs ys : forall opn, tidy opn (xs ++ ys) <-> tidy opn xs /\ tidy (open_after opn xs) ys.
Proof. induction xs as [|x xs IH]; intros opn; cbn [app tidy open_after]; [tauto|]. destruct x; rewrite ?IH; tauto. Qed.
Lemma open_after_app xs ys : forall opn, open_after opn (xs ++ ys) = open_after (open_after opn xs) ys.
Proof. induction xs as [|x xs IH]; intros opn; [reflexivity|]. cbn [app open_after]. destruct x; apply IH. Qed.
Lemma tidy_data b : tidy true (data_ev b) /\ open_after true (data_ev b) = true.
Proof. destruct b; cbn; auto. Qed.
Lemma tidy_headers hs : tidy true (emit_headers hs) /\ open_after true (emit_headers hs) = true.
Proof. unfold emit_headers. induction hs as [|h hs IH]; cbn; [auto|]. exact IH. Qed.

Lemma run_tidy bd : forall n ph hs buf es w st, run n bd ph hs buf = (es, w, st) ->
  tidy true es /\ (w <> WEnd -> open_after true es = true).
Proof.
  induction n as [|n IH]; intros ph hs buf es w st; cbn [run]; [intros H; injection H as <- <- <-; cbn; auto|].
  assert (K : forall pre o, (let '(es, w, _) := o in tidy true es /\ (w <> WEnd -> open_after true es = true)) ->
    tidy true pre -> open_after true pre = true -> emit pre o = (es, w, st) -> tidy true es /\ (w <> WEnd -> open_after true es = true)).
  { intros pre ((es', w'), st') (T & O) T2 O2 H. cbn in H. injection H as <- <- <-. rewrite tidy_app, open_after_app, O2. tauto. }
  assert (IH' : forall ph hs buf, let '(es, w, _) := run n bd ph hs buf in tidy true es /\ (w <> WEnd -> open_after true es = true)).
  { intros ph' hs' buf'. destruct (run n bd ph' hs' buf') as ((es', w'), st') eqn:E. exact (IH _ _ _ _ _ _ E). }
  destruct ph.
  - destruct (find crlf buf) as [i|]; [|intros H; injection H as <- <- <-; cbn; auto].
    destruct (prefixb bd _); [destruct (prefixb (term bd) _)|].
    + intros H. injection H as <- <- <-. cbn. auto.
    + apply K; [apply IH' | exact I | reflexivity].
    + apply IH.
  - destruct (find crlf buf) as [i|]; [|intros H; injection H as <- <- <-; cbn; auto].
    destruct (seqb _ crlf).
    + apply K; [apply IH' | apply tidy_headers | apply tidy_headers].
    + destruct (split1 58 _) as [(name, val)|]; [apply IH | intros H; injection H as <- <- <-; cbn; auto].
  - destruct (find (crlf ++ bd) buf) as [i|].
    + destruct (prefixb (term bd) _).
      * intros H. injection H as <- <- <-. rewrite tidy_app. destruct (tidy_data (firstn i buf)) as (T1 & T2). rewrite T2. cbn. split; [tauto | congruence].
      * apply K; [apply IH' | |]; [rewrite tidy_app | rewrite open_after_app]; destruct (tidy_data (firstn i buf)) as (T1 & T2); rewrite T2; cbn; auto.
    + intros H. injection H as <- <- <-. destruct (tidy_data buf). auto.
Qed.

(** *** Cutting *)
Definition ctx (ph : phase) : str := match ph with Pre => crlf | _ => [] end.
Definition safe_at (bd c a b : str) : Prop :=
  forall x y, c ++ a ++ b = x ++ (crlf ++ bd) ++ y ->
    length (c ++ a) <= length x \/ (length x + length (crlf ++ bd) + 2 <= length (c ++ a) /\ prefixb (u "--") y = false).

Lemma safe_suffix bd t c c' a a' b : c ++ a = t ++ c' ++ a' -> safe_at bd c a b -> safe_at bd c' a' b.
Proof.
  intros E H x y E'. specialize (H (t ++ x) y).
  assert (E2 : c ++ a ++ b = (t ++ x) ++ (crlf ++ bd) ++ y).
  { rewrite app_assoc, E, <- !app_assoc, E', <- !app_assoc. reflexivity. }
  specialize (H E2). rewrite E in H. rewrite !app_length in *. destruct H as [H|(H & P)]; [left; lia | right; split; [lia | exact P]].
Qed.

Lemma prefixb_longer p a b : length p <= length a -> prefixb p (a ++ b) = prefixb p a.
Proof.
  revert a. induction p as [|c p IH]; intros a L; [destruct a; reflexivity|].
  destruct a as [|d a]; [cbn in L; lia|]. cbn [app prefixb]. rewrite IH by (cbn in L; lia). reflexivity.
Qed.
Lemma drop_crlf_app a b : 2 <= length a -> drop_crlf (a ++ b) = drop_crlf a ++ b.
Proof.
  intros L. unfold drop_crlf. rewrite prefixb_longer by exact L. destruct (prefixb crlf a); [|reflexivity].
  destruct a as [|x [|y a]]; cbn in L; try lia. reflexivity.
Qed.
Lemma drop_crlf_suffix a : exists t, a = t ++ drop_crlf a.
Proof.
  unfold drop_crlf. destruct (prefixb crlf a) eqn:E; [|exists []; reflexivity].
  apply prefixb_iff in E. destruct E as (t & ->). exists crlf. reflexivity.
Qed.
Lemma first_at_extend p x y b : p <> [] -> first_at p (x ++ p ++ y) x -> first_at p (x ++ p ++ (y ++ b)) x.
Proof.
  intros Hp F x' y' E. destruct (Nat.le_gt_cases (length x) (length x')) as [|G]; [assumption|exfalso].
  assert (E2 : (x ++ p ++ y) ++ b = (x' ++ p) ++ y') by (rewrite <- !app_assoc; exact E).
  assert (L : length (x' ++ p) <= length (x ++ p ++ y)) by (rewrite !app_length; lia).
  symmetry in E2. destruct (app_split _ _ _ _ E2 L) as (t & E3 & _). rewrite <- app_assoc in E3.
  specialize (F x' t E3). lia.
Qed.

Definition out_events (o : wout) := fst (fst o).
Definition out_status (o : wout) := snd (fst o).
Definition out_state (o : wout) := snd o.
Lemma emit_out pre o : out_events (emit pre o) = pre ++ out_events o /\ out_status (emit pre o) = out_status o /\ out_state (emit pre o) = out_state o.
Proof. destruct o as ((es, w), st). repeat split. Qed.

(** What a run on [a ++ b] does compared to one on [a]. *)
Definition cut_ok (bd : str) (b : str) (oa oab : wout) : Prop :=
  match out_status oa with
  | WEnd => False
  | WBad => out_events oab = out_events oa /\ out_status oab = WBad
  | WWait => let '(ph, hs, buf) := out_state oa in
             eqv (out_events oab) (out_events oa ++ out_events (run' bd ph hs (buf ++ b))) /\
             out_status oab = out_status (run' bd ph hs (buf ++ b))
  end.
Lemma cut_emit bd b pre oa oab : cut_ok bd b oa oab -> cut_ok bd b (emit pre oa) (emit pre oab).
Proof.
  unfold cut_ok. destruct (emit_out pre oa) as (-> & -> & ->). destruct (emit_out pre oab) as (-> & -> & _).
  destruct (out_status oa); [|tauto|].
  - destruct (out_state oa) as ((ph, hs), buf). intros (S & E). split; [|exact E]. rewrite <- app_assoc. apply eqv_pre. exact S.
  - intros (-> & ->). split; reflexivity.
Qed.

Lemma cut_lemma bd b : forall n ph hs a, length a <= n -> safe_at bd (ctx ph) a b ->
  cut_ok bd b (run' bd ph hs a) (run' bd ph hs (a ++ b)).
Proof.
  induction n as [n IH] using lt_wf_ind. intros ph hs a Hn Hs.
  assert (IHs : forall ph hs a', length a' < length a -> safe_at bd (ctx ph) a' b -> cut_ok bd b (run' bd ph hs a') (run' bd ph hs (a' ++ b))).
  { intros ph' hs' a' L S. apply (IH (length a')); [lia | lia | exact S]. }
  clear IH. destruct ph.
  - destruct (find crlf a) as [i|] eqn:E.
    + destruct (find_decomp _ _ _ E) as (x & rest & -> & _ & F).
      assert (Lr : length rest < length (x ++ crlf ++ rest)) by (rewrite !app_length; cbn; lia).
      rewrite <- !app_assoc. rewrite !run'_pre by (exact F || (apply first_at_extend; [discriminate | exact F])).
      destruct (prefixb bd (x ++ crlf)) eqn:P1; [destruct (prefixb (term bd) (x ++ crlf)) eqn:P2|].
      * exfalso. apply prefixb_iff in P2. destruct P2 as (t & P2). unfold term in P2.
        specialize (Hs [] (u "--" ++ t ++ rest ++ b)). cbn [ctx] in Hs.
        assert (E2 : crlf ++ (x ++ crlf ++ rest) ++ b = [] ++ (crlf ++ bd) ++ u "--" ++ t ++ rest ++ b).
        { cbn [app]. rewrite <- !app_assoc. f_equal. rewrite (app_assoc x), P2, <- !app_assoc. reflexivity. }
        destruct (Hs E2) as [L|(_ & L)]; [cbn in L; lia | cbn in L; discriminate L].
      * apply cut_emit. apply IHs; [exact Lr|].
        apply (safe_suffix bd (crlf ++ x ++ crlf) (ctx Pre) (ctx Hdr) (x ++ crlf ++ rest)); [|exact Hs].
        cbn [ctx app]. rewrite <- !app_assoc. reflexivity.
      * apply IHs; [exact Lr|].
        apply (safe_suffix bd (crlf ++ x) (ctx Pre) (ctx Pre) (x ++ crlf ++ rest)); [|exact Hs].
        cbn [ctx]. rewrite <- !app_assoc. reflexivity.
    + rewrite (run'_wait bd Pre hs a) by (discriminate || exact E). cbn [cut_ok out_status out_state fst snd].
      split; [apply eqv_refl | reflexivity].
  - destruct (find crlf a) as [i|] eqn:E.
    + destruct (find_decomp _ _ _ E) as (x & rest & -> & _ & F).
      assert (Lr : length rest < length (x ++ crlf ++ rest)) by (rewrite !app_length; cbn; lia).
      assert (Sr : safe_at bd [] rest b).
      { apply (safe_suffix bd (x ++ crlf) (ctx Hdr) [] (x ++ crlf ++ rest)); [|exact Hs]. cbn [ctx app]. rewrite <- !app_assoc. reflexivity. }
      rewrite <- !app_assoc. rewrite !run'_hdr by (exact F || (apply first_at_extend; [discriminate | exact F])).
      destruct (seqb (x ++ crlf) crlf).
      * apply cut_emit. apply IHs; [exact Lr | exact Sr].
      * destruct (split1 58 (x ++ crlf)) as [(name, val)|]; [apply IHs; [exact Lr | exact Sr]|].
        cbn. split; reflexivity.
    + rewrite (run'_wait bd Hdr hs a) by (discriminate || exact E). cbn [cut_ok out_status out_state fst snd].
      split; [apply eqv_refl | reflexivity].
  - destruct (find (crlf ++ bd) a) as [i|] eqn:E.
    + destruct (find_decomp _ _ _ E) as (x & y & -> & _ & F).
      destruct (Hs x (y ++ b)) as [L|(L & P)].
      { cbn [ctx app]. rewrite <- !app_assoc. reflexivity. }
      { exfalso. cbn [ctx app] in L. rewrite !app_length in L. cbn in L. lia. }
      cbn [ctx app] in L. rewrite !app_length in L. cbn [length crlf] in L.
      assert (Ly : 2 <= length y) by lia. clear L.
      rewrite prefixb_longer in P by exact Ly.
      assert (EE : (x ++ (crlf ++ bd) ++ y) ++ b = x ++ (crlf ++ bd) ++ (y ++ b)) by (rewrite <- !app_assoc; reflexivity).
      rewrite EE, !run'_bod by (exact F || (apply first_at_extend; [discriminate | exact F])).
      rewrite prefixb_longer, P, drop_crlf_app by exact Ly.
      apply cut_emit. apply IHs.
      * pose proof (drop_crlf_length y). rewrite !app_length. cbn. lia.
      * destruct (drop_crlf_suffix y) as (t & Et).
        apply (safe_suffix bd (x ++ (crlf ++ bd) ++ t) (ctx Bod) (ctx Hdr) (x ++ (crlf ++ bd) ++ y)); [|exact Hs].
        cbn [ctx app]. rewrite Et at 1. rewrite <- !app_assoc. reflexivity.
    + rewrite (run'_bod_wait bd hs a E). cbn [cut_ok out_status out_state fst snd out_events app].
      assert (NF : forall x y, a ++ b = x ++ (crlf ++ bd) ++ y -> length a <= length x).
      { intros x y Ex. destruct (Hs x y Ex) as [L|(L & _)]; [exact L|]. exfalso. cbn [ctx app] in L.
        assert (E2 : (x ++ crlf ++ bd) ++ y = a ++ b) by (rewrite Ex, <- !app_assoc; reflexivity).
        destruct (app_split _ _ _ _ E2) as (t & E3 & _); [rewrite app_length; lia|].
        rewrite <- app_assoc in E3. exact (find_none _ _ E x t E3). }
      destruct (find (crlf ++ bd) b) as [j|] eqn:Eb.
      * destruct (find_decomp _ _ _ Eb) as (x & y & -> & _ & F).
        assert (EE : a ++ x ++ (crlf ++ bd) ++ y = (a ++ x) ++ (crlf ++ bd) ++ y) by (rewrite app_assoc; reflexivity).
        assert (F2 : first_at (crlf ++ bd) ((a ++ x) ++ (crlf ++ bd) ++ y) (a ++ x)).
        { intros x' y' E'. pose proof (NF x' y' (eq_trans EE E')) as L.
          rewrite <- app_assoc in E'. destruct (app_split _ _ _ _ E' L) as (t & -> & E3). specialize (F t y' E3). rewrite !app_length. lia. }
        rewrite EE, !run'_bod by assumption. destruct (prefixb (u "--") y).
        -- cbn [out_events out_status fst snd]. split; [|reflexivity]. rewrite app_assoc. apply eqv_post, eqv_data_ev.
        -- destruct (emit_out (data_ev (a ++ x) ++ [EPartEnd; EBegin]) (run' bd Hdr [] (drop_crlf y))) as (-> & -> & _).
           destruct (emit_out (data_ev x ++ [EPartEnd; EBegin]) (run' bd Hdr [] (drop_crlf y))) as (-> & -> & _).
           split; [|reflexivity]. rewrite <- !app_assoc, (app_assoc (data_ev a) (data_ev x)). apply eqv_post, eqv_data_ev.
      * assert (NN : find (crlf ++ bd) (a ++ b) = None).
        { apply find_miss. intros x y Ex. pose proof (NF x y Ex) as L.
          destruct (app_split _ _ _ _ Ex L) as (t & -> & E3). exact (find_none _ _ Eb t y E3). }
        rewrite !run'_bod_wait by assumption. cbn [out_events out_status fst snd]. split; [apply eqv_data_ev | reflexivity].
Qed.

(** *** What is left after a run that waits *)
Lemma run_wait_state bd : forall n ph hs a, length a <= n ->
  out_status (run' bd ph hs a) = WWait ->
  let '(ph', hs', buf') := out_state (run' bd ph hs a) in
  run' bd ph' hs' buf' = ([], WWait, (ph', hs', buf')) /\ exists t, ctx ph ++ a = t ++ ctx ph' ++ buf'.
Proof.
  induction n as [n IH] using lt_wf_ind. intros ph hs a Hn.
  assert (IHs : forall ph0 t hs a' pre, length a' < length a -> ctx ph ++ a = t ++ ctx ph0 ++ a' ->
    out_status (emit pre (run' bd ph0 hs a')) = WWait ->
    let '(ph', hs', buf') := out_state (emit pre (run' bd ph0 hs a')) in
    run' bd ph' hs' buf' = ([], WWait, (ph', hs', buf')) /\ exists t, ctx ph ++ a = t ++ ctx ph' ++ buf').
  { intros ph0 t hs' a' pre L E S. destruct (emit_out pre (run' bd ph0 hs' a')) as (_ & X & ->). rewrite X in S.
    specialize (IH (length a') ltac:(lia) ph0 hs' a' (le_n _) S).
    destruct (out_state (run' bd ph0 hs' a')) as ((ph1, hs1), buf1). destruct IH as (W & t' & E2). split; [exact W|].
    exists (t ++ t'). rewrite E, E2, <- app_assoc. reflexivity. }
  assert (EN : forall o, emit [] o = o) by (intros ((? & ?) & ?); reflexivity).
  clear IH. destruct ph.
  - destruct (find crlf a) as [i|] eqn:E.
    + destruct (find_decomp _ _ _ E) as (x & rest & -> & _ & F).
      assert (Lr : length rest < length (x ++ crlf ++ rest)) by (rewrite !app_length; cbn; lia).
      rewrite !run'_pre by exact F.
      destruct (prefixb bd (x ++ crlf)); [destruct (prefixb (term bd) (x ++ crlf))|].
      * discriminate.
      * apply (IHs Hdr (crlf ++ x ++ crlf)); [exact Lr|]. cbn [ctx app]. rewrite <- !app_assoc. reflexivity.
      * rewrite <- (EN (run' bd Pre hs rest)). apply (IHs Pre (crlf ++ x)); [exact Lr|]. cbn [ctx app]. reflexivity.
    + rewrite (run'_wait bd Pre hs a) by (discriminate || exact E). cbn [out_status out_state fst snd]. intros _. split; [|exists []; reflexivity].
      apply run'_wait; [discriminate | exact E].
  - destruct (find crlf a) as [i|] eqn:E.
    + destruct (find_decomp _ _ _ E) as (x & rest & -> & _ & F).
      assert (Lr : length rest < length (x ++ crlf ++ rest)) by (rewrite !app_length; cbn; lia).
      rewrite !run'_hdr by exact F. destruct (seqb (x ++ crlf) crlf).
      * apply (IHs Bod (x ++ crlf)); [exact Lr|]. cbn [ctx app]. rewrite <- !app_assoc. reflexivity.
      * destruct (split1 58 (x ++ crlf)) as [(name, val)|]; [|discriminate].
        rewrite <- (EN (run' bd Hdr _ rest)). apply (IHs Hdr (x ++ crlf)); [exact Lr|]. cbn [ctx app]. rewrite <- !app_assoc. reflexivity.
    + rewrite (run'_wait bd Hdr hs a) by (discriminate || exact E). cbn [out_status out_state fst snd]. intros _. split; [|exists []; reflexivity].
      apply run'_wait; [discriminate | exact E].
  - destruct (find (crlf ++ bd) a) as [i|] eqn:E.
    + destruct (find_decomp _ _ _ E) as (x & y & -> & _ & F). rewrite !run'_bod by exact F.
      destruct (prefixb (u "--") y); [discriminate|]. destruct (drop_crlf_suffix y) as (t & Et).
      apply (IHs Hdr (x ++ (crlf ++ bd) ++ t)).
      * pose proof (drop_crlf_length y). rewrite !app_length. cbn. lia.
      * cbn [ctx app]. rewrite Et at 1. rewrite <- !app_assoc. reflexivity.
    + rewrite (run'_bod_wait bd hs a E). cbn [out_status out_state fst snd]. intros _. split; [|exists a; cbn [ctx app]; rewrite app_nil_r; reflexivity].
      apply run'_bod_wait. apply find_miss. intros [|? ?] ? X; discriminate X.
Qed.

(** *** Whole forms *)
Definition outcome (r : ast + merr) : list (str * (str + option file)) + merr :=
  match r with inl s => inl (map (resolve s) (a_items s)) | inr x => inr x end.
Definition single (e : env) (bd : str) (ph : phase) (hs : dict str) (buf : str) (s : ast) : ast + merr :=
  match evs_now e s (out_events (run' bd ph hs buf)) with
  | inr x => inr x
  | inl s' => match out_status (run' bd ph hs buf) with WBad => inr BadHeaderLine | _ => inl s' end
  end.

Lemma finalize_outcome e s b : outcome (on_evs e s (data_ev b)) = outcome (inl s).
Proof.
  destruct b as [|c b]; [reflexivity|]. cbn [data_ev on_evs on_ev]. destruct (p_file (a_part s)); reflexivity.
Qed.

Lemma mp_loop_nil_chunks e bd st chunks : concat chunks = [] -> forall s, flushed s ->
  outcome (mp_loop e bd st s chunks) = outcome (inl s).
Proof.
  induction chunks as [|c r IH]; intros C s F; cbn [mp_loop]; [apply finalize_outcome|].
  cbn [concat] in C. apply app_eq_nil in C. destruct C as (-> & C). destruct st as ((ph, hs), buf). cbn [mp_write on_evs].
  rewrite flush_flushed by exact F. apply IH; assumption.
Qed.

Lemma mp_loop_spec e bd chunks : forall ph hs buf s,
  run' bd ph hs buf = ([], WWait, (ph, hs, buf)) -> inv s -> flushed s -> open_part s ->
  (forall c1 c2, chunks = c1 ++ c2 -> concat c1 <> [] -> concat c2 <> [] -> safe_at bd (ctx ph) (buf ++ concat c1) (concat c2)) ->
  outcome (mp_loop e bd (ph, hs, buf) s chunks) = outcome (single e bd ph hs (buf ++ concat chunks) s).
Proof.
  induction chunks as [|c r IH]; intros ph hs buf s W I F O Hs.
  - cbn [concat]. rewrite app_nil_r. unfold single. rewrite W. cbn [out_events out_status fst snd evs_now]. cbn [mp_loop snd].
    apply finalize_outcome.
  - destruct c as [|x c].
    { cbn [mp_loop mp_write on_evs concat app]. rewrite flush_flushed by exact F. apply IH; try assumption.
      intros c1 c2 E. intros H1 H2. apply (Hs ([] :: c1) c2); [cbn; congruence | exact H1 | exact H2]. }
    set (a := buf ++ x :: c). assert (Ea : run (S (length a)) bd ph hs a = run' bd ph hs a) by reflexivity.
    cbn [mp_loop mp_write]. fold a. rewrite Ea.
    assert (Ec : buf ++ concat ((x :: c) :: r) = a ++ concat r) by (unfold a; cbn [concat]; rewrite <- app_assoc; reflexivity).
    rewrite Ec.
    destruct (run' bd ph hs a) as ((es, w), st') eqn:R.
    destruct (run_tidy bd _ _ _ _ _ _ _ R) as (T & TO).
    assert (FL : flush_res (on_evs e s es) = evs_now e s es).
    { rewrite (evs_now_flush_eq e es s true I (fun _ => O) T). rewrite flush_flushed by exact F. reflexivity. }
    destruct (list_eq_dec N.eq_dec (concat r) []) as [Cr|Cr].
    + rewrite Cr, app_nil_r. unfold single. rewrite R. cbn [out_events out_status fst snd]. rewrite <- FL.
      destruct (on_evs e s es) as [s'|]; [|reflexivity]. cbn [flush_res].
      destruct w; [| | reflexivity]; apply mp_loop_nil_chunks; (exact Cr || apply flushed_flush).
    + assert (S : safe_at bd (ctx ph) a (concat r)).
      { assert (Q := Hs [x :: c] r eq_refl). cbn [concat app] in Q. rewrite app_nil_r in Q. apply Q; [discriminate | exact Cr]. }
      pose proof (cut_lemma bd (concat r) (length a) ph hs a (le_n _) S) as C. rewrite R in C.
      unfold cut_ok in C. cbn [out_status out_events out_state fst snd] in C.
      unfold single at 1. destruct w; [|contradiction|].
      * pose proof (run_wait_state bd (length a) ph hs a (le_n _)) as WS. rewrite R in WS. cbn [out_status out_state fst snd] in WS. specialize (WS eq_refl).
        destruct st' as ((ph', hs'), buf'). destruct WS as (W' & t & Et). destruct C as (C1 & C2).
        rewrite (eqv_same _ _ C1 e s I F), C2, evs_now_app, <- FL.
        destruct (on_evs e s es) as [s'|] eqn:Eo; [|reflexivity]. cbn [flush_res].
        destruct (on_evs_inv e es s s' true I (fun _ => O) Eo) as (I' & O').
        rewrite (IH ph' hs' buf' (write_file_data s')); [reflexivity | exact W' | apply inv_flush; exact I' | apply flushed_flush | |].
        -- intros i Hi [].
        -- intros c1 c2 E H1 H2. subst r.
           apply (safe_suffix bd t (ctx ph) (ctx ph') (a ++ concat c1)).
           ++ rewrite app_assoc, Et, <- !app_assoc. reflexivity.
           ++ assert (Q := Hs ((x :: c) :: c1) c2 eq_refl). cbn [concat] in Q. unfold a. rewrite <- app_assoc. apply Q; [discriminate | exact H2].
      * destruct C as (C1 & C2). rewrite C1, C2, <- FL. destruct (on_evs e s es); reflexivity.
Qed.

Lemma new_inv : inv new_ast /\ flushed new_ast /\ open_part new_ast.
Proof.
  split; [|split].
  - split; [|split; [|split]]; cbn; [intros ? [] | intros ? [] | intros i H; discriminate H | intros ? []].
  - split; reflexivity.
  - intros i H. discriminate H.
Qed.

Lemma mp_parse_safe e boundary chunks : safe_chunks boundary chunks ->
  mp_parse e boundary chunks = outcome (single e (u "--" ++ boundary) Pre [] (concat chunks) new_ast).
Proof.
  intros S. destruct new_inv as (I & F & O).
  change (mp_parse e boundary chunks) with (outcome (mp_loop e (u "--" ++ boundary) (Pre, [], []) new_ast chunks)).
  rewrite mp_loop_spec; try assumption; reflexivity.
Qed.

Lemma safe_one boundary c : safe_chunks boundary [c].
Proof.
  intros [|x [|y c1]] c2 E H1 H2.
  - cbn in H1. congruence.
  - assert (c2 = []) as -> by (injection E; intros; symmetry; assumption). cbn in H2. congruence.
  - discriminate E.
Qed.
