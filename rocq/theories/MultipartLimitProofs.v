(** Proofs about the multipart limits. *)
From Verif Require Import PyStr PyStrFacts Utf8 MultipartModel MultipartSpec MultipartProofs.

(** ** Each end of a part follows the end of its headers *)
Definition next (b : bool) (x : ev) : bool :=
  match x with EPartEnd | EBegin => false | EHeadersDone => true | _ => b end.
Fixpoint paired (b : bool) (es : list ev) : Prop :=
  match es with [] => True | x :: r => (x = EPartEnd -> b = true) /\ paired (next b x) r end.
Definition pend (b : bool) (es : list ev) : bool := fold_left next es b.

Lemma paired_app xs ys : forall b, paired b (xs ++ ys) <-> paired b xs /\ paired (pend b xs) ys.
Proof. induction xs as [|x xs IH]; intros b; cbn [app paired pend fold_left]; [tauto|]. rewrite IH. unfold pend. tauto. Qed.
Lemma pend_app xs ys b : pend b (xs ++ ys) = pend (pend b xs) ys.
Proof. apply fold_left_app. Qed.
Lemma paired_data b d : paired b (data_ev d) /\ pend b (data_ev d) = b.
Proof. destruct d; cbn; intuition discriminate. Qed.
Lemma paired_headers hs : forall b, paired b (emit_headers hs) /\ pend b (emit_headers hs) = true.
Proof.
  unfold emit_headers. induction hs as [|h hs IH]; intros b; [cbn; intuition discriminate|].
  cbn [map app paired pend fold_left next]. destruct (IH b) as (A & B). split; [split; [discriminate | exact A] | exact B].
Qed.

Definition isbod (ph : phase) : bool := match ph with Bod => true | _ => false end.
Definition phase_of (o : wout) : phase := fst (fst (out_state o)).

Lemma run_paired bd : forall n ph hs buf, let o := run n bd ph hs buf in
  paired (isbod ph) (out_events o) /\ (out_status o = WWait -> pend (isbod ph) (out_events o) = isbod (phase_of o)).
Proof.
  induction n as [|n IH]; intros ph hs buf; cbn [run]; [cbn; auto|].
  assert (K : forall b pre ph1 hs1 buf1, paired b pre -> pend b pre = isbod ph1 ->
    paired b (out_events (emit pre (run n bd ph1 hs1 buf1))) /\
    (out_status (emit pre (run n bd ph1 hs1 buf1)) = WWait -> pend b (out_events (emit pre (run n bd ph1 hs1 buf1))) = isbod (phase_of (emit pre (run n bd ph1 hs1 buf1))))).
  { intros b pre ph1 hs1 buf1 P Q. destruct (emit_out pre (run n bd ph1 hs1 buf1)) as (-> & -> & E). unfold phase_of. rewrite E.
    rewrite paired_app, pend_app, Q. destruct (IH ph1 hs1 buf1) as (A & B). split; [split; assumption | exact B]. }
  destruct ph; cbn [isbod].
  - destruct (find crlf buf) as [i|]; [|cbn; auto].
    destruct (prefixb bd _); [destruct (prefixb (term bd) _)|].
    + cbn. split; [intuition discriminate | discriminate].
    + apply K; cbn; intuition discriminate.
    + apply (IH Pre).
  - destruct (find crlf buf) as [i|]; [|cbn; auto].
    destruct (seqb _ crlf).
    + apply K; apply paired_headers.
    + destruct (split1 58 _) as [(name, val)|]; [apply (IH Hdr) | cbn; split; [exact I | discriminate]].
  - destruct (find (crlf ++ bd) buf) as [i|].
    + destruct (paired_data true (firstn i buf)) as (D1 & D2).
      destruct (prefixb (term bd) _).
      * cbn [out_events out_status fst snd]. split; [|discriminate]. rewrite paired_app, D2. split; [exact D1|]. cbn. intuition discriminate.
      * apply K; [rewrite paired_app, D2; split; [exact D1|]; cbn; intuition discriminate | rewrite pend_app, D2; reflexivity].
    + destruct (paired_data true buf) as (D1 & D2). split; [exact D1 | intros _; exact D2].
Qed.

(** ** The counters cover what is kept *)
Definition is_text (it : str * (str + nat)) : bool := match snd it with inl _ => true | inr _ => false end.
Definition holds_file (s : ast) : bool := match p_file (a_part s) with Some _ => true | None => false end.
Definition lim (e : env) (b : bool) (s : ast) : Prop :=
  count is_text (a_items s) + (if b && negb (holds_file s) then 1 else 0) <= a_nfields s /\ a_nfields s <= max_fields e /\
  count (fun it => negb (is_text it)) (a_items s) + (if b && holds_file s then 1 else 0) <= a_nfiles s /\ a_nfiles s <= max_files e.

Lemma count_snoc {A} (f : A -> bool) l x : count f (l ++ [x]) = count f l + (if f x then 1 else 0).
Proof. unfold count. rewrite filter_app, app_length. cbn. destruct (f x); reflexivity. Qed.

Lemma lim_weak e b s : lim e b s -> lim e false s.
Proof. unfold lim. cbn [andb]. intros (A & B & C & D). repeat split; lia. Qed.

Lemma lim_step e b s x s' : lim e b s -> on_ev e s x = inl s' -> (x = EPartEnd -> b = true) -> lim e (next b x) s'.
Proof.
  intros L. destruct x; cbn [on_ev next].
  - intros H _. injection H as <-. apply lim_weak in L. exact L.
  - intros H _. injection H as <-. exact L.
  - unfold headers_done. destruct (field_name e _) as [nm|]; [|discriminate]. destruct (dget (u "filename") _) as [fn|].
    + destruct (max_files e <? S (a_nfiles s))%nat eqn:M; [discriminate|]. apply Nat.ltb_ge in M.
      destruct (user_safe_decode e fn); [|discriminate]. intros H _. injection H as <-.
      apply lim_weak in L. revert L. unfold lim, holds_file. cbn [andb negb a_part pset_file pset_name p_file a_items a_nfields a_nfiles]. intros (A & B & C & D). repeat split; lia.
    + destruct (max_fields e <? S (a_nfields s))%nat eqn:M; [discriminate|]. apply Nat.ltb_ge in M.
      intros H _. injection H as <-.
      apply lim_weak in L. revert L. unfold lim, holds_file. cbn [andb negb a_part pset_file pset_name p_file a_items a_nfields a_nfiles]. intros (A & B & C & D). repeat split; lia.
  - intros H _. injection H as <-. revert L. unfold lim, holds_file. destruct (p_file (a_part s)) as [i|] eqn:E; cbn; rewrite ?E; cbn; exact (fun h => h).
  - intros H Hb. rewrite (Hb eq_refl) in L. revert L H. unfold lim, holds_file. destruct (p_file (a_part s)) as [i|] eqn:E.
    + intros L H. injection H as <-. revert L. cbn [aadd_item andb negb a_part p_file a_items a_nfields a_nfiles]. rewrite !count_snoc. cbn [is_text snd negb]. intros (A & B & C & D). repeat split; lia.
    + destruct (user_safe_decode e _); [|discriminate]. intros L H. injection H as <-. revert L. cbn [aadd_item andb negb a_part p_file a_items a_nfields a_nfiles]. rewrite !count_snoc. cbn [is_text snd negb]. intros (A & B & C & D). repeat split; lia.
  - intros H _. injection H as <-. exact L.
Qed.

Lemma lim_evs e : forall es b s s', lim e b s -> on_evs e s es = inl s' -> paired b es -> lim e (pend b es) s'.
Proof.
  induction es as [|x es IH]; intros b s s' L; cbn [on_evs paired pend fold_left].
  - intros H _. injection H as <-. exact L.
  - destruct (on_ev e s x) as [s1|] eqn:E; [|discriminate]. intros H (P1 & P2).
    apply (IH (next b x) s1 s'); [apply (lim_step e b s x s1); assumption | exact H | exact P2].
Qed.

Lemma occurs_app p a b c : occurs p b -> occurs p (a ++ b ++ c).
Proof. intros (x & y & ->). exists (a ++ x), (y ++ c). rewrite <- !app_assoc. reflexivity. Qed.
Lemma occurs_suffix p a b : occurs p b -> occurs p (a ++ b).
Proof. intros H. rewrite <- (app_nil_r b). apply occurs_app. exact H. Qed.

(** ** An end needs a closing delimiter *)
Lemma run_end_occurs bd : forall n ph hs a, length a <= n -> out_status (run' bd ph hs a) = WEnd ->
  occurs (crlf ++ term bd) (ctx ph ++ a).
Proof.
  induction n as [n IH] using lt_wf_ind. intros ph hs a Hn.
  assert (IHs : forall ph0 t hs a' pre, length a' < length a -> ctx ph ++ a = t ++ ctx ph0 ++ a' ->
    out_status (emit pre (run' bd ph0 hs a')) = WEnd -> occurs (crlf ++ term bd) (ctx ph ++ a)).
  { intros ph0 t hs' a' pre L E S. destruct (emit_out pre (run' bd ph0 hs' a')) as (_ & X & _). rewrite X in S.
    rewrite E. apply occurs_suffix. apply (IH (length a') ltac:(lia) ph0 hs' a' (le_n _) S). }
  assert (EN : forall o, emit [] o = o) by (intros ((? & ?) & ?); reflexivity).
  clear IH. destruct ph.
  - destruct (find crlf a) as [i|] eqn:E.
    + destruct (find_decomp _ _ _ E) as (x & rest & -> & _ & F).
      assert (Lr : length rest < length (x ++ crlf ++ rest)) by (rewrite !app_length; cbn; lia).
      rewrite run'_pre by exact F.
      destruct (prefixb bd (x ++ crlf)); [destruct (prefixb (term bd) (x ++ crlf)) eqn:P|].
      * intros _. apply prefixb_iff in P. destruct P as (y & P). exists [], (y ++ rest). cbn [ctx app]. unfold crlf in *. cbn [app] in *. do 2 f_equal.
        rewrite app_assoc, <- P, <- app_assoc. reflexivity.
      * apply (IHs Hdr (crlf ++ x ++ crlf)); [exact Lr|]. cbn [ctx app]. rewrite <- !app_assoc. reflexivity.
      * rewrite <- (EN (run' bd Pre hs rest)). apply (IHs Pre (crlf ++ x)); [exact Lr|]. cbn [ctx app]. reflexivity.
    + rewrite (run'_wait bd Pre hs a) by (discriminate || exact E). discriminate.
  - destruct (find crlf a) as [i|] eqn:E.
    + destruct (find_decomp _ _ _ E) as (x & rest & -> & _ & F).
      assert (Lr : length rest < length (x ++ crlf ++ rest)) by (rewrite !app_length; cbn; lia).
      rewrite run'_hdr by exact F. destruct (seqb (x ++ crlf) crlf).
      * apply (IHs Bod (x ++ crlf)); [exact Lr|]. cbn [ctx app]. rewrite <- !app_assoc. reflexivity.
      * destruct (split1 58 (x ++ crlf)) as [(name, val)|]; [|discriminate].
        rewrite <- (EN (run' bd Hdr _ rest)). apply (IHs Hdr (x ++ crlf)); [exact Lr|]. cbn [ctx app]. rewrite <- !app_assoc. reflexivity.
    + rewrite (run'_wait bd Hdr hs a) by (discriminate || exact E). discriminate.
  - destruct (find (crlf ++ bd) a) as [i|] eqn:E.
    + destruct (find_decomp _ _ _ E) as (x & y & -> & _ & F). rewrite run'_bod by exact F.
      destruct (prefixb (u "--") y) eqn:P.
      * intros _. apply prefixb_iff in P. destruct P as (z & ->). exists x, z. unfold term. cbn [ctx app]. rewrite <- !app_assoc. reflexivity.
      * destruct (drop_crlf_suffix y) as (t & Et). apply (IHs Hdr (x ++ (crlf ++ bd) ++ t)).
        -- pose proof (drop_crlf_length y). rewrite !app_length. cbn. lia.
        -- cbn [ctx app]. rewrite Et at 1. rewrite <- !app_assoc. reflexivity.
    + rewrite (run'_bod_wait bd hs a E). discriminate.
Qed.

Lemma count_ext {A B} (g : A -> B) f f' l : (forall x, f x = f' (g x)) -> count f' (map g l) = count f l.
Proof. intros H. unfold count. induction l as [|x l IH]; [reflexivity|]. cbn. rewrite H. destruct (f' (g x)); cbn; rewrite IH; reflexivity. Qed.

Lemma kept_resolved e b s t : lim e b s -> within_limits e (map (resolve t) (a_items s)).
Proof.
  intros L. apply lim_weak in L. destruct L as (A & B & C & D). split.
  - rewrite (count_ext _ is_text); [lia|]. intros (?, [?|?]); reflexivity.
  - rewrite (count_ext _ (fun it => negb (is_text it))); [lia|]. intros (?, [?|?]); reflexivity.
Qed.

Lemma loop_kept e bd chunks : forall ph hs buf s its,
  run' bd ph hs buf = ([], WWait, (ph, hs, buf)) -> lim e (isbod ph) s -> flushed s ->
  (forall c1 c2, chunks = c1 ++ c2 -> concat c2 <> [] -> ~ occurs (crlf ++ term bd) (ctx ph ++ buf ++ concat c1)) ->
  outcome (mp_loop e bd (ph, hs, buf) s chunks) = inl its -> within_limits e its.
Proof.
  induction chunks as [|c r IH]; intros ph hs buf s its W L F Hs.
  - cbn [mp_loop snd]. rewrite finalize_outcome. intros H. injection H as <-. apply (kept_resolved e (isbod ph)). exact L.
  - destruct c as [|x c].
    { cbn [mp_loop mp_write on_evs]. rewrite flush_flushed by exact F. apply IH; try assumption.
      intros c1 c2 E. apply (Hs ([] :: c1) c2). cbn. congruence. }
    set (a := buf ++ x :: c). cbn [mp_loop mp_write]. fold a.
    change (run (S (length a)) bd ph hs a) with (run' bd ph hs a).
    assert (P : paired (isbod ph) (out_events (run' bd ph hs a)) /\ (out_status (run' bd ph hs a) = WWait -> pend (isbod ph) (out_events (run' bd ph hs a)) = isbod (phase_of (run' bd ph hs a)))) by apply run_paired.
    pose proof (run_wait_state bd (length a) ph hs a (le_n _)) as WS.
    pose proof (run_end_occurs bd (length a) ph hs a (le_n _)) as EO.
    destruct (run' bd ph hs a) as ((es, w), st'). unfold phase_of in P. cbn [out_events out_status out_state fst snd] in *.
    destruct P as (P1 & P2). destruct (on_evs e s es) as [s'|] eqn:E; [|discriminate].
    assert (L' := lim_evs e es _ s s' L E P1).
    destruct w; [| |discriminate].
    + specialize (WS eq_refl). specialize (P2 eq_refl). destruct st' as ((ph', hs'), buf'). destruct WS as (W' & t & Et).
      cbn [fst] in P2. rewrite P2 in L'. apply IH; [exact W' | exact L' | apply flushed_flush |].
      intros c1 c2 -> NE O. apply (Hs ((x :: c) :: c1) c2 eq_refl NE).
      cbn [concat].
      assert (E2 : ctx ph ++ buf ++ (x :: c) ++ concat c1 = t ++ ctx ph' ++ buf' ++ concat c1).
      { rewrite (app_assoc buf). fold a. rewrite app_assoc, Et, <- !app_assoc. reflexivity. }
      rewrite E2. apply occurs_suffix. exact O.
    + specialize (EO eq_refl). destruct (list_eq_dec N.eq_dec (concat r) []) as [Cr|Cr].
      * rewrite mp_loop_nil_chunks by (exact Cr || apply flushed_flush). intros H. injection H as <-.
        apply (kept_resolved e (pend (isbod ph) es)). exact L'.
      * exfalso. apply (Hs [x :: c] r eq_refl Cr). cbn [concat]. rewrite app_nil_r. exact EO.
Qed.

Lemma find_none_occ p s : find p s = None -> ~ occurs p s.
Proof. intros H (x & y & E). exact (find_none p s H x y E). Qed.
