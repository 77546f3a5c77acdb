From Verif Require Import PyStr PyStrFacts Utf8 Asgi HeaderModel HeaderSpec HeaderProofs HeaderProps CorsSpec CookieModel CookieSpec CookieProofs CookieProps Base64 SessionModel SessionSpec SessionProofs TabsModel TabsSpec.

Section Proofs.
Context {V : Type}.
Variables (order : list str -> list str) (e : senv V) (c : sconfig).
Hypothesis O : set_order order.
Hypothesis GE : good_senv e.
Hypothesis GC : good_sconfig c.
Notation agrees := (agrees order e c).

Definition own_lines (t : N) (empty : bool) (s : dict V) : list str :=
  match s with
  | [] => if empty then [] else [deletion_line c]
  | _ => match dumps e s with Some j => [session_line c (sign e t (b64encode j))] | None => [] end
  end.
Definition plain_head (h : headers) : Prop :=
  (forall k, In k (map fst h) -> lower k = u "set-cookie" -> k = u "set-cookie")
  /\ (forall l, In l (values (u "set-cookie") h) -> line_name l <> Some (s_cookie c)).
Definition body_acts (bodies : list (str * bool)) : list (act V) := map (fun b => Emits (ABody (fst b) (snd b))) bodies.
Definition body_msgs (bodies : list (str * bool)) : list amsg := map (fun b => ABody (fst b) (snd b)) bodies.

(** A request and what the reference knows of it. *)
Definition fits (now : N) (t : tab V) (p : page V) : Prop :=
  t_empty t = negb (p_known p) /\ (p_left p <> [] -> storable e (p_left p))
  /\ match p_saved p with
     | None => t_came t = false /\ t_out t = [] /\ exists edits st h bodies,
         t_left t = map Sets edits ++ Emits (AStart st h) :: body_acts bodies /\ last edits (t_session t) = p_left p /\ plain_head h
     | Some ts => (ts <= now)%N /\ exists st h' sent left vs,
         t_out t = AStart st h' :: body_msgs sent /\ t_left t = body_acts left
         /\ values (u "set-cookie") h' = vs ++ own_lines ts (t_empty t) (p_left p)
         /\ (forall l, In l vs -> line_name l <> Some (s_cookie c))
     end.
Definition inv (now : N) (w : world V) (m : memory V) (ps : nat -> option (page V)) : Prop :=
  agrees (jar w) m now /\ forall i, match nth_error (tabs w) i with
                                    | Some t => exists p, ps i = Some p /\ fits now t p
                                    | None => ps i = None
                                    end.

Lemma agrees_later jar m now now' : agrees jar m now -> (now <= now')%N -> agrees jar m now'.
Proof. intros [J A] L. split; [exact J|]. intros n LE. apply A. lia. Qed.
Lemma fits_later now now' t p : fits now t p -> (now <= now')%N -> fits now' t p.
Proof.
  intros (A & B & C) L. split; [exact A|]. split; [exact B|]. destruct (p_saved p) as [ts|]; [|exact C]. destruct C as [C D]. split; [lia|exact D].
Qed.
Lemma inv_later now now' w m ps : inv now w m ps -> (now <= now')%N -> inv now' w m ps.
Proof.
  intros [A B] L. split; [exact (agrees_later _ _ _ _ A L)|]. intros i. specialize (B i). destruct (nth_error (tabs w) i) as [t|]; [|exact B].
  destruct B as (p & E & F). exists p. split; [exact E|]. exact (fits_later _ _ _ _ F L).
Qed.
Lemma put_same i x : forall (l : list (tab V)) y, nth_error l i = Some y -> nth_error (put_tab i x l) i = Some x.
Proof. induction i as [|i IH]; intros [|z l] y E; try discriminate E; [reflexivity|]. cbn [put_tab nth_error] in *. exact (IH _ _ E). Qed.
Lemma put_other i x : forall (l : list (tab V)) j, j <> i -> nth_error (put_tab i x l) j = nth_error l j.
Proof.
  induction i as [|i IH]; intros [|z l] j D; try reflexivity.
  - destruct j; [contradiction D; reflexivity|reflexivity].
  - destruct j; [reflexivity|]. cbn [put_tab nth_error]. apply IH. congruence.
Qed.
Lemma turn_same i x (ps : nat -> option (page V)) : turn i x ps i = x.
Proof. unfold turn. rewrite Nat.eqb_refl. reflexivity. Qed.
Lemma turn_other i x (ps : nat -> option (page V)) j : j <> i -> turn i x ps j = ps j.
Proof. intros D. unfold turn. destruct (Nat.eqb_spec j i); [contradiction|reflexivity]. Qed.

(** The head of an answer reaches the browser. *)
Lemma answered jar m now t p ts : agrees jar m now -> fits now t p -> p_saved p = Some ts -> agrees (browser_after jar (t_out t)) (after p m) now.
Proof.
  intros [J A] (EM & ST & F) SV. rewrite SV in F. destruct F as (LE & st & h' & sent & left & vs & -> & _ & VA & L).
  unfold browser_after. unfold lines. cbn [flat_map]. fold (lines (u "set-cookie") (body_msgs sent)). unfold body_msgs.
  rewrite lines_bodies, app_nil_r, VA, fold_left_app. set (jar1 := fold_left browser_store vs jar).
  assert (J1 : jar_ok jar1) by (apply stores_ok; exact J).
  assert (D1 : dget (s_cookie c) jar1 = dget (s_cookie c) jar) by (apply stores_other; exact L).
  unfold after, own_lines. rewrite EM, SV. destruct (p_left p) as [|x r] eqn:EF.
  - destruct (p_known p); cbn [negb fold_left].
    + rewrite (store_deletion c GC). assert (J2 : jar_ok (ddel (s_cookie c) jar1)).
      { destruct J1 as [J1 J2]. split; [apply NoDup_ddel; exact J1|]. apply Forall_forall. intros y I. apply ddel_sub in I. exact (proj1 (Forall_forall _ _) J2 y I). }
      split; [exact J2|]. intros now' LE'. rewrite (load_jar order e c O) by exact J2. rewrite dget_ddel_same. reflexivity.
    + split; [exact J1|]. intros now' LE'. rewrite (load_jar order e c O) by exact J1. rewrite D1. rewrite <- (load_jar order e c O) by exact J. exact (A now' LE').
  - destruct (ST ltac:(discriminate)) as (j & D & LD). pose proof (ge_dumps e GE _ _ D) as BJ. rewrite D. cbn [fold_left].
    assert (N59 : ~ In 59%N (sign e ts (b64encode j))) by (apply (text_not 59 ltac:(cbn; tauto)), (sign_chars e GE), BJ).
    rewrite (store_session c GC) by exact N59. split.
    + rewrite <- (store_session c GC jar1 _ N59). apply store_ok. exact J1.
    + intros now' LE'. rewrite (load_jar order e c O) by (rewrite <- (store_session c GC jar1 _ N59); apply store_ok; exact J1).
      rewrite dget_dset_same, (read_back e GE), (sign_plain e GE), (unsign_sign e GE) by (assumption || lia). cbn [alive].
      destruct (s_max_age c) as [a|]; [destruct (N.leb_spec now' (ts + a)); [|reflexivity]|]; unfold b64decode, b64encode; rewrite (b64_round_trip 43 47 j (or_introl (conj eq_refl eq_refl)) BJ), LD; reflexivity.
Qed.

Lemma head_started ms sent st h' : ms = AStart st h' :: body_msgs sent -> begun ms = true.
Proof. intros ->. reflexivity. Qed.

Lemma run_allowed pop fs : forall h w m ps now used,
  inv now w m ps -> timely now h ->
  pop = used ++ pops h -> length used = length (tabs w) -> effects e c h (skipn (length (tabs w)) fs) ->
  allowed (s_max_age c) pop fs m ps (run order e c w h).
Proof.
  induction h as [|(t, ev) h IH]; intros w m ps now used I T P U E; [exact Logic.I|].
  destruct T as [LE T]. destruct (inv_later _ t _ _ _ I LE) as [A B].
  destruct ev as [pp app | i | i]; cbn [run step fst snd].
  - unfold goes. destruct A as [J A]. rewrite (A t ltac:(lia)).
    unfold effects in E. cbn [flat_map snd List.app] in E. inversion E as [|? f ? fs' SV E' EQ1 EQ2]. subst.
    assert (NF : nth_error fs (length (tabs w)) = Some f).
    { rewrite <- (firstn_skipn (length (tabs w)) fs), <- EQ2. rewrite nth_error_app2 by (rewrite firstn_length; lia).
      assert (length (firstn (length (tabs w)) fs) = length (tabs w)) as ->; [|rewrite Nat.sub_diag; reflexivity].
      apply firstn_length_le. assert (length (skipn (length (tabs w)) fs) <> 0) by (rewrite <- EQ2; discriminate). rewrite skipn_length in H. lia. }
    assert (NP : nth_error (used ++ pops ((t, Goes pp app) :: h)) (length (tabs w)) = Some pp).
    { rewrite nth_error_app2 by lia. rewrite U, Nat.sub_diag. reflexivity. }
    assert (SK : skipn (S (length (tabs w))) fs = fs').
    { change (S (length (tabs w))) with (1 + length (tabs w)). rewrite <- skipn_skipn, <- EQ2. reflexivity. }
    set (s := finds_at (s_max_age c) t pp m).
    set (known := match alive (s_max_age c) t m with Some _ => true | None => false end).
    assert (X : (match alive (s_max_age c) t m with Some s => (s, false) | None => ([], true) end)
                = (match alive (s_max_age c) t m with Some s => s | None => [] end, negb known)).
    { unfold known. destruct (alive (s_max_age c) t m); reflexivity. }
    rewrite X.
    assert (Y : (match pp with Some d => if negb known then dupdate (match alive (s_max_age c) t m with Some s => s | None => [] end) d
                                        else match alive (s_max_age c) t m with Some s => s | None => [] end
                             | None => match alive (s_max_age c) t m with Some s => s | None => [] end end) = s).
    { unfold s, finds_at, known. destruct (alive (s_max_age c) t m), pp; reflexivity. }
    cbn zeta. rewrite Y. cbn [List.app allowed]. exists pp, f. split; [exact NP|]. split; [exact NF|].
    split; [specialize (B (length (tabs w))); rewrite (proj2 (nth_error_None _ _) (Nat.le_refl _)) in B; exact B|]. split; [reflexivity|].
    apply (IH _ m _ t (used ++ [pp])).
    + split; [split; assumption|]. cbn [tabs jar]. intros i. destruct (Nat.lt_trichotomy i (length (tabs w))) as [LT|[->|GT]].
      * rewrite nth_error_app1 by exact LT. rewrite turn_other by lia. exact (B i).
      * rewrite nth_error_app2, Nat.sub_diag by lia. cbn [nth_error]. rewrite turn_same. eexists. split; [reflexivity|].
        destruct (SV s) as (edits & st & hd & bodies & AP & LA & ST & K & L).
        split; [reflexivity|]. split; [exact ST|]. cbn [p_saved t_came t_out t_left t_session p_left]. split; [reflexivity|]. split; [reflexivity|].
        exists edits, st, hd, bodies. split; [exact AP|]. split; [exact LA|]. split; assumption.
      * assert (NN : nth_error (tabs w ++ [{| t_left := app s; t_session := s; t_empty := negb known; t_out := []; t_came := false |}]) i = None)
          by (apply nth_error_None; rewrite app_length; cbn [length]; lia).
        rewrite NN. rewrite turn_other by lia. specialize (B i). assert (NB : nth_error (tabs w) i = None) by (apply nth_error_None; lia). rewrite NB in B. exact B.
    + exact T.
    + rewrite <- app_assoc. reflexivity.
    + cbn [tabs]. rewrite !app_length, U. reflexivity.
    + cbn [tabs]. rewrite app_length. cbn [length]. rewrite Nat.add_1_r, SK. exact E'.
  - unfold effects in E. cbn [flat_map snd List.app] in E. cbn [pops flat_map snd List.app] in P.
    unfold acts. pose proof (B i) as Bi. destruct (nth_error (tabs w) i) as [x|] eqn:NX; [|exact (IH w m ps t used (conj A B) T P U E)].
    destruct Bi as (p & PP & F). assert (F0 := F). destruct F as (EM & ST & F). destruct (p_saved p) as [ts|] eqn:SV.
    + destruct F as (LT & st & h' & sent & left & vs & OU & LF & VA & L). rewrite LF. destruct left as [|b left]; [exact (IH w m ps t used (conj A B) T P U E)|].
      cbn [body_acts map List.app]. apply (IH _ m ps t used).
      * split; [exact A|]. intros j. cbn [tabs]. destruct (Nat.eq_dec j i) as [->|D].
        -- rewrite (put_same _ _ _ _ NX). exists p. split; [exact PP|]. split; [exact EM|]. split; [exact ST|]. rewrite SV. split; [exact LT|].
           exists st, h', (sent ++ [b]), left, vs. cbn [t_out t_left t_empty]. split; [rewrite OU; unfold body_msgs; rewrite map_app; reflexivity|].
           split; [reflexivity|]. split; assumption.
        -- rewrite put_other by exact D. exact (B j).
      * exact T.
      * exact P.
      * cbn [tabs]. assert (LP : forall (l : list (tab V)) k y, length (put_tab k y l) = length l) by (induction l as [|z l IHl]; intros [|k] y; cbn; congruence). rewrite LP. exact U.
      * cbn [tabs]. assert (LP : forall (l : list (tab V)) k y, length (put_tab k y l) = length l) by (induction l as [|z l IHl]; intros [|k] y; cbn; congruence). rewrite LP. exact E.
    + destruct F as (CA & OU & edits & st & hd & bodies & LF & LA & PH).
      assert (LP : forall (l : list (tab V)) k y, length (put_tab k y l) = length l) by (induction l as [|z l IHl]; intros [|k] y; cbn; congruence).
      rewrite LF. destruct edits as [|s edits]; cbn [map List.app].
      * cbn [last] in LA. destruct PH as [K L]. destruct (started order e c O GC t (t_empty x) (t_session x) hd ltac:(rewrite LA; exact ST) K L) as (h' & added & -> & VA & AD).
        cbn [List.app allowed]. exists p. split; [exact PP|]. split; [exact SV|]. apply (IH _ m _ t used).
        -- split; [exact A|]. intros j. cbn [tabs]. destruct (Nat.eq_dec j i) as [->|D].
           ++ rewrite (put_same _ _ _ _ NX), turn_same. eexists. split; [reflexivity|]. split; [exact EM|]. split; [exact ST|]. cbn [p_saved p_left t_empty t_out t_left].
              split; [lia|]. exists st, (wire order h'), [], bodies, (values (u "set-cookie") hd). split; [rewrite OU; reflexivity|]. split; [reflexivity|].
              split; [|exact L]. rewrite VA, AD, LA. reflexivity.
           ++ rewrite put_other, turn_other by exact D. exact (B j).
        -- exact T.
        -- exact P.
        -- cbn [tabs]. rewrite LP. exact U.
        -- cbn [tabs]. rewrite LP. exact E.
      * apply (IH _ m ps t used).
        -- split; [exact A|]. intros j. cbn [tabs]. destruct (Nat.eq_dec j i) as [->|D].
           ++ rewrite (put_same _ _ _ _ NX). exists p. split; [exact PP|]. split; [exact EM|]. split; [exact ST|]. rewrite SV. cbn [t_came t_out t_left t_session].
              split; [exact CA|]. split; [exact OU|]. exists edits, st, hd, bodies. split; [reflexivity|]. split; [|exact PH].
              rewrite <- LA. clear. destruct edits as [|y edits]; [reflexivity|]. cbn [last]. revert y. induction edits as [|z edits IH]; intros y; [reflexivity|]. cbn [last] in *. apply IH.
           ++ rewrite put_other by exact D. exact (B j).
        -- exact T.
        -- exact P.
        -- cbn [tabs]. rewrite LP. exact U.
        -- cbn [tabs]. rewrite LP. exact E.
  - unfold effects in E. cbn [flat_map snd List.app] in E. cbn [pops flat_map snd List.app] in P.
    assert (LP : forall (l : list (tab V)) k y, length (put_tab k y l) = length l) by (induction l as [|z l IHl]; intros [|k] y; cbn; congruence).
    unfold comes. pose proof (B i) as Bi. destruct (nth_error (tabs w) i) as [x|] eqn:NX; [|exact (IH w m ps t used (conj A B) T P U E)].
    destruct Bi as (p & PP & F). destruct (begun (t_out x) && negb (t_came x)) eqn:G; [|exact (IH w m ps t used (conj A B) T P U E)].
    destruct (p_saved p) as [ts|] eqn:SV.
    + cbn [List.app allowed]. exists p. split; [exact PP|]. split; [rewrite SV; discriminate|]. apply (IH _ (after p m) ps t used).
      * split; [exact (answered _ _ _ _ _ _ A F SV)|]. intros j. cbn [tabs]. destruct (Nat.eq_dec j i) as [->|D].
        -- rewrite (put_same _ _ _ _ NX). exists p. split; [exact PP|]. destruct F as (EM & ST & F). split; [exact EM|]. split; [exact ST|]. rewrite SV in *.
           exact F.
        -- rewrite put_other by exact D. exact (B j).
      * exact T.
      * exact P.
      * cbn [tabs]. rewrite LP. exact U.
      * cbn [tabs]. rewrite LP. exact E.
    + destruct F as (_ & _ & F). rewrite SV in F. destruct F as (_ & OU & _). rewrite OU in G. discriminate G.
Qed.
End Proofs.
