From Verif Require Import PyStr PyStrFacts HeaderModel HeaderSpec HeaderProofs HardModel HardSpec.

Section Words.
Variable sp : N -> bool.
Definition wordy (w : str) : Prop := w <> [] /\ forall c, In c w -> sp c = false.
Lemma words_from_word w : forall cur r, (forall c, In c w -> sp c = false) -> words_from sp cur (w ++ r) = words_from sp (cur ++ w) r.
Proof.
  induction w as [|c w IH]; intros cur r F; [now rewrite app_nil_r|]. cbn [app words_from]. rewrite F by (now left).
  rewrite IH by (intros; apply F; now right). now rewrite <- app_assoc.
Qed.
Lemma words_word w c r : wordy w -> sp c = true -> words sp (w ++ c :: r) = w :: words sp r.
Proof.
  intros [Nn F] C. unfold words. rewrite words_from_word by exact F. cbn [app words_from]. rewrite C. now destruct w.
Qed.
Lemma words_last w : wordy w -> words sp w = [w].
Proof.
  intros [Nn F]. unfold words. rewrite <- (app_nil_r w) at 1. rewrite words_from_word by exact F. cbn [app words_from]. now destruct w.
Qed.
Lemma words_space c r : sp c = true -> words sp (c :: r) = words sp r.
Proof. intros C. unfold words. cbn. now rewrite C. Qed.
Lemma words_lead a r : forallb sp a = true -> words sp (a ++ r) = words sp r.
Proof.
  induction a as [|c a IH]; cbn; [reflexivity|]. intros [C A]%andb_true_iff. rewrite <- IH by exact A. now apply words_space.
Qed.
Lemma words_blank a : forallb sp a = true -> words sp a = [].
Proof. intros A. rewrite <- (app_nil_r a), words_lead by exact A. reflexivity. Qed.
Lemma words_from_app s : forall cur c r, sp c = true -> words_from sp cur (s ++ c :: r) = words_from sp cur s ++ words sp r.
Proof.
  induction s as [|x s IH]; intros cur c r C; cbn [app words_from].
  - rewrite C. now destruct cur.
  - destruct (sp x); [|now apply IH]. destruct cur; rewrite IH by exact C; reflexivity.
Qed.
Lemma words_app s c r : sp c = true -> words sp (s ++ c :: r) = words sp s ++ words sp r.
Proof. apply words_from_app. Qed.
Lemma words_trail s b : forallb sp b = true -> words sp (s ++ b) = words sp s.
Proof.
  destruct b as [|c b]; [now rewrite app_nil_r|]. intros [C B]%andb_true_iff. rewrite words_app by exact C.
  rewrite (words_blank b B). apply app_nil_r.
Qed.
Lemma words_wordy s : Forall wordy (words sp s).
Proof.
  assert (G : forall s cur, (forall c, In c cur -> sp c = false) -> Forall wordy (words_from sp cur s)).
  { clear s. induction s as [|c s IH]; intros cur F; cbn.
    - destruct cur; [constructor|]. apply Forall_cons; [|constructor]. split; [discriminate|exact F].
    - destruct (sp c) eqn:C.
      + destruct cur; [apply IH; intros ? []|]. apply Forall_cons; [|apply IH; intros ? []]. split; [discriminate|exact F].
      + apply IH. intros x I. apply in_app_or in I as [I|[<-|[]]]; auto. }
  apply G. intros ? [].
Qed.
Lemma words_In s w c : In w (words sp s) -> In c w -> In c s.
Proof.
  assert (G : forall s cur, In w (words_from sp cur s) -> In c w -> In c cur \/ In c s).
  { clear s. induction s as [|x s IH]; intros cur; cbn.
    - destruct cur; [intros []|]. intros [<-|[]]. auto.
    - destruct (sp x).
      + destruct cur.
        * intros I J. destruct (IH [] I J) as [[]|K]; auto.
        * intros [<-|I] J; [auto|]. destruct (IH [] I J) as [[]|K]; auto.
      + intros I J. destruct (IH _ I J) as [K|K]; [|auto]. apply in_app_or in K as [K|[<-|[]]]; auto. }
  intros I J. destruct (G s [] I J) as [[]|K]; exact K.
Qed.
Lemma words_join ws : Forall wordy ws -> sp 32 = true -> words sp (join (u " ") ws) = ws.
Proof.
  intros F S. induction F as [|w ws W F IH]; [reflexivity|]. destruct ws as [|w' ws]; [now apply words_last|].
  change (join (u " ") (w :: w' :: ws)) with (w ++ 32%N :: join (u " ") (w' :: ws)). now rewrite words_word, IH.
Qed.
Lemma words_join_flat l : sp 32 = true -> words sp (join (u " ") l) = flat_map (words sp) l.
Proof.
  intros S. induction l as [|w l IH]; [reflexivity|]. destruct l as [|w' l]; [cbn; now rewrite app_nil_r|].
  change (join (u " ") (w :: w' :: l)) with (w ++ 32%N :: join (u " ") (w' :: l)). now rewrite words_app, IH.
Qed.

(** [words] is the function of the relation. *)
Lemma spaced_words s : spaced sp s (words sp s).
Proof.
  assert (Sp : forall c r ws, sp c = true -> spaced sp r ws -> spaced sp (c :: r) ws).
  { intros c r ws C H. destruct H as [a F|a w r ws F Nn W R H].
    - constructor. intros x [<-|I]; auto.
    - change (c :: a ++ w ++ r) with ((c :: a) ++ w ++ r). constructor; auto. intros x [<-|I]; auto. }
  assert (G : forall s cur, (forall c, In c cur -> sp c = false) -> spaced sp (cur ++ s) (words_from sp cur s)).
  { clear s. induction s as [|c s IH]; intros cur F; cbn.
    - rewrite app_nil_r. destruct cur as [|x cur]; [constructor; intros ? []|].
      rewrite <- (app_nil_r (x :: cur)) at 1. apply (spaced_word sp [] (x :: cur) [] []); try easy. constructor. intros ? [].
    - destruct (sp c) eqn:C.
      + destruct cur as [|x cur]; [apply Sp; [exact C|]; apply (IH []); intros ? []|].
        apply (spaced_word sp [] (x :: cur) (c :: s)); try easy. apply Sp; [exact C|]. apply (IH []). intros ? [].
      + change (cur ++ c :: s) with (cur ++ [c] ++ s). rewrite app_assoc. apply IH. intros x I. apply in_app_or in I as [I|[<-|[]]]; auto. }
  apply (G s []). intros ? [].
Qed.
Lemma words_spaced s ws : spaced sp s ws -> words sp s = ws.
Proof.
  assert (Fb : forall a, (forall c, In c a -> sp c = true) -> forallb sp a = true) by (intros a F; now apply forallb_forall).
  induction 1 as [a F|a w r ws F Nn W R H IH]; [apply words_blank; auto|]. rewrite words_lead by auto.
  destruct r as [|c r].
  - rewrite app_nil_r. rewrite words_last by (now split). cbn in IH. now rewrite <- IH.
  - rewrite words_word by (try split; assumption). rewrite words_space in IH by exact R. now rewrite IH.
Qed.
End Words.

Lemma words_ext sp sp' s : (forall c, In c s -> sp c = sp' c) -> words sp s = words sp' s.
Proof.
  intros H. unfold words. generalize (@nil N). induction s as [|c s IH]; intros cur; cbn; [reflexivity|].
  rewrite <- (H c) by (now left). destruct (sp c); [destruct cur; rewrite IH by (intros; apply H; now right); reflexivity|].
  apply IH. intros; apply H; now right.
Qed.
Lemma words_strip s : words is_space (strip s) = words is_space s.
Proof.
  unfold strip, strip_by. destruct (lstrip_by_decomp is_space s) as (a & E & A & _).
  destruct (rstrip_by_decomp is_space (lstrip_by is_space s)) as (b & E' & B & _).
  rewrite E at 2. rewrite words_lead by exact A. rewrite E' at 2. now rewrite words_trail.
Qed.
Lemma ascii_is_space c : ascii_space c = true -> is_space c = true.
Proof. unfold ascii_space, is_space. lia. Qed.
Lemma words_plain s : plain_spaces s -> words ascii_space s = words is_space s.
Proof.
  intros P. apply words_ext. intros c I. destruct (is_space c) eqn:E; [now apply P|].
  destruct (ascii_space c) eqn:A; [|reflexivity]. apply ascii_is_space in A. congruence.
Qed.

(** Rendering and reading back. *)
Lemma join_semi x xs : join (u "; ") (x :: xs) = join [59%N] (x :: map (cons 32%N) xs).
Proof.
  revert x. induction xs as [|y ys IH]; intros x; [reflexivity|].
  change (join (u "; ") (x :: y :: ys)) with (x ++ 59%N :: 32%N :: join (u "; ") (y :: ys)). rewrite IH.
  change (join [59%N] (x :: map (cons 32%N) (y :: ys))) with (x ++ 59%N :: join [59%N] ((32%N :: y) :: map (cons 32%N) ys)).
  now rewrite join_cons_hd.
Qed.
Definition semifree (s : str) : Prop := ~ In 59%N s.
Lemma split_render l : l <> [] -> (forall e, In e l -> semifree (fst e) /\ semifree (snd e)) ->
  exists x xs, map (fun e => fst e ++ u " " ++ snd e) l = x :: xs /\ split_char 59 (render l) = x :: map (cons 32%N) xs.
Proof.
  intros Nn F. unfold render. set (g := fun e : str * str => fst e ++ u " " ++ snd e).
  assert (Fx : forall x, In x (map g l) -> semifree x).
  { intros x I. apply in_map_iff in I as (e & <- & I). destruct (F e I) as [A B]. unfold g, semifree. intros J.
    apply in_app_or in J as [J|J]; [exact (A J)|]. change (u " ") with [32%N] in J. destruct J as [J|J]; [discriminate|exact (B J)]. }
  destruct (map g l) as [|x xs] eqn:E; [destruct l; [congruence|discriminate]|]. exists x, xs. split; [exact E|].
  change (split_char 59 (join (u "; ") (map g l)) = x :: map (cons 32%N) xs). rewrite E, join_semi. apply split_char_join; [discriminate|].
  intros w [<-|I]; [apply Fx; now left|]. apply in_map_iff in I as (y & <- & I). intros [J|J]; [discriminate|].
  exact (Fx y (or_intror I) J).
Qed.
(** The words of each part of a rendered list. *)
Lemma parts_render sp l : sp 32%N = true -> (forall e, In e l -> semifree (fst e) /\ semifree (snd e) /\ wordy sp (fst e)) ->
  l <> [] -> map (words sp) (split_char 59 (render l)) = map (fun e => fst e :: words sp (snd e)) l.
Proof.
  intros S F Nn. destruct (split_render l Nn) as (x & xs & E & ->); [intros e I; destruct (F e I) as (A & B & _); now split|].
  assert (W : map (words sp) (x :: xs) = map (fun e => fst e :: words sp (snd e)) l).
  { rewrite <- E, map_map. apply map_ext_in. intros e I. destruct (F e I) as (_ & _ & W).
    change (u " " ++ snd e) with (32%N :: snd e). now apply words_word. }
  rewrite <- W. cbn [map]. f_equal. rewrite map_map. apply map_ext. intros y. now apply words_space.
Qed.

Lemma token_wordy sp w : (forall c, sp c = true -> is_space c = true) -> token w -> wordy sp w /\ semifree w.
Proof.
  intros H [Nn F]. split; [split; [exact Nn|]|].
  - intros c I. destruct (F c I) as [A _]. destruct (sp c) eqn:E; [|reflexivity]. apply H in E. congruence.
  - intros I. destruct (F _ I) as [_ B]. congruence.
Qed.
Lemma semifree_join ws : Forall semifree ws -> semifree (join (u " ") ws).
Proof.
  unfold semifree. induction 1 as [|w ws W F IH]; [intros []|]. destruct ws as [|w' ws]; [exact W|].
  change (join (u " ") (w :: w' :: ws)) with (w ++ 32%N :: join (u " ") (w' :: ws)). intros I.
  apply in_app_or in I as [I|[I|I]]; [exact (W I)|discriminate|exact (IH I)].
Qed.

(** The dict of a text. *)
Definition put (d : dict str) (ws : list str) : dict str := match ws with [] => d | k :: r => dset k (join (u " ") r) d end.
Lemma sections_put s : sections s = fold_left put (map (words is_space) (split_char 59 s)) [].
Proof.
  unfold sections. generalize (@nil (str * str)). induction (split_char 59 s) as [|p r IH]; intros d; [reflexivity|].
  cbn [map fold_left]. rewrite IH. unfold put at 2. now rewrite words_strip.
Qed.
Definition good_entry (e : str * str) : Prop := exists ws, token (fst e) /\ Forall token ws /\ snd e = join (u " ") ws.
Lemma part_tokens s p : In p (split_char 59 s) -> Forall token (words is_space p).
Proof.
  intros I. pose proof (words_wordy is_space p) as F. rewrite Forall_forall in *. intros w J. destruct (F w J) as [Nn W].
  split; [exact Nn|]. intros c K. split; [now apply W|]. intros ->. exact (split_char_parts_free _ _ _ I (words_In _ _ _ _ J K)).
Qed.
Lemma put_good l : forall d, Forall (Forall token) l -> Forall good_entry d -> Forall good_entry (fold_left put l d).
Proof.
  induction l as [|ws l IH]; intros d F G; [exact G|]. inversion F as [|? ? A B]; subst. cbn. apply IH; [exact B|].
  destruct ws as [|k r]; [exact G|]. inversion A as [|? ? A1 A2]; subst. cbn [put].
  clear - G A1 A2. induction d as [|[k' v'] d IH]; cbn.
  - apply Forall_cons; [|constructor]. exists r. auto.
  - inversion G as [|? ? G1 G2]; subst. destruct (seqb k k') eqn:E.
    + apply Forall_cons; [|exact G2]. apply seqb_eq in E. subst. exists r. cbn. auto.
    + apply Forall_cons; auto.
Qed.
Lemma put_nodup l : forall d, NoDup (dkeys d) -> NoDup (dkeys (fold_left put l d)).
Proof.
  assert (Ds : forall k (v : str) d, NoDup (dkeys d) -> NoDup (dkeys (dset k v d))).
  { intros k v d. unfold dkeys. induction d as [|[k' v'] d IH]; cbn; intros D; [constructor; [intros []|constructor]|].
    apply NoDup_cons_iff in D as [A B]. destruct (seqb_spec k k') as [->|E]; cbn; [now constructor|]. constructor; [|auto].
    intros I. apply A. clear - I E. induction d as [|[k2 v2] d IH]; cbn in *; [destruct I as [I|[]]; congruence|].
    destruct (seqb k k2); cbn in *; [exact I|]. destruct I as [I|I]; auto. }
  induction l as [|[|k r] l IH]; intros d D; [exact D|exact (IH d D)|]. cbn [fold_left put]. apply IH, Ds, D.
Qed.
Lemma sections_good s : Forall good_entry (sections s).
Proof.
  rewrite sections_put. apply put_good; [|constructor]. apply Forall_map, Forall_forall. intros p I. exact (part_tokens s p I).
Qed.
Lemma sections_nodup s : NoDup (dkeys (sections s)).
Proof. rewrite sections_put. apply put_nodup. constructor. Qed.
Lemma put_new l : forall d, NoDup (dkeys d ++ flat_map (fun ws => match ws with [] => [] | k :: _ => [k] end) l) ->
  fold_left put l d = d ++ flat_map (fun ws => match ws with [] => [] | k :: r => [(k, join (u " ") r)] end) l.
Proof.
  induction l as [|[|k r] l IH]; intros d D; cbn in *; [now rewrite app_nil_r|auto|].
  assert (Nk : ~ In k (dkeys d)) by (apply NoDup_remove_2 in D; intros I; apply D, in_or_app; auto).
  rewrite (dset_new k _ d Nk), IH.
  - now rewrite <- app_assoc.
  - unfold dkeys in *. rewrite map_app, <- app_assoc. exact D.
Qed.
Lemma good_free e : good_entry e -> semifree (fst e) /\ semifree (snd e) /\ wordy is_space (fst e) /\ wordy ascii_space (fst e).
Proof.
  intros (ws & T & F & E). destruct (token_wordy is_space _ (fun c H => H) T) as [W Sf].
  destruct (token_wordy ascii_space _ ascii_is_space T) as [W' _]. repeat split; try apply W; try apply W'; try exact Sf.
  rewrite E. apply semifree_join. eapply Forall_impl; [|exact F]. intros w Tw. exact (proj2 (token_wordy is_space _ (fun c H => H) Tw)).
Qed.
Lemma good_words e : good_entry e -> words is_space (snd e) = words ascii_space (snd e) /\ join (u " ") (words is_space (snd e)) = snd e.
Proof.
  intros (ws & T & F & E). rewrite E.
  rewrite !words_join; try reflexivity.
  - split; reflexivity.
  - eapply Forall_impl; [|exact F]. intros w Tw. exact (proj1 (token_wordy ascii_space _ ascii_is_space Tw)).
  - eapply Forall_impl; [|exact F]. intros w Tw. exact (proj1 (token_wordy is_space _ (fun c H => H) Tw)).
Qed.
Lemma sections_render d : Forall good_entry d -> NoDup (dkeys d) -> sections (render d) = d.
Proof.
  intros G D. destruct d as [|e0 d0]; [reflexivity|]. rewrite sections_put. rewrite Forall_forall in G.
  rewrite parts_render; [|reflexivity| |discriminate].
  2:{ intros e I. destruct (good_free e (G e I)) as (A & B & C & _). auto. }
  rewrite put_new.
  - cbn [app]. set (d := e0 :: d0) in *. clearbody d. clear - G. induction d as [|e d IH]; [reflexivity|]. cbn [map flat_map app].
    rewrite (proj2 (good_words e (G e (or_introl eq_refl)))), IH by (intros; apply G; now right). now destruct e.
  - cbn [app]. set (d := e0 :: d0) in *. clearbody d. clear - D. revert D. unfold dkeys. induction d as [|e d IH]; [auto|].
    cbn [map flat_map app]. intros [A B]%NoDup_cons_iff. constructor; [|auto].
    intros I. apply A. apply in_flat_map in I as (x & J & K). apply in_map_iff in J as (e' & <- & J). destruct K as [<-|[]]. now apply in_map.
Qed.

Lemma listed_words s : listed s = flat_map (fun ws => match ws with [] => [] | k :: r => [(lower k, r)] end) (map (words ascii_space) (split_char 59 s)).
Proof. unfold listed. induction (split_char 59 s) as [|p r IH]; [reflexivity|]. cbn [flat_map map]. now rewrite IH. Qed.
Lemma listed_render l : (forall e, In e l -> semifree (fst e) /\ semifree (snd e) /\ wordy ascii_space (fst e)) ->
  listed (render l) = map (fun e => (lower (fst e), words ascii_space (snd e))) l.
Proof.
  intros F. rewrite listed_words. destruct l as [|e0 l0]; [reflexivity|]. rewrite parts_render by (try reflexivity; try assumption; discriminate).
  generalize (e0 :: l0). intros l. induction l as [|e l IH]; [reflexivity|]. cbn. now rewrite IH.
Qed.
Lemma first_only_id l : forall seen, NoDup (map fst l) -> (forall k, In k seen -> ~ In k (map fst l)) -> first_only seen l = l.
Proof.
  induction l as [|e l IH]; intros seen D F; [reflexivity|]. cbn in *. apply NoDup_cons_iff in D as [A B].
  destruct (smem (fst e) seen) eqn:E; [apply smem_In in E; destruct (F _ E); now left|]. rewrite IH; [reflexivity|exact B|].
  intros k [<-|I]; [exact A|]. intros J. apply (F k I). now right.
Qed.
