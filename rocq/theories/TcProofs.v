From Verif Require Import PyStr PyStrFacts TcModel TcSpec.
From Coq Require Import Lia.
Local Open Scope N_scope.

Definition shown (c : client) (x : str) : str := if head c then [] else x.
Inductive phase := Before | Open (st : N) (hs : list (datum * datum)) (x : str) | Done (st : N) (hs : list (datum * datum)) (x : str).
Definition at_phase (c : client) (ms : list smsg) (s : state) (ph : phase) : Prop :=
  match ph with
  | Before => Forall aside ms /\ started s = None /\ complete s = false /\ stream s = ([], 0%nat)
  | Open st hs x => answer false ms st hs x /\ started s = Some (st, hs) /\ complete s = false /\ stream s = (shown c x, length (shown c x))
  | Done st hs x => answer true ms st hs x /\ started s = Some (st, hs) /\ complete s = true /\ stream s = (shown c x, 0%nat)
  end.
Definition inv (c : client) (asked : bool) (ms : list smsg) (s : state) : Prop :=
  request_complete s = asked /\ debug s = last_debug ms None /\ exists ph, at_phase c ms s ph.

Lemma last_debug_app l r : forall d, last_debug (l ++ r) d = last_debug r (last_debug l d).
Proof. induction l as [|m l IH]; intros d; [reflexivity|]. destruct m; cbn [app last_debug]; apply IH. Qed.
Lemma aside_debug ms : forall d, ~ (exists t x, In (Debug t x) ms) -> last_debug ms d = d.
Proof. induction ms as [|m ms IH]; intros d H; [reflexivity|]. destruct m; cbn [last_debug]; try (apply IH; intros (t & x & I); apply H; exists t, x; right; exact I). exfalso. apply H. do 2 eexists. left. reflexivity. Qed.

(** Chunks and answers grow at their end. *)
Lemma chunks_snoc_more ms b x y : chunks false ms y -> chunk b x -> chunks false (ms ++ [Body b (Some true)]) (y ++ x).
Proof.
  intros H K. remember false as f. induction H as [|b' more x' r K' M F|b' x' fin r y K' H IH|m fin r y A H IH]; cbn [app]; try discriminate.
  - rewrite <- (app_nil_r x). apply chunks_more; [exact K | constructor].
  - rewrite <- app_assoc. apply chunks_more; auto.
  - apply chunks_aside; auto.
Qed.
Lemma chunks_snoc_last ms b more x y : chunks false ms y -> chunk b x -> more <> Some true -> chunks true (ms ++ [Body b more]) (y ++ x).
Proof.
  intros H K N. remember false as f. induction H as [|b' more' x' r K' M F|b' x' fin r y K' H IH|m fin r y A H IH]; cbn [app]; try discriminate.
  - apply chunks_last; auto.
  - rewrite <- app_assoc. apply chunks_more; auto.
  - apply chunks_aside; auto.
Qed.
Lemma chunks_snoc_aside f ms m y : chunks f ms y -> aside m -> chunks f (ms ++ [m]) y.
Proof.
  intros H A. induction H as [|b' more' x' r K' M F|b' x' fin r y K' H IH|m' fin r y A' H IH]; cbn [app].
  - apply chunks_aside; [exact A | constructor].
  - apply chunks_last; auto. apply Forall_app. auto.
  - apply chunks_more; auto.
  - apply chunks_aside; auto.
Qed.
Lemma answer_snoc f g ms m st hs x y : (forall ms, chunks f ms x -> chunks g (ms ++ [m]) y) -> answer f ms st hs x -> answer g (ms ++ [m]) st hs y.
Proof. intros C H. induction H as [st hs ms x H|m' ms st hs x A H IH]; cbn [app]; [apply answer_start, C, H | apply answer_aside; auto]. Qed.
Lemma answer_new ms st hs : Forall aside ms -> answer false (ms ++ [Start st hs]) st (match hs with Some l => l | None => [] end) [].
Proof. induction 1 as [|m ms A _ IH]; cbn [app]; [apply answer_start; constructor | apply answer_aside; assumption]. Qed.

(** Finished, as the specification and the flag have it. *)
Lemma finished_app l r : finished (l ++ r) <-> finished l \/ finished r.
Proof. unfold finished. split; [intros (b & m & I & N); apply in_app_iff in I; destruct I; eauto|]. intros [(b & m & I & N)|(b & m & I & N)]; exists b, m; rewrite in_app_iff; auto. Qed.
Lemma aside_open ms : Forall aside ms -> ~ finished ms.
Proof. intros F (b & m & I & _). rewrite Forall_forall in F. exact (F _ I). Qed.
Lemma chunks_finished f ms x : chunks f ms x -> finished ms <-> f = true.
Proof.
  intros H. induction H as [|b more x r K M F|b x fin r y K H IH|m fin r y A H IH].
  - split; [intros (b & m & [] & _) | discriminate].
  - split; [reflexivity | intros _; exists b, more; split; [left; reflexivity | exact M]].
  - rewrite <- IH. split; [intros (b' & m & [[= <- <-]|I] & N); [congruence | exists b', m; auto] | intros (b' & m & I & N); exists b', m; split; [right; exact I | exact N]].
  - rewrite <- IH. split; [intros (b' & m' & [->|I] & N); [destruct A | exists b', m'; auto] | intros (b' & m' & I & N); exists b', m'; split; [right; exact I | exact N]].
Qed.
Lemma answer_finished f ms st hs x : answer f ms st hs x -> finished ms <-> f = true.
Proof.
  intros H. induction H as [st hs ms x H|m ms st hs x A H IH].
  - rewrite <- (chunks_finished _ _ _ H). split; [intros (b & m & [E|I] & N); [discriminate | exists b, m; auto] | intros (b & m & I & N); exists b, m; split; [right; exact I | exact N]].
  - rewrite <- IH. split; [intros (b & m' & [->|I] & N); [destruct A | exists b, m'; auto] | intros (b & m' & I & N); exists b, m'; split; [right; exact I | exact N]].
Qed.
Lemma inv_complete c asked ms s : inv c asked ms s -> finished ms <-> complete s = true.
Proof.
  intros (_ & _ & [|st hs x|st hs x] & P).
  - destruct P as (F & _ & -> & _). split; [intros X; destruct (aside_open _ F X) | discriminate].
  - destruct P as (F & _ & -> & _). apply answer_finished in F. rewrite F. tauto.
  - destruct P as (F & _ & -> & _). apply answer_finished in F. rewrite F. tauto.
Qed.

(** What follows a message in an answer. *)
Definition is_start (m : smsg) : bool := match m with Start _ _ => true | _ => false end.
Definition starts (ms : list smsg) : nat := length (filter is_start ms).
Lemma starts_app l r : starts (l ++ r) = (starts l + starts r)%nat.
Proof. unfold starts. rewrite filter_app, app_length. reflexivity. Qed.
Lemma aside_starts ms : Forall aside ms -> starts ms = 0%nat.
Proof. induction 1 as [|m ms A _ IH]; [reflexivity|]. destruct m; try destruct A; exact IH. Qed.
Lemma chunks_starts f ms x : chunks f ms x -> starts ms = 0%nat.
Proof. induction 1 as [|b more x r K M F|b x fin r y K H IH|m fin r y A H IH]; [reflexivity | exact (aside_starts _ F) | exact IH | destruct m; try destruct A; exact IH]. Qed.
Lemma answer_starts f ms st hs x : answer f ms st hs x -> starts ms = 1%nat.
Proof. induction 1 as [st hs ms x H|m ms st hs x A H IH]; [unfold starts in *; cbn; rewrite (chunks_starts _ _ _ H : length (filter is_start ms) = 0%nat); reflexivity | destruct m; try destruct A; exact IH]. Qed.
Lemma no_body_first f ms b more r st hs x : Forall aside ms -> answer f (ms ++ Body b more :: r) st hs x -> False.
Proof. induction 1 as [|m ms A _ IH]; cbn [app]; intros H; inversion H; subst; [match goal with A : aside _ |- _ => destruct A end | destruct A | exact (IH ltac:(eassumption))]. Qed.
Lemma chunk_in f ms x b more : chunks f ms x -> In (Body b more) ms -> exists y, chunk b y.
Proof.
  intros H I. induction H as [|b' more' x' r K' M F|b' x' fin r y K' H IH|m' fin r y A' H IH].
  - destruct I.
  - destruct I as [[= -> ->]|I]; [eauto|]. rewrite Forall_forall in F. destruct (F _ I).
  - destruct I as [[= -> <-]|I]; eauto.
  - destruct I as [->|I]; [destruct A' | eauto].
Qed.
Lemma chunk_in_answer f ms st hs x b more : answer f ms st hs x -> In (Body b more) ms -> exists y, chunk b y.
Proof. intros H I. induction H as [st hs ms x H|m ms st hs x A H IH]; (destruct I as [E|I]; [subst; try discriminate; try destruct A|]); eauto using chunk_in. Qed.
Lemma chunks_over ms x : chunks true ms x -> forall b more r f y, ~ chunks f (ms ++ Body b more :: r) y.
Proof.
  intros H. remember true as t. induction H as [|b' more' x' r K' M F|b' x' fin r y K' H IH|m' fin r y A' H IH]; try discriminate; intros b more q f z C; cbn [app] in C.
  - inversion C; subst.
    + match goal with F : Forall aside (_ ++ _) |- _ => apply Forall_app, proj2 in F; inversion F; subst; match goal with A : aside _ |- _ => destruct A end end.
    + congruence.
    + match goal with A : aside _ |- _ => destruct A end.
  - inversion C; subst; [congruence | eapply IH; eauto | match goal with A : aside _ |- _ => destruct A end].
  - inversion C; subst; try destruct A'; eapply IH; eauto.
Qed.
Lemma answer_over ms st hs x : answer true ms st hs x -> forall b more r f st' hs' y, ~ answer f (ms ++ Body b more :: r) st' hs' y.
Proof.
  induction 1 as [st hs ms x H|m ms st hs x A H IH]; intros b more r f st' hs' y C; cbn [app] in C; inversion C; subst.
  - eapply chunks_over; eauto.
  - match goal with A : aside _ |- _ => destruct A end.
  - destruct A.
  - eapply IH; eauto.
Qed.

Lemma io_end c (x y : str) : io_write y (shown c x, length (shown c x)) = (shown c x ++ y, length (shown c x ++ y)).
Proof. unfold io_write. cbn [fst snd]. rewrite firstn_all, skipn_all2 by lia. rewrite app_nil_r, app_length. reflexivity. Qed.
Lemma shown_app c x y : shown c (x ++ y) = if head c then [] else shown c x ++ y.
Proof. unfold shown. destruct (head c); reflexivity. Qed.

(** Accepted messages keep the invariant, for the synchronous client and for messages that belong to an answer. *)
Lemma send_keeps c asked ms s m s' : inv c asked ms s -> (exists r st hs x, answer true (ms ++ m :: r) st hs x) \/ (asynchronous c = false /\ (conformance c = true \/ head c = false)) ->
  send c s m = (s', None) -> inv c asked (ms ++ [m]) s'.
Proof.
  intros (R & D & ph & P) OK H.
  assert (AS : aside m -> started s' = started s -> complete s' = complete s -> stream s' = stream s -> at_phase c (ms ++ [m]) s' ph).
  { intros A E1 E2 E3. destruct ph as [|st hs x|st hs x]; cbn [at_phase] in *; rewrite E1, E2, E3; destruct P as (Q & P2 & P3 & P4); refine (conj _ (conj P2 (conj P3 P4))).
    - apply Forall_app. auto.
    - eapply answer_snoc; [|exact Q]. intros. apply chunks_snoc_aside; assumption.
    - eapply answer_snoc; [|exact Q]. intros. apply chunks_snoc_aside; assumption. }
  destruct m as [st hs|b more|t q|n]; cbn [send] in H.
  - destruct (started s) eqn:S; [discriminate|]. injection H as <-. cbn [request_complete debug]. refine (conj R (conj _ _)); [rewrite last_debug_app; exact D|].
    destruct ph as [|st' hs' x|st' hs' x]; [|destruct P as (_ & E & _); congruence..]. destruct P as (Q & _ & P3 & P4).
    exists (Open st (match hs with Some l => l | None => [] end) []). cbn [at_phase started complete stream]. unfold shown. refine (conj (answer_new _ _ _ Q) (conj eq_refl (conj P3 _))). rewrite P4. destruct (head c); reflexivity.
  - destruct (started s) as [[st hs]|] eqn:S; [|discriminate].
    assert (NC : complete s = false).
    { destruct ph as [|st' hs' x|st' hs' x]; [destruct P as (_ & _ & E & _); exact E|destruct P as (_ & _ & E & _); exact E|]. exfalso. destruct P as (Q & _ & E & _).
      destruct OK as [(r & st2 & hs2 & x2 & OK)|[OK _]]; [exact (answer_over _ _ _ _ Q _ _ _ _ _ _ _ OK)|]. rewrite OK, E in H. discriminate. }
    rewrite NC, andb_false_r in H.
    destruct ph as [|st' hs' x|st' hs' x]; [destruct P as (_ & E & _); congruence | |destruct P as (_ & _ & E & _); congruence]. destruct P as (Q & E & _ & ST).
    assert (K : exists y, chunk b y /\ match b with Some d => d | None => Bytes [] end = Bytes y).
    { destruct b as [[y|t]|]; [exists y; split; [left; reflexivity | reflexivity]| |exists []; split; [right; auto | reflexivity]].
      exfalso. destruct OK as [(r & st2 & hs2 & x2 & OK)|[_ OK]].
      - destruct (chunk_in_answer _ _ _ _ _ (Some (Text t)) more OK) as (y & [Y|[Y _]]); [apply in_or_app; right; left; reflexivity | discriminate..].
      - destruct OK as [OK|OK]; rewrite OK in H; [discriminate|]. destruct (conformance c); discriminate. }
    destruct K as (y & K & BY). rewrite BY in H. injection H as <-. rewrite S in E. cbn [request_complete debug]. refine (conj R (conj _ _)); [rewrite last_debug_app; exact D|].
    destruct more as [[]|].
    + exists (Open st' hs' (x ++ y)). cbn [at_phase started complete stream orb]. refine (conj _ (conj E (conj eq_refl _))).
      * eapply answer_snoc; [|exact Q]. intros. apply chunks_snoc_more; assumption.
      * rewrite ST, shown_app. destruct (head c) eqn:HD; [unfold shown; rewrite HD; reflexivity | apply io_end].
    + exists (Done st' hs' (x ++ y)). cbn [at_phase started complete stream orb]. refine (conj _ (conj E (conj eq_refl _))).
      * eapply answer_snoc; [|exact Q]. intros. apply chunks_snoc_last; [assumption..|discriminate].
      * rewrite ST, shown_app. destruct (head c) eqn:HD; [unfold shown; rewrite HD; reflexivity | rewrite io_end; reflexivity].
    + exists (Done st' hs' (x ++ y)). cbn [at_phase started complete stream orb]. refine (conj _ (conj E (conj eq_refl _))).
      * eapply answer_snoc; [|exact Q]. intros. apply chunks_snoc_last; [assumption..|discriminate].
      * rewrite ST, shown_app. destruct (head c) eqn:HD; [unfold shown; rewrite HD; reflexivity | rewrite io_end; reflexivity].
  - injection H as <-. cbn [request_complete debug]. refine (conj R (conj _ _)); [rewrite last_debug_app; reflexivity|]. exists ph. apply AS; [exact I | reflexivity..].
  - injection H as <-. refine (conj R (conj _ _)); [rewrite last_debug_app; exact D|]. exists ph. apply AS; [exact I | reflexivity..].
Qed.
(** A message that belongs to an answer is accepted. *)
Lemma send_accepts c asked ms s m : inv c asked ms s -> (exists r st hs x, answer true (ms ++ m :: r) st hs x) -> exists s', send c s m = (s', None).
Proof.
  intros (R & D & ph & P) (r & st & hs & x & A). destruct m as [st' hs'|b more|t q|n]; cbn [send]; [| |eauto..].
  - destruct (started s) eqn:S; [|eauto]. exfalso. destruct ph as [|st2 hs2 x2|st2 hs2 x2]; [destruct P as (_ & E & _); congruence| |];
    destruct P as (Q & _); pose proof (answer_starts _ _ _ _ _ A) as X; rewrite starts_app in X; rewrite (answer_starts _ _ _ _ _ Q) in X; unfold starts in X; cbn in X; lia.
  - destruct ph as [|st2 hs2 x2|st2 hs2 x2].
    + exfalso. eapply no_body_first; [exact (proj1 P) | exact A].
    + destruct P as (Q & -> & -> & _). rewrite andb_false_r. destruct (chunk_in_answer _ _ _ _ _ b more A) as (y & [-> |[-> _]]); [apply in_or_app; right; left; reflexivity | eauto..].
    + exfalso. exact (answer_over _ _ _ _ (proj1 P) _ _ _ _ _ _ _ A).
Qed.
Lemma plays_extends body p asked ms ms' o : plays body p asked ms ms' o -> exists r, ms' = ms ++ r.
Proof. induction 1 as [| | | | |m k asked ms ms' o H IH]; auto; try (exists []; rewrite app_nil_r; reflexivity). destruct IH as (r & ->). exists (m :: r). rewrite <- app_assoc. reflexivity. Qed.
Lemma run_plays c body p asked ms ms' o : plays body p asked ms ms' o -> forall s st hs x, inv c asked ms s -> answer true ms' st hs x ->
  exists s', run c body p s = (s', o) /\ inv c (request_complete s') ms' s'.
Proof.
  induction 1 as [asked ms|e asked ms|k ms ms' o H IH|k ms ms' o F H IH|k ms F|m k asked ms ms' o H IH]; intros s st hs x I A; cbn [run].
  - exists s. split; [reflexivity|]. rewrite (proj1 I). exact I.
  - exists s. split; [reflexivity|]. rewrite (proj1 I). exact I.
  - unfold receive. rewrite (proj1 I). eapply IH; [|exact A]. destruct I as (R & D & ph & P). refine (conj eq_refl (conj D _)). exists ph. destruct ph; exact P.
  - unfold receive. rewrite (proj1 I), (proj1 (inv_complete _ _ _ _ I) F). eapply IH; eassumption.
  - exfalso. apply F, (answer_finished _ _ _ _ _ A). reflexivity.
  - assert (EX : exists r, ms' = (ms ++ [m]) ++ r) by (eapply plays_extends; exact H). destruct EX as (r & ->). rewrite <- app_assoc in A. cbn [app] in A.
    assert (X : exists r st hs x, answer true (ms ++ m :: r) st hs x) by eauto. destruct (send_accepts c asked ms s m I X) as (s1 & E). rewrite E.
    eapply IH; [exact (send_keeps _ _ _ _ _ _ I (or_introl X) E)|]. rewrite <- app_assoc. exact A.
Qed.
Lemma run_reports c body : asynchronous c = false -> conformance c = true \/ head c = false -> forall p, uncaught p -> forall asked ms s s' o,
  inv c asked ms s -> run c body p s = (s', o) -> o = Returned -> exists ms', plays body p asked ms ms' Returned /\ inv c (request_complete s') ms' s'.
Proof.
  intros SY TX p. induction 1 as [|e|k H IH|m k H IH CA]; intros asked ms s s' o I E ->; cbn [run] in E.
  - injection E as <-. exists ms. split; [constructor|]. rewrite (proj1 I). exact I.
  - discriminate.
  - unfold receive in E. rewrite (proj1 I) in E. destruct asked.
    + destruct (complete s) eqn:CO; [|discriminate]. destruct (IH RDisconnect true ms s s' Returned I E eq_refl) as (ms' & P & I'). exists ms'. split; [|exact I'].
      apply plays_later; [apply (inv_complete _ _ _ _ I), CO | exact P].
    + edestruct (IH (RBody body) true ms) as (ms' & P & I'); [|exact E|reflexivity|].
      * destruct I as (R & D & ph & P). refine (conj eq_refl (conj D _)). exists ph. destruct ph; exact P.
      * exists ms'. split; [apply plays_first, P | exact I'].
  - destruct (send c s m) as [s1 [e|]] eqn:S.
    + rewrite CA in E. discriminate.
    + destruct (IH asked (ms ++ [m]) s1 s' Returned) as (ms' & P & I').
      * eapply send_keeps; [exact I | right; split; assumption | exact S].
      * exact E.
      * reflexivity.
      * exists ms'. split; [apply plays_send, P | exact I'].
Qed.
Lemma inv_initial c : inv c false [] initial.
Proof. refine (conj eq_refl (conj eq_refl _)). exists Before. cbn. auto. Qed.
Lemma header_ok_iff h : header_ok h = true <-> good_header h.
Proof.
  unfold good_header. destruct h as [[k|k] [v|v]]; cbn [header_ok].
  - rewrite andb_true_iff, !negb_true_iff, !cmem_not_In. split; [intros [A B]; eauto | intros (k' & v' & [= <- <-] & A & B); auto].
  - split; [discriminate | intros (k' & v' & E & _); discriminate].
  - split; [discriminate | intros (k' & v' & E & _); discriminate].
  - split; [discriminate | intros (k' & v' & E & _); discriminate].
Qed.
