From Verif Require Import PyStr PyStrFacts HeaderModel HeaderSpec HeaderProofs HardModel HardSpec HardProofs.

(** C137: the header that is sent makes browsers enforce the policy that was given. *)
Definition C137_statement : Prop := forall s, plain_spaces s -> enforced (parse_content_policy (PText s)) = enforced s.
Definition twice : str := u "default-src 'none'; img-src *; default-src *".
Lemma plain_of s : forallb (fun c => negb (is_space c) || ascii_space c) s = true -> plain_spaces s.
Proof. intros F c I S. rewrite forallb_forall in F. specialize (F c I). rewrite S in F. exact F. Qed.
Theorem C137_refuted : ~ C137_statement.
Proof. intros H. specialize (H twice (plain_of twice eq_refl)). vm_compute in H. discriminate. Qed.
Print Assumptions C137_refuted.

Theorem C137_text_partial : forall s, plain_spaces s -> NoDup (map fst (listed s)) -> enforced (parse_content_policy (PText s)) = enforced s.
Proof.
  intros s P D. cbn [parse_content_policy].
  assert (W : map (words ascii_space) (split_char 59 s) = map (words is_space) (split_char 59 s)).
  { apply map_ext_in. intros p I. apply words_plain. intros c J. apply P. rewrite <- (join_split_char 59 s).
    apply in_split in I as (a & b & ->). clear - J. induction a as [|x a IH].
    - cbn [app]. destruct b; [exact J|]. cbn [join]. apply in_or_app. now left.
    - destruct (a ++ p :: b) as [|y l] eqn:E; [destruct a; discriminate|]. cbn [app]. rewrite E.
      change (join [59%N] (x :: y :: l)) with (x ++ 59%N :: join [59%N] (y :: l)). apply in_or_app. right. now right. }
  set (ps := map (words is_space) (split_char 59 s)) in *.
  assert (Ls : listed s = flat_map (fun ws => match ws with [] => [] | k :: r => [(lower k, r)] end) ps) by (rewrite listed_words, W; reflexivity).
  assert (Sc : sections s = flat_map (fun ws => match ws with [] => [] | k :: r => [(k, join (u " ") r)] end) ps).
  { rewrite sections_put, put_new; [reflexivity|]. cbn [dkeys map app]. fold ps. rewrite Ls in D. clear - D.
    induction ps as [|[|k r] l IH]; cbn in *; [constructor|auto|]. apply NoDup_cons_iff in D as [A B]. constructor; [|auto].
    intros I. apply A. apply in_flat_map in I as (x & J & K). destruct x as [|k' r']; [destruct K|]. destruct K as [<-|[]].
    apply in_map_iff. exists (lower k', r'). split; [reflexivity|]. apply in_flat_map. exists (k' :: r'). split; [exact J|now left]. }
  assert (Lr : listed (render (sections s)) = listed s).
  { rewrite listed_render.
    - rewrite Sc, Ls. assert (T : Forall (Forall token) ps) by (apply Forall_map, Forall_forall; intros p I; exact (part_tokens s p I)).
      clearbody ps. clear - T. induction T as [|ws ps A T IH]; [reflexivity|]. destruct ws as [|k r]; cbn [flat_map app map]; [exact IH|].
      rewrite IH. f_equal. f_equal. cbn [fst snd]. apply words_join; [|reflexivity]. inversion A as [|? ? _ F]; subst.
      eapply Forall_impl; [|exact F]. intros w Tw. exact (proj1 (token_wordy ascii_space _ ascii_is_space Tw)).
    - intros e I. pose proof (sections_good s) as G. rewrite Forall_forall in G. destruct (good_free e (G e I)) as (A & B & _ & C). auto. }
  unfold enforced. now rewrite Lr.
Qed.
Print Assumptions C137_text_partial.

(** Parsing what was rendered changes nothing. *)
Theorem C137_stable : forall s, parse_content_policy (PText (parse_content_policy (PText s))) = parse_content_policy (PText s).
Proof. intros s. cbn [parse_content_policy]. now rewrite sections_render by (apply sections_good || apply sections_nodup). Qed.
Print Assumptions C137_stable.

Definition semicolon_free (c : content) : Prop := match c with One s => ~ In 59%N s | Many l => forall s, In s l -> ~ In 59%N s end.
Definition sources (c : content) : list str := match c with One s => words ascii_space s | Many l => flat_map (words ascii_space) l end.
Theorem C137_dict : forall d, (forall k c, In (k, c) d -> token k /\ semicolon_free c) -> NoDup (map (fun e => lower (fst e)) d) ->
  enforced (parse_content_policy (PDict d)) = map (fun e => (lower (fst e), sources (snd e))) d.
Proof.
  intros d F D. cbn [parse_content_policy]. unfold enforced. rewrite listed_render.
  - rewrite map_map. cbn [fst snd].
    assert (E : map (fun x : str * content => (lower (fst x), words ascii_space (flat (snd x)))) d = map (fun e => (lower (fst e), sources (snd e))) d).
    { apply map_ext. intros [k [s|l]]; cbn [fst snd flat sources]; [reflexivity|]. now rewrite words_join_flat. }
    rewrite E. apply first_only_id; [|intros k []]. rewrite map_map. cbn [fst]. exact D.
  - intros e I. apply in_map_iff in I as ([k c] & <- & I). destruct (F k c I) as [T S]. cbn [fst snd].
    destruct (token_wordy ascii_space _ ascii_is_space T) as [W Sf]. split; [exact Sf|]. split; [|exact W].
    destruct c as [s|l]; [exact S|]. apply semifree_join, Forall_forall. exact S.
Qed.
Print Assumptions C137_dict.
(** [words] splits as the relation says. *)
Theorem C137_words : forall sp s ws, spaced sp s ws <-> words sp s = ws.
Proof. intros sp s ws. split; [apply words_spaced|intros <-; apply spaced_words]. Qed.
Print Assumptions C137_words.
Example C137_case :
  parse_content_policy (PText (u " default-src   'self';; img-src https://a.example  https://b.example ;upgrade-insecure-requests"))
    = u "default-src 'self'; img-src https://a.example https://b.example; upgrade-insecure-requests "
  /\ enforced (parse_content_policy (PText twice)) = [(u "default-src", [u "*"]); (u "img-src", [u "*"])]
  /\ enforced twice = [(u "default-src", [u "'none'"]); (u "img-src", [u "*"])]
  /\ parse_content_policy (PDict [(u "default-src", One (u "'self'")); (u "img-src", Many [u "https://a.example"; u "data:"])]) = u "default-src 'self'; img-src https://a.example data:".
Proof. vm_compute. auto. Qed.

(** C138: every response carries each of the security headers, once, with the configured value. *)
Definition C138_statement : Prop := forall c ms m, In m (security c ms) ->
  match m with
  | Start _ h | DenialStart _ h => forall k v, In (k, v) (promised c) -> values (lower k) h = [v]
  | _ => True
  end.
Definition config0 : config := {| csp := PText (u "default-src 'self'"); coop := u "same-origin"; referrer := u "same-origin"; hsts := u "max-age=31556926";
  nosniff := u "nosniff"; frame := u "DENY"; xss := u "1; mode=block" |}.
Theorem C138_refuted : ~ C138_statement.
Proof.
  intros H.
  pose proof (H config0 [Start 200 [(u "x-frame-options", u "SAMEORIGIN")]] (Start 200 (secured config0 [(u "x-frame-options", u "SAMEORIGIN")])) (or_introl eq_refl)
    : forall k v, In (k, v) (promised config0) -> values (lower k) (secured config0 [(u "x-frame-options", u "SAMEORIGIN")]) = [v]) as X.
  specialize (X (u "X-Frame-Options") (u "DENY")). assert (Y := X ltac:(unfold promised; do 5 right; left; reflexivity)). vm_compute in Y. discriminate.
Qed.
Print Assumptions C138_refuted.
(** Nor do the responses that deny a websocket. *)
Theorem C138_denial_refuted : exists c h, security c [DenialStart 403 h] = [DenialStart 403 h] /\ values (u "content-security-policy") h = [].
Proof. exists config0, []. now split. Qed.
Print Assumptions C138_denial_refuted.

Theorem C138_added_partial : forall c ms, length (security c ms) = length ms /\
  forall i, match nth_error ms i with
  | Some (Start st h) => exists h', nth_error (security c ms) i = Some (Start st h') /\
      (forall k v, In (k, v) (promised c) -> values (lower k) h' = values (lower k) h ++ [v]) /\
      (forall n, (forall k v, In (k, v) (promised c) -> lower k <> n) -> values n h' = values n h)
  | m => nth_error (security c ms) i = m
  end.
Proof.
  intros c ms. unfold security. split; [apply map_length|]. intros i. rewrite nth_error_map.
  destruct (nth_error ms i) as [[st h|b more|st h|t]|]; try reflexivity. cbn [option_map security_send]. exists (secured c h).
  split; [reflexivity|]. unfold secured. cbv zeta. split.
  - intros k v I. cbn [promised In] in I.
    repeat (destruct I as [I|I]; [apply pair_equal_spec in I as [<- <-];
      rewrite !values_add; repeat match goal with |- context [seqb ?a ?b] => let r := eval vm_compute in (seqb a b) in change (seqb a b) with r; cbv iota end; reflexivity|]).
    destruct I.
  - intros n F. rewrite !values_add.
    repeat match goal with |- context [seqb n (lower ?k)] =>
      destruct (seqb_spec n (lower k)) as [E|_]; [exfalso; refine (F k _ _ (eq_sym E)); cbn [promised In]; auto 10|] end.
    reflexivity.
Qed.
Print Assumptions C138_added_partial.
(** A response of an application that sets none of them has each once, also on the wire. *)
Theorem C138_once : forall order c st h, set_order order -> (forall k v, In (k, v) (promised c) -> values (lower k) h = []) ->
  exists h', security c [Start st h] = [Start st h'] /\ forall k v, In (k, v) (promised c) -> values (lower k) (wire order h') = [v].
Proof.
  intros order c st h O F. destruct (C138_added_partial c [Start st h]) as [_ A]. destruct (A 0%nat) as (h' & E & P & _).
  exists h'. cbn in E. split; [cbn; congruence|]. intros k v I. specialize (P k v I). rewrite (F k v I) in P.
  rewrite wire_values; [exact P|exact O|].
  intros k1 k2 I1 I2 L1 L2.
  assert (U : forall a, In a (map fst h') -> lower a = lower k -> a = k); [|now rewrite (U k1), (U k2)].
  intros a Ia La. cbn in E. injection E as E. unfold secured, hadd in E. cbv zeta in E. rewrite <- E, !map_app in Ia.
  assert (Nh : In a (map fst h) -> a = k).
  { intros J. exfalso. specialize (F k v I). apply in_map_iff in J as ([b w] & Eb & J). cbn in Eb. subst b.
    assert (X : In w (values (lower k) h)); [|rewrite F in X; destruct X]. unfold values. apply in_map_iff. exists (a, w). split; [reflexivity|].
    apply filter_In. split; [exact J|]. cbn [fst]. rewrite La. apply seqb_refl. }
  clear E A P F. repeat (apply in_app_or in Ia as [Ia|Ia]; [|destruct Ia as [Ia|[]]; cbn [fst] in Ia; subst a;
    cbn [promised In] in I; repeat (destruct I as [I|I]; [apply pair_equal_spec in I as [<- _]; first [reflexivity|exfalso; vm_compute in La; discriminate La]|]); destruct I]).
  now apply Nh.
Qed.
Print Assumptions C138_once.
Example C138_case : security config0 [Start 200 [(u "content-type", u "text/plain")]; Body (u "ok") false] =
  [Start 200 [(u "content-type", u "text/plain"); (u "Content-Security-Policy", u "default-src 'self'"); (u "Cross-Origin-Opener-Policy", u "same-origin");
     (u "Referrer-Policy", u "same-origin"); (u "Strict-Transport-Security", u "max-age=31556926"); (u "X-Content-Type-Options", u "nosniff");
     (u "X-Frame-Options", u "DENY"); (u "X-XSS-Protection", u "1; mode=block")]; Body (u "ok") false].
Proof. vm_compute. reflexivity. Qed.

(** C139: with the clickjacking middleware every response has X-Frame-Options: the application's, or
    the configured one in upper case, or DENY. *)
Theorem C139_frame : forall setting ms, length (clickjacking setting ms) = length ms /\
  forall i, match nth_error ms i with
  | Some (Start st h) => exists h', nth_error (clickjacking setting ms) i = Some (Start st h') /\
      (values (u "x-frame-options") h <> [] -> h' = h) /\
      (values (u "x-frame-options") h = [] ->
         values (u "x-frame-options") h' = [match setting with Some s => upper s | None => u "DENY" end] /\
         forall n, n <> u "x-frame-options" -> values n h' = values n h)
  | m => nth_error (clickjacking setting ms) i = m
  end.
Proof.
  intros setting ms. unfold clickjacking. split; [apply map_length|]. intros i. rewrite nth_error_map.
  destruct (nth_error ms i) as [[st h|b more|st h|t]|]; try reflexivity. cbn [option_map click_send].
  eexists. split; [reflexivity|]. unfold hget. rewrite getall_values. change (lower (u "X-Frame-Options")) with (u "x-frame-options").
  destruct (values (u "x-frame-options") h) as [|x r] eqn:V; cbn [hd_error].
  - split; [congruence|]. intros _. split.
    + rewrite values_add. change (seqb _ (lower (u "X-Frame-Options"))) with true. now rewrite V.
    + intros n Nn. rewrite values_add. destruct (seqb_spec n (lower (u "X-Frame-Options"))) as [E|_]; [|reflexivity]. destruct Nn. exact E.
  - split; [reflexivity|congruence].
Qed.
Print Assumptions C139_frame.
Example C139_case : clickjacking (Some (u "sameorigin")) [Start 200 [(u "a", u "b")]] = [Start 200 [(u "a", u "b"); (u "X-Frame-Options", u "SAMEORIGIN")]]
  /\ clickjacking None [Start 200 [(u "x-frame-options", u "ALLOW-FROM x")]] = [Start 200 [(u "x-frame-options", u "ALLOW-FROM x")]].
Proof. vm_compute. auto. Qed.

(** C140: when exceptions are redirected, an error response of a WSGI application is replaced by that
    of the handler for the exception's class or one of its bases; everything else passes unchanged. *)
Definition handles (mro : nat -> list nat) (handlers : list (nat * nat)) (c : nat) : Prop := exists b h, In b (mro c) /\ In (b, h) handlers.
Definition C140_statement : Prop := forall mro decode answer handlers c st h body,
  (forall k, In k (mro k)) -> (400 <= st)%Z -> handles mro handlers c ->
  exists n, wsgi true decode answer handlers c (Start st h :: body) = answer n st (decode (concat (map body_of body))).
Theorem C140_refuted : ~ C140_statement.
Proof.
  intros H. destruct (H (fun k => match k with 1%nat => [1; 0]%nat | _ => [k] end) (fun s => s) (fun n st d => [Start 418 []; Body d false]) [(0, 5)]%nat 1%nat 404%Z [] [Body (u "no") false]) as [n E].
  - intros [|[|k]]; cbn; auto.
  - lia.
  - exists 0%nat, 5%nat. cbn. auto.
  - vm_compute in E. discriminate.
Qed.
Print Assumptions C140_refuted.
Definition error_status (ms : list message) (st : Z) : Prop :=
  (400 <= st)%Z /\ exists pre h post, ms = pre ++ Start st h :: post /\ forall s h', ~ In (Start s h') pre.
Theorem C140_exact_partial : forall redirect decode answer handlers c ms,
  (forall st h, redirect = true -> error_status ms st -> NoDup (map fst handlers) -> In (c, h) handlers ->
     wsgi redirect decode answer handlers c ms = answer h st (decode (concat (map body_of ms)))) /\
  ((redirect = false \/ (forall st, ~ error_status ms st) \/ (forall h, ~ In (c, h) handlers)) -> wsgi redirect decode answer handlers c ms = ms).
Proof.
  assert (FS : forall ms st, first_start ms = Some st <-> exists pre h post, ms = pre ++ Start st h :: post /\ forall s h', ~ In (Start s h') pre).
  { intros ms st. split.
    - induction ms as [|[st' h|b m|st' h|t] r IH]; cbn; try discriminate.
      + intros [= ->]. exists [], h, r. split; [reflexivity|]. intros ? ? [].
      + intros E. destruct (IH E) as (pre & h & post & -> & F). exists (Body b m :: pre), h, post. split; [reflexivity|]. intros s h' [I|I]; [discriminate|exact (F s h' I)].
      + intros E. destruct (IH E) as (pre & h0 & post & -> & F). exists (DenialStart st' h :: pre), h0, post. split; [reflexivity|]. intros s h' [I|I]; [discriminate|exact (F s h' I)].
      + intros E. destruct (IH E) as (pre & h & post & -> & F). exists (Other t :: pre), h, post. split; [reflexivity|]. intros s h' [I|I]; [discriminate|exact (F s h' I)].
    - intros (pre & h & post & -> & F). induction pre as [|[st' h'|b m|st' h'|t] r IH]; cbn; try reflexivity;
        try (apply IH; intros s h1 I; apply (F s h1); now right). destruct (F st' h'). now left. }
  assert (HF : forall handlers c h, handler_for handlers c = Some h -> In (c, h) handlers).
  { intros handlers c h. unfold handler_for. destruct (List.find _ handlers) as [[k v]|] eqn:E; [|discriminate]. cbn. intros [= <-].
    apply List.find_some in E as [I E]. cbn in E. apply Nat.eqb_eq in E. now subst k. }
  assert (HI : forall handlers c h, NoDup (map fst handlers) -> In (c, h) handlers -> handler_for handlers c = Some h).
  { intros handlers c h D I. unfold handler_for. destruct (List.find (fun e => (fst e =? c)%nat) handlers) as [[k v]|] eqn:E.
    - apply List.find_some in E as [J E]. cbn in E. apply Nat.eqb_eq in E. subst k. cbn. f_equal.
      clear - D I J. induction handlers as [|[k w] r IH]; [destruct I|]. cbn in D. apply NoDup_cons_iff in D as [A B].
      destruct I as [I|I], J as [J|J]; [congruence| | |auto]; [injection I as -> ->|injection J as -> ->]; destruct A;
        [now apply (in_map fst) in J|now apply (in_map fst) in I].
    - apply (List.find_none _ _ E) in I. cbn in I. now rewrite Nat.eqb_refl in I. }
  intros redirect decode answer handlers c ms. split.
  - intros st h -> [L E] D H. apply (HI _ _ _ D) in H. apply FS in E. unfold wsgi, buffered. rewrite E. apply Z.leb_le in L. now rewrite L, H.
  - intros H. unfold wsgi, buffered. destruct redirect; [|reflexivity]. destruct (first_start ms) as [st|] eqn:E; [|reflexivity].
    destruct (400 <=? st)%Z eqn:L; [|reflexivity]. destruct (handler_for handlers c) as [h|] eqn:Hh; [|reflexivity].
    destruct H as [H|[H|H]]; [discriminate| |].
    + destruct (H st). split; [now apply Z.leb_le|]. now apply FS.
    + destruct (H h). now apply HF.
Qed.
Print Assumptions C140_exact_partial.
Example C140_case : wsgi true (fun s => s) (fun n st d => [Start 418 []; Body d false]) [(1, 5)]%nat 1%nat [Start 404 []; Body (u "not ") true; Body (u "found") false] = [Start 418 []; Body (u "not found") false]
  /\ wsgi true (fun s => s) (fun n st d => [Start 418 []; Body d false]) [(0, 5)]%nat 1%nat [Start 404 []; Body (u "x") false] = [Start 404 []; Body (u "x") false].
Proof. vm_compute. auto. Qed.
