(** C98: the hooks run in order. C99: the lifespan protocol, whatever fails. *)
From Verif Require Import PyStr LifeModel LifeSpec.

Lemma run_fine fine hs : all_fine fine hs -> run_hooks fine hs = (map Hook hs, true).
Proof. induction hs as [|h hs IH]; cbn; intros A; [easy|]. rewrite (A h (or_introl eq_refl)), IH; [easy|]. intros x I. apply A. now right. Qed.
Lemma run_breaks fine a h b : all_fine fine a -> fine h = false -> run_hooks fine (a ++ h :: b) = (map Hook (a ++ [h]), false).
Proof.
  intros A H. induction a as [|x a IH]; cbn; [now rewrite H|]. rewrite (A x (or_introl eq_refl)), IH; [easy|]. intros y I. apply A. now right.
Qed.
Lemma run_cases fine hs : exists hs', runs_of fine hs hs' /\ fst (run_hooks fine hs) = map Hook hs' /\ (snd (run_hooks fine hs) = true <-> all_fine fine hs).
Proof.
  induction hs as [|h hs (hs' & D & E & B)].
  - exists []. cbn. split; [left; split; [intros ? [] | easy] | split; [easy | split; [intros _ ? [] | easy]]].
  - destruct (fine h) eqn:F.
    + exists (h :: hs'). cbn. rewrite F. destruct (run_hooks fine hs) as [t b]. cbn in *. subst t. split; [|split; [easy|]].
      * destruct D as [[A ->]|(a & x & c & -> & A & X & ->)]; [left; split; [|easy] | right; exists (h :: a), x, c; repeat split; auto];
          intros y [<-|I]; auto.
      * rewrite B. split; [intros A y [<-|I]; auto | intros A y I; apply A; now right].
    + exists [h]. cbn. rewrite F. cbn. split; [|split; [easy|]].
      * right. exists [], h, hs. repeat split; auto. intros ? [].
      * split; [discriminate|]. intros A. rewrite (A h (or_introl eq_refl)) in F. discriminate.
Qed.

(** ** C98 *)
Lemma orderly_run fine s r u d : willing s -> all_fine fine u -> all_fine fine d ->
  ctx r = Listed u d \/ (ctx r = OfRouter /\ up r = u /\ down r = d) -> lifespan fine s r = (orderly u d, true).
Proof.
  intros (S1 & S2 & S3) U D C. unfold lifespan, enter, leave. rewrite S1, S2, !S3.
  destruct C as [-> | (-> & -> & ->)]; rewrite (run_fine _ _ U), (run_fine _ _ D); cbn; unfold orderly; now rewrite <- !app_assoc.
Qed.
Lemma later_lists u d r : later u d r = {| up := up r ++ u; down := down r ++ d; ctx := ctx r |}.
Proof.
  unfold later. assert (U : forall r, fold_left (fun r n => on_startup n r) u r = {| up := up r ++ u; down := down r; ctx := ctx r |}).
  { induction u as [|n u IH]; intros x; cbn; [destruct x; cbn; now rewrite app_nil_r|]. rewrite IH. cbn. now rewrite <- app_assoc. }
  rewrite U. clear U. generalize (up r ++ u). intros l.
  assert (D : forall r, fold_left (fun r n => on_shutdown n r) d r = {| up := up r; down := down r ++ d; ctx := ctx r |}).
  { induction d as [|n d IH]; intros x; cbn; [destruct x; cbn; now rewrite app_nil_r|]. rewrite IH. cbn. now rewrite <- app_assoc. }
  now rewrite D.
Qed.

(** The global hooks first and last, the application's between them, those added later after its own. *)
Definition C98_statement : Prop := forall fine s g u d u' d' r, make_app g u d None = Some r -> willing s -> (forall n, fine n = true) ->
  lifespan fine s (later u' d' r) = (orderly (g_up g ++ u ++ u') (d ++ d' ++ g_down g), true).

Theorem C98_hooks_partial : forall fine s g u d r, make_app g u d None = Some r -> willing s -> (forall n, fine n = true) ->
  lifespan fine s r = (orderly (g_up g ++ u) (d ++ g_down g), true).
Proof.
  intros fine s g u d r [= <-] W F. apply orderly_run; auto; try (intros ? _; apply F). cbn [ctx or_nil up down].
  destruct (g_up g ++ u) eqn:U, (d ++ g_down g) eqn:D; auto.
  right. apply app_eq_nil in U, D. destruct U as [-> _], D as [_ ->]. easy.
Qed.
Print Assumptions C98_hooks_partial.
Theorem C98_later_partial : forall fine s u' d' r, make_app {| g_up := []; g_down := [] |} [] [] None = Some r -> willing s -> (forall n, fine n = true) ->
  lifespan fine s (later u' d' r) = (orderly u' d', true).
Proof. intros fine s u' d' r [= <-] W F. rewrite later_lists. apply orderly_run; auto; intros ? _; apply F. Qed.
Print Assumptions C98_later_partial.

Definition calm : server := {| starts := true; stops := true; takes := fun _ => true; has_state := true |}.
Lemma calm_willing : willing calm. Proof. repeat split. Qed.
Example C98_case : exists r, make_app {| g_up := [1]; g_down := [2] |} [3; 4] [5] None = Some r /\
  lifespan (fun _ => true) calm r = ([Received; Hook 1; Hook 3; Hook 4; Sent StartupComplete; Received; Hook 5; Hook 2; Sent ShutdownComplete], true).
Proof. eexists. split; reflexivity. Qed.
(** A handler added to an application that was made with one is never called. *)
Theorem C98_refuted : ~ C98_statement.
Proof.
  intros H. specialize (H (fun _ => true) calm {| g_up := []; g_down := [] |} [3] [] [4] [] _ eq_refl calm_willing (fun _ => eq_refl)). discriminate.
Qed.
Print Assumptions C98_refuted.
(** A router with hooks of its own leaves the global ones out. *)
Definition C98_router_statement : Prop := forall fine s g u d r, make_router g u d None = Some r -> willing s -> (forall n, fine n = true) ->
  lifespan fine s r = (orderly (g_up g ++ or_nil u) (or_nil d ++ g_down g), true).
Theorem C98_router_partial : forall fine s g u d r, make_router g u d None = Some r -> willing s -> (forall n, fine n = true) ->
  (or_nil u = [] /\ or_nil d = []) \/ (g_up g = [] /\ g_down g = []) ->
  lifespan fine s r = (orderly (g_up g ++ or_nil u) (or_nil d ++ g_down g), true).
Proof.
  intros fine s g u d r E W F D. cbn in E.
  assert (E' : r = {| up := g_up g ++ or_nil u; down := or_nil d ++ g_down g; ctx := match or_nil u, or_nil d with [], [] => OfRouter | _, _ => Listed (or_nil u) (or_nil d) end |})
    by (now injection E as <-).
  subst r. apply orderly_run; auto; try (intros ? _; apply F). cbn [ctx up down].
  destruct D as [[-> ->] | [-> ->]]; [auto|]. cbn. rewrite app_nil_r. destruct (or_nil u), (or_nil d); auto.
Qed.
Print Assumptions C98_router_partial.
Theorem C98_router_refuted : ~ C98_router_statement.
Proof.
  intros H. specialize (H (fun _ => true) calm {| g_up := [1]; g_down := [] |} (Some [3]) None _ eq_refl calm_willing (fun _ => eq_refl)). discriminate.
Qed.
Print Assumptions C98_router_refuted.
(** With a context manager, hooks are neither refused nor run. *)
Definition C98_context_statement : Prop := forall fine s g u d m r h, make_app g u d (Some m) = Some r -> willing s -> In h u -> enters m = Some false ->
  In (Hook h) (fst (lifespan fine s r)).
Theorem C98_context_refuted : ~ C98_context_statement.
Proof.
  intros H. specialize (H (fun _ => true) calm {| g_up := []; g_down := [] |} [3] [] {| enters := Some false; leaves := fun _ => Returns |} _ 3 eq_refl calm_willing (or_introl eq_refl) eq_refl).
  cbn in H. intuition discriminate.
Qed.
Print Assumptions C98_context_refuted.

(** ** C99 *)
(** The hooks an application or router goes through. *)
Definition goes (r : router) (u d : list nat) : Prop := ctx r = Listed u d \/ (ctx r = OfRouter /\ up r = u /\ down r = d).
Lemma goes_enter fine r u d : goes r u d -> enter fine r = (fst (run_hooks fine u), if snd (run_hooks fine u) then Some false else None).
Proof. unfold enter. intros [-> | (-> & -> & _)]; now destruct (run_hooks fine u). Qed.
Lemma goes_leave fine r u d f : goes r u d -> leave fine r f = (fst (run_hooks fine d), if snd (run_hooks fine d) then Returns else Raises).
Proof. unfold leave. intros [-> | (-> & _ & ->)]; now destruct (run_hooks fine d). Qed.

(** With hooks: if startup fails, it is reported, nothing of the shutdown runs, and the error goes on; else
    startup is reported after all hooks, the shutdown hooks run (even when the server breaks off), and
    success is reported only if all of them returned. *)
Theorem C99_startup_fails : forall fine s r u d u', goes r u d -> starts s = true -> ~ all_fine fine u -> runs_of fine u u' ->
  lifespan fine s r = (Received :: map Hook u' ++ [Sent StartupFailed], false).
Proof.
  intros fine s r u d u' G S N [[A _]|(a & h & b & -> & A & H & ->)]; [contradiction|].
  unfold lifespan. rewrite S, (goes_enter _ _ _ _ G), (run_breaks _ _ _ _ A H). reflexivity.
Qed.
Print Assumptions C99_startup_fails.
Theorem C99_startup_succeeds : forall fine s r u d d', goes r u d -> starts s = true -> takes s StartupComplete = true -> all_fine fine u -> runs_of fine d d' ->
  exists last, fst (lifespan fine s r) = Received :: map Hook u ++ [Sent StartupComplete; Received] ++ map Hook d' ++ [Sent last] /\
    (last = ShutdownComplete <-> stops s = true /\ all_fine fine d) /\ (last = ShutdownComplete \/ last = ShutdownFailed) /\
    (snd (lifespan fine s r) = true <-> last = ShutdownComplete /\ takes s ShutdownComplete = true).
Proof.
  intros fine s r u d d' G S T A D. unfold lifespan. rewrite S, T, (goes_enter _ _ _ _ G), (run_fine _ _ A). cbn [fst snd negb andb].
  rewrite (goes_leave _ _ _ _ _ G).
  assert (E : run_hooks fine d = (map Hook d', true) /\ all_fine fine d \/ run_hooks fine d = (map Hook d', false) /\ ~ all_fine fine d).
  { destruct D as [[F ->]|(a & h & b & -> & F & H & ->)]; [left; split; auto; now apply run_fine | right; split; [now apply run_breaks|]].
    intros X. rewrite (X h) in H; [discriminate | apply in_app_iff; right; now left]. }
  destruct E as [[-> F]|[-> F]]; cbn [fst snd].
  - destruct (stops s); cbn [negb]; eexists; (split; [cbn; rewrite <- app_assoc; cbn; reflexivity|]); cbn; (split; [|split; [auto|]]); split; try easy; try tauto.
  - destruct (stops s); cbn [negb]; eexists; (split; [cbn; rewrite <- app_assoc; cbn; reflexivity|]); cbn; (split; [|split; [auto|]]); split; try easy; try tauto.
Qed.
Print Assumptions C99_startup_succeeds.
(** The server breaks off at once, or does not take the report: startup is reported to have failed; what was
    started is shut down. *)
Theorem C99_server_gone : forall fine s r u d, goes r u d ->
  (starts s = false -> lifespan fine s r = ([Received; Sent StartupFailed], false)) /\
  (starts s = true -> takes s StartupComplete = false -> all_fine fine u -> forall d', runs_of fine d d' ->
    lifespan fine s r = (Received :: map Hook u ++ [Sent StartupComplete] ++ map Hook d' ++ [Sent StartupFailed], false)).
Proof.
  intros fine s r u d G. split.
  - intros S. unfold lifespan. now rewrite S.
  - intros S T A d' D. unfold lifespan. rewrite S, T, (goes_enter _ _ _ _ G), (run_fine _ _ A). cbn [fst snd negb andb].
    rewrite (goes_leave _ _ _ _ _ G).
    assert (E : fst (run_hooks fine d) = map Hook d') by (destruct D as [[F ->]|(a & h & b & -> & F & H & ->)]; [now rewrite run_fine | now rewrite run_breaks]).
    rewrite E. destruct (snd (run_hooks fine d)); cbn; now rewrite <- app_assoc.
Qed.
Print Assumptions C99_server_gone.
(** The messages to a willing server, for any context that does not swallow exceptions. *)
Definition swallows_nothing (r : router) : Prop := match ctx r with Given m => forall b, leaves m b <> Swallows | _ => True end.
Theorem C99_protocol : forall fine s r, (forall m, takes s m = true) -> swallows_nothing r ->
  let '(t, b) := lifespan fine s r in
  (sent t = [StartupFailed] /\ b = false) \/ (sent t = [StartupComplete; ShutdownFailed] /\ b = false) \/ (sent t = [StartupComplete; ShutdownComplete] /\ b = true).
Proof.
  intros fine s r T W.
  assert (Q : forall hs, sent (fst (run_hooks fine hs)) = []).
  { intros hs. destruct (run_cases fine hs) as (hs' & _ & -> & _). induction hs'; auto. }
  assert (En : sent (fst (enter fine r)) = []).
  { unfold enter. destruct (ctx r) as [u d| |m]; auto; [specialize (Q u); destruct (run_hooks fine u) | specialize (Q (up r)); destruct (run_hooks fine (up r))]; exact Q. }
  assert (Le : forall f, sent (fst (leave fine r f)) = [] /\ snd (leave fine r f) <> Swallows).
  { intros f. unfold leave. unfold swallows_nothing in W. destruct (ctx r) as [u d| |m].
    - specialize (Q d). destruct (run_hooks fine d) as [t []]; split; auto; discriminate.
    - specialize (Q (down r)). destruct (run_hooks fine (down r)) as [t []]; split; auto; discriminate.
    - split; [easy | apply W]. }
  assert (App : forall a b, sent (a ++ b) = sent a ++ sent b) by (intros; apply flat_map_app).
  assert (SR : forall t, sent (Received :: t) = sent t) by easy.
  unfold lifespan. destruct (starts s); cbn [negb]; [|left; easy].
  destruct (enter fine r) as [t1 [st|]]; cbn [fst] in En; [|left; rewrite SR, App, En; split; reflexivity].
  destruct (st && negb (has_state s)).
  - destruct (Le true) as [L N]. destruct (leave fine r true) as [t3 l]. cbn [fst snd] in L, N.
    destruct l; try contradiction; cbn iota beta; left; rewrite !App, SR, !App, En, L; split; reflexivity.
  - rewrite !T. cbn [negb]. destruct (Le (negb (stops s))) as [L N]. destruct (leave fine r (negb (stops s))) as [t3 l]. cbn [fst snd] in L, N.
    destruct (stops s), l; try contradiction; cbn [negb]; cbn iota beta; right; rewrite ?T; rewrite !App, SR, !App, En, L; auto.
Qed.
Print Assumptions C99_protocol.

Example C99_case : lifespan (fun n => negb (Nat.eqb n 5)) calm {| up := []; down := []; ctx := Listed [3; 4] [5; 6] |}
  = ([Received; Hook 3; Hook 4; Sent StartupComplete; Received; Hook 5; Sent ShutdownFailed], false)
  /\ lifespan (fun n => negb (Nat.eqb n 3)) calm {| up := []; down := []; ctx := Listed [3; 4] [5; 6] |}
  = ([Received; Hook 3; Sent StartupFailed], false).
Proof. split; reflexivity. Qed.

(** Every shutdown hook of an application that has started is called: not after one that raises. *)
Definition C99_released_statement : Prop := forall fine s r u d h, goes r u d -> starts s = true -> all_fine fine u -> In h d ->
  In (Hook h) (fst (lifespan fine s r)).
Theorem C99_released_partial : forall fine s r u d l h, goes r u (d ++ [l]) -> starts s = true -> all_fine fine u -> all_fine fine d -> In h (d ++ [l]) ->
  In (Hook h) (fst (lifespan fine s r)).
Proof.
  intros fine s r u d l h G S A D I.
  assert (Ru : runs_of fine (d ++ [l]) (d ++ [l])).
  { destruct (fine l) eqn:F; [left; split; auto; intros x [X|[<-|[]]]%in_app_iff; auto | right; exists d, l, []; auto]. }
  assert (Ih : In (Hook h) (map Hook (d ++ [l]))) by (now apply in_map).
  destruct (takes s StartupComplete) eqn:T.
  - destruct (C99_startup_succeeds fine s r u _ _ G S T A Ru) as (m & -> & _). right. rewrite !in_app_iff. auto.
  - rewrite (proj2 (C99_server_gone fine s r u _ G) S T A _ Ru). right. cbn. rewrite !in_app_iff. right. right. apply in_app_iff. auto.
Qed.
Print Assumptions C99_released_partial.
Theorem C99_released_refuted : ~ C99_released_statement.
Proof.
  intros H. specialize (H (fun n => negb (Nat.eqb n 5)) calm {| up := []; down := []; ctx := Listed [3] [5; 6] |} [3] [5; 6] 6 (or_introl eq_refl) eq_refl).
  cbn in H. assert (A : all_fine (fun n => negb (Nat.eqb n 5)) [3]) by (intros h [<-|[]]; reflexivity).
  specialize (H A). intuition discriminate.
Qed.
Print Assumptions C99_released_refuted.
