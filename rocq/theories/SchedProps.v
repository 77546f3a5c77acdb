(** C361, C362: the tasks of a scheduler. *)
From Verif Require Import PyStr PyStrFacts SchedModel.

(** ** C361 *)
(** The tasks that some names stand for. *)
Definition loads (load : str -> option task) (tasks : dict str) (ts : list task) : Prop :=
  Forall2 (fun p t => load (snd p ++ u "." ++ fst p) = Some t) tasks ts.
(** The enabled ones, as the scheduler gets them. *)
Definition wanted (ts : list task) : list entry := flat_map (fun t => if t_enabled t then [(t_fn t, t_settings t)] else []) ts.
(** The scheduler takes some tasks after others. *)
Definition taken (refuses : list entry -> entry -> option str) (has es : list entry) : Prop :=
  forall before e after, es = before ++ e :: after -> refuses (has ++ before) e = None.
Lemma wanted_cons t ts : wanted (t :: ts) = (if t_enabled t then [(t_fn t, t_settings t)] else []) ++ wanted ts.
Proof. reflexivity. Qed.
Lemma taken_cons refuses has e es : taken refuses has (e :: es) <-> refuses has e = None /\ taken refuses (has ++ [e]) es.
Proof.
  unfold taken. split.
  - intros H. split; [specialize (H [] e es eq_refl); rewrite app_nil_r in H; exact H|]. intros b x a E. rewrite <- app_assoc. apply (H (e :: b) x a). rewrite E. reflexivity.
  - intros [H1 H2] [|y b] x a E; injection E as <- E; [rewrite app_nil_r; exact H1|]. change (e :: b) with ([e] ++ b). rewrite app_assoc. exact (H2 b x a E).
Qed.
Lemma register_spec load refuses tasks : forall has has' r, register_tasks load refuses has tasks = (has', r) ->
  exists ts es, (exists rest, tasks = firstn (length ts) tasks ++ rest /\ loads load (firstn (length ts) tasks) ts) /\ wanted ts = es /\ has' = has ++ es /\ taken refuses has es
  /\ match r with
     | Registered => length ts = length tasks
     | NotFound n => exists name module, nth_error tasks (length ts) = Some (name, module) /\ n = module ++ u "." ++ name /\ load n = None
     | Misconfigured m => exists name module t, nth_error tasks (length ts) = Some (name, module) /\ load (module ++ u "." ++ name) = Some t /\ t_enabled t = true /\ refuses has' (t_fn t, t_settings t) = Some m
     end.
Proof.
  induction tasks as [|[name module] tasks IH]; intros has has' r H; cbn [register_tasks] in H.
  - injection H as <- <-. exists [], []. refine (conj _ (conj eq_refl (conj _ (conj _ eq_refl)))); [exists []; split; [reflexivity|constructor]|rewrite app_nil_r; reflexivity|intros b e a E; destruct b; discriminate E].
  - cbn zeta in H. destruct (load (module ++ u "." ++ name)) as [t|] eqn:L.
    + destruct (t_enabled t) eqn:EN; cbn [negb] in H.
      * destruct (refuses has (t_fn t, t_settings t)) as [m|] eqn:RF.
        -- injection H as <- <-. exists [], []. refine (conj _ (conj eq_refl (conj _ (conj _ _)))); [exists ((name, module) :: tasks); split; [reflexivity|constructor]|rewrite app_nil_r; reflexivity|intros b e a E; destruct b; discriminate E|].
           exists name, module, t. auto.
        -- destruct (IH _ _ _ H) as (ts & es & (rest & R1 & R2) & W & HH & T & M). exists (t :: ts), ((t_fn t, t_settings t) :: es).
           refine (conj _ (conj _ (conj _ (conj _ _)))).
           ++ exists rest. cbn [length firstn app]. split; [rewrite <- R1; reflexivity|constructor; [exact L|exact R2]].
           ++ rewrite wanted_cons, EN, W. reflexivity.
           ++ rewrite HH, <- app_assoc. reflexivity.
           ++ apply taken_cons. auto.
           ++ destruct r; cbn [length nth_error]; [rewrite M; reflexivity|exact M|exact M].
      * destruct (IH _ _ _ H) as (ts & es & (rest & R1 & R2) & W & HH & T & M). exists (t :: ts), es. refine (conj _ (conj _ (conj HH (conj T _)))).
        -- exists rest. cbn [length firstn app]. split; [rewrite <- R1; reflexivity|constructor; [exact L|exact R2]].
        -- rewrite wanted_cons, EN. exact W.
        -- destruct r; cbn [length nth_error]; [rewrite M; reflexivity|exact M|exact M].
    + injection H as <- <-. exists [], []. refine (conj _ (conj eq_refl (conj _ (conj _ _)))); [exists ((name, module) :: tasks); split; [reflexivity|constructor]|rewrite app_nil_r; reflexivity|intros b e a E; destruct b; discriminate E|].
      exists name, module. auto.
Qed.
(** If the configuration succeeds, the scheduler has been given exactly the enabled tasks, in order, each once, with its
    function and settings; it succeeds if all names can be loaded and the scheduler takes those tasks. *)
Theorem C361_registered : forall load refuses tasks es,
  register_tasks load refuses [] tasks = (es, Registered) <-> exists ts, loads load tasks ts /\ es = wanted ts /\ taken refuses [] es.
Proof.
  intros load refuses tasks es. split.
  - intros H. destruct (register_spec _ _ _ _ _ _ H) as (ts & es' & (rest & R1 & R2) & W & HH & T & M). cbn [app] in HH. exists ts. rewrite M, firstn_all in R2. rewrite HH, W. auto.
  - intros (ts & L & E & T). subst es. change (wanted ts) with ([] ++ wanted ts) at 1. revert T. generalize (@nil entry) as has. induction L as [|[name module] t tasks ts L1 L2 IH]; intros has T; cbn [register_tasks].
    + rewrite app_nil_r. reflexivity.
    + cbn zeta. cbn [fst snd] in L1. rewrite L1. rewrite wanted_cons in *. destruct (t_enabled t); cbn [negb app] in *.
      * apply taken_cons in T as [T1 T2]. rewrite T1, IH by exact T2. rewrite <- app_assoc. reflexivity.
      * apply IH. exact T.
Qed.
Print Assumptions C361_registered.
(** If it fails, the tasks before the one at fault have been given to the scheduler, and none after it; the fault is a name
    without a task, or an enabled task that the scheduler refuses, whose message is kept. *)
Theorem C361_failed : forall load refuses tasks es r, register_tasks load refuses [] tasks = (es, r) -> r <> Registered ->
  exists before name module after ts, tasks = before ++ (name, module) :: after /\ loads load before ts /\ es = wanted ts
  /\ ((load (module ++ u "." ++ name) = None /\ r = NotFound (module ++ u "." ++ name))
      \/ exists t m, load (module ++ u "." ++ name) = Some t /\ t_enabled t = true /\ refuses es (t_fn t, t_settings t) = Some m /\ r = Misconfigured m).
Proof.
  intros load refuses tasks es r H NR. destruct (register_spec _ _ _ _ _ _ H) as (ts & es' & (rest & R1 & R2) & W & HH & T & M). cbn [app] in HH. rewrite <- HH in W.
  assert (SP : forall x, nth_error tasks (length ts) = Some x -> tasks = firstn (length ts) tasks ++ x :: skipn (S (length ts)) tasks).
  { intros x X. apply nth_error_split in X as (a & b & E & LA). rewrite <- LA, E. rewrite firstn_app, Nat.sub_diag, firstn_all, firstn_O, app_nil_r.
    change (S (length a)) with (1 + length a)%nat. rewrite Nat.add_comm. rewrite skipn_app, skipn_all2 by lia. replace (length a + 1 - length a)%nat with 1%nat by lia. reflexivity. }
  destruct r as [|m|n]; [destruct (NR eq_refl)| |].
  - destruct M as (name & module & t & N1 & L & EN & RF). exists (firstn (length ts) tasks), name, module, (skipn (S (length ts)) tasks), ts. refine (conj (SP _ N1) (conj R2 (conj (eq_sym W) _))). right. exists t, m. auto.
  - destruct M as (name & module & N1 & -> & L). exists (firstn (length ts) tasks), name, module, (skipn (S (length ts)) tasks), ts. refine (conj (SP _ N1) (conj R2 (conj (eq_sym W) _))). left. auto.
Qed.
Print Assumptions C361_failed.
Definition plain (id : str) : settings := {| s_name := None; s_trigger := Some 5%nat; s_id := Some id; s_store := None; s_executor := None; s_replace := false; s_args := 0; s_kwargs := 0 |}.
Definition objects (p : str) : option task :=
  if seqb p (u "app.a") then Some (scheduler (plain (u "1")) true 10) else if seqb p (u "app.b") then Some (scheduler (plain (u "2")) false 11) else if seqb p (u "lib.c") then Some (scheduler (plain (u "1")) true 12) else None.
Definition same_id (has : list entry) (e : entry) : option str :=
  if existsb (fun h => match s_id (snd h), s_id (snd e) with Some a, Some b => seqb a b | _, _ => false end) has then Some (u "conflict") else None.
Example C361_case : register_tasks objects same_id [] [(u "a", u "app"); (u "b", u "app")] = ([(10%nat, plain (u "1"))], Registered)
  /\ register_tasks objects same_id [] [(u "a", u "app"); (u "b", u "app"); (u "c", u "lib")] = ([(10%nat, plain (u "1"))], Misconfigured (u "conflict"))
  /\ register_tasks objects same_id [] [(u "b", u "app"); (u "x", u "lib")] = ([], NotFound (u "lib.x")).
Proof. split; [reflexivity|split; reflexivity]. Qed.

(** ** C362 *)
(** A scheduler that is stopped by the method that the base class demands of every scheduler does not run. *)
Definition C362_statement : Prop := forall cs, lives (cs ++ [Stop]) = false.
(** It runs on: the method that ends it has another name, and this one raises NotImplementedError. *)
Theorem C362_refuted : ~ C362_statement /\ forall cs, lives (cs ++ [Stop]) = lives cs /\ snd (life (lives cs) Stop) = NotImplemented.
Proof. split; [intros H; discriminate (H [Start])|]. intros cs. unfold lives. rewrite fold_left_app. split; reflexivity. Qed.
Print Assumptions C362_refuted.
(** It runs exactly if it was started and not shut down since. *)
Theorem C362_partial : forall cs, lives cs = true <-> exists before after, cs = before ++ Start :: after /\ ~ In Shutdown after.
Proof.
  intros cs. induction cs as [|c cs IH] using rev_ind.
  - split; [discriminate|]. intros (b & a & E & _). destruct b; discriminate E.
  - unfold lives in *. rewrite fold_left_app. cbn [fold_left]. destruct c; cbn [life fst].
    + split; [|reflexivity]. intros _. exists cs, []. split; [reflexivity|intros []].
    + rewrite IH. split.
      * intros (b & a & E & N1). exists b, (a ++ [Stop]). split; [rewrite E, <- app_assoc; reflexivity|]. intros I. apply in_app_or in I as [I|[I|[]]]; [exact (N1 I)|discriminate I].
      * intros (b & a & E & N1). destruct a as [|x a] using rev_ind; [apply app_inj_tail in E as [_ E]; discriminate E|]. clear IHa. change (Start :: a ++ [x]) with ((Start :: a) ++ [x]) in E. rewrite app_assoc in E. apply app_inj_tail in E as [-> <-]. exists b, a. split; [reflexivity|]. intros I. apply N1, in_or_app. auto.
    + split; [discriminate|]. intros (b & a & E & N1). exfalso. destruct a as [|x a] using rev_ind; [apply app_inj_tail in E as [_ E]; discriminate E|]. change (Start :: a ++ [x]) with ((Start :: a) ++ [x]) in E. rewrite app_assoc in E. apply app_inj_tail in E as [_ <-]. apply N1, in_or_app. right. left. reflexivity.
Qed.
Print Assumptions C362_partial.
Example C362_case : lives [Start; Stop] = true /\ lives [Start; Stop; Shutdown] = false.
Proof. split; reflexivity. Qed.
