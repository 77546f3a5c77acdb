(** Property theorems for attached services: C295 - C297. *)
From Verif Require Import PyStr PyStrFacts LifeModel LifeSpec LifeProps SvcModel.
Open Scope nat_scope.

(** ** Vocabulary *)
(** An operation that writes the attribute [n] of the state of [a]. *)
Definition writes (a : nat) (n : str) (o : op) : Prop :=
  match o with
  | SetupMail a' (Some _) _ => a' = a /\ n = u "mailer"
  | SetupAI a' (Some _) n' _ => a' = a /\ n = n'
  | Assign a' n' _ => a' = a /\ n = n'
  | _ => False
  end.
(** The last thing written to [state.mailer] (or the client's attribute) of [a] is the mailer [b] (the client [c]). *)
Definition mailer_set (ops : list op) (a b : nat) : Prop :=
  exists p q attach, ops = p ++ SetupMail a (Some b) attach :: q /\ forall o, In o q -> ~ writes a (u "mailer") o.
Definition client_set (ops : list op) (a c : nat) (n : str) : Prop :=
  exists p q attach, ops = p ++ SetupAI a (Some c) n attach :: q /\ forall o, In o q -> ~ writes a n o.

Lemma run_app p q w : run (p ++ q) w = run q (run p w).
Proof. unfold run. apply fold_left_app. Qed.
Lemma not_written a n q : forall w, (forall o, In o q -> ~ writes a n o) -> dget n (state (run q w a)) = dget n (state (w a)).
Proof.
  induction q as [|o q IH]; intros w H; [reflexivity|]. unfold run. cbn [fold_left]. change (fold_left step q (step w o)) with (run q (step w o)).
  rewrite IH by (intros; apply H; now right). specialize (H o (or_introl eq_refl)).
  destruct o as [a' [b|] at'|a' [c|] n' at'|a' n' o']; cbn [step]; try reflexivity; cbn [writes] in H; unfold update;
    (destruct (Nat.eqb_spec a a') as [<-|]; [|reflexivity]); cbn [state]; rewrite dget_dset_other; intuition congruence.
Qed.
Lemma mailer_there ops w a b : mailer_set ops a b -> dget (u "mailer") (state (run ops w a)) = Some (OMailer b).
Proof.
  intros (p & q & at' & -> & H). rewrite run_app. unfold run at 1. cbn [fold_left]. change (fold_left step q ?x) with (run q x).
  rewrite (not_written a) by exact H. cbn [step]. unfold update. rewrite Nat.eqb_refl. cbn [state]. apply dget_dset_same.
Qed.
Lemma client_there ops w a c n : client_set ops a c n -> dget n (state (run ops w a)) = Some (OClient c).
Proof.
  intros (p & q & at' & -> & H). rewrite run_app. unfold run at 1. cbn [fold_left]. change (fold_left step q ?x) with (run q x).
  rewrite (not_written a) by exact H. cbn [step]. unfold update. rewrite Nat.eqb_refl. cbn [state]. apply dget_dset_same.
Qed.

(** ** C295 *)
(** Full statement: the mailer that was set up on an application is injected into every handler that the application
    serves, those of nested applications without a mailer of their own included. *)
Definition C295_statement : Prop := forall ops w outer inner a b,
  mailer_set ops a b ->
  (exists p q, outer :: inner = p ++ a :: q /\ forall c, In c q -> state (w c) = [] /\ forall o, In o ops -> ~ writes c (u "mailer") o) ->
  resolve_mailer (run ops w) outer inner = Some b.

Definition fresh : application := {| state := []; life := {| up := []; down := []; ctx := OfRouter |} |}.
(** False: a nested application is the one whose state is looked at. *)
Theorem C295_refuted : ~ C295_statement.
Proof.
  intros H. specialize (H [SetupMail 0 (Some 5) true] (fun _ => fresh) 0 [1] 0 5).
  assert (M : mailer_set [SetupMail 0 (Some 5) true] 0 5) by (exists [], [], true; split; [reflexivity|intros ? []]).
  specialize (H M). assert (Q : resolve_mailer (run [SetupMail 0 (Some 5) true] (fun _ => fresh)) 0 [1] = Some 5).
  { apply H. exists [], [1]. split; [reflexivity|]. intros c [<-|[]]. split; [reflexivity|]. intros o [<-|[]]. cbn. intros [E _]. discriminate E. }
  discriminate Q.
Qed.
Print Assumptions C295_refuted.

(** What holds: in the handlers of the application itself, whatever stands around it, it is the mailer set up last ... *)
Theorem C295_own_partial ops w outer inner a b : mailer_set ops a b -> (outer :: inner = [a] \/ exists p, inner = p ++ [a]) ->
  resolve_mailer (run ops w) outer inner = Some b.
Proof.
  intros M C. unfold resolve_mailer, request_app. replace (last inner outer) with a.
  - now rewrite (mailer_there ops w a b M).
  - destruct C as [[= -> ->]|(p & ->)]; [reflexivity|]. symmetry. apply last_last.
Qed.
Print Assumptions C295_own_partial.
(** Whatever the state of an application holds was put there by an operation on it. *)
Definition puts (a : nat) (n : str) (x : obj) (o : op) : Prop :=
  match o with
  | SetupMail a' (Some b) _ => a' = a /\ n = u "mailer" /\ x = OMailer b
  | SetupAI a' (Some c) n' _ => a' = a /\ n = n' /\ x = OClient c
  | Assign a' n' y => a' = a /\ n = n' /\ x = y
  | _ => False
  end.
Lemma put_by ops w a n x : (forall a, state (w a) = []) -> dget n (state (run ops w a)) = Some x -> exists o, In o ops /\ puts a n x o.
Proof.
  intros W. induction ops as [|o ops IH] using rev_ind; intros E.
  - cbn in E. rewrite W in E. discriminate.
  - rewrite run_app in E. unfold run at 1 in E. cbn [fold_left] in E.
    assert (R : dget n (state (run ops w a)) = Some x -> exists o0, In o0 (ops ++ [o]) /\ puts a n x o0).
    { intros E'. destruct (IH E') as (o0 & I & X). exists o0. split; [apply in_app_iff; now left|exact X]. }
    assert (K : forall m y, dget n (dset m y (state (run ops w a))) = Some x -> (n = m -> x = y -> puts a n x o) -> exists o0, In o0 (ops ++ [o]) /\ puts a n x o0).
    { intros m y D P. destruct (seqb n m) eqn:S1.
      - apply seqb_eq in S1. subst m. rewrite dget_dset_same in D. injection D as <-. exists o. split; [apply in_app_iff; right; now left|auto].
      - rewrite dget_dset_other in D; [auto|]. intros ->. now rewrite seqb_refl in S1. }
    destruct o as [a' [c|] at'|a' [c|] n' at'|a' n' o']; cbn [step] in E; auto; unfold update in E;
      (destruct (Nat.eqb_spec a a') as [<-|]; [|auto]); cbn [state] in E; apply (K _ _ E); intros; cbn; auto.
Qed.
(** ... and nothing but a mailer is ever injected: one that was set up or put there on this application. *)
Theorem C295_origin ops w outer inner b : (forall a, state (w a) = []) -> resolve_mailer (run ops w) outer inner = Some b ->
  (exists attach, In (SetupMail (request_app outer inner) (Some b) attach) ops) \/ In (Assign (request_app outer inner) (u "mailer") (OMailer b)) ops.
Proof.
  intros W. unfold resolve_mailer. set (a := request_app outer inner). intros E.
  destruct (dget (u "mailer") (state (run ops w a))) as [[b'| |]|] eqn:D; try discriminate. injection E as ->.
  destruct (put_by _ _ _ _ _ W D) as (o & I & P).
  destruct o as [a' [c|] at'|a' [c|] n' at'|a' n' o']; cbn [puts] in P; try contradiction.
  - destruct P as (-> & _ & [= ->]). left. eauto.
  - destruct P as (_ & _ & P). discriminate P.
  - destruct P as (-> & <- & <-). now right.
Qed.
Print Assumptions C295_origin.
Example C295_case : let ops := [SetupMail 0 (Some 5) true; SetupMail 1 (Some 6) false; SetupMail 0 (Some 7) false] in
  mailer_set ops 0 7 /\ resolve_mailer (run ops (fun _ => fresh)) 0 [] = Some 7 /\ resolve_mailer (run ops (fun _ => fresh)) 0 [2; 1] = Some 6 /\
  resolve_mailer (run ops (fun _ => fresh)) 0 [2] = None.
Proof.
  split; [|vm_compute; auto]. exists [SetupMail 0 (Some 5) true; SetupMail 1 (Some 6) false], [], false. split; [reflexivity|intros ? []].
Qed.

(** ** C296 *)
(** Full statement: the AI client that was set up on an application is injected into its handlers. *)
Definition C296_statement : Prop := forall ops w a c n, client_set ops a c n -> resolve_client (run ops w) a [] = Some c.
(** False: the dependency looks at [state.ai], whatever the attribute the client was set up with. *)
Theorem C296_refuted : ~ C296_statement.
Proof.
  intros H. specialize (H [SetupAI 0 (Some 3) (u "assistant") true] (fun _ => fresh) 0 3 (u "assistant")).
  assert (M : client_set [SetupAI 0 (Some 3) (u "assistant") true] 0 3 (u "assistant")) by (exists [], [], true; split; [reflexivity|intros ? []]).
  specialize (H M). vm_compute in H. discriminate H.
Qed.
Print Assumptions C296_refuted.
Theorem C296_default_partial ops w a c outer inner : client_set ops a c (u "ai") -> (outer :: inner = [a] \/ exists p, inner = p ++ [a]) ->
  resolve_client (run ops w) outer inner = Some c.
Proof.
  intros M C. unfold resolve_client, request_app. replace (last inner outer) with a.
  - now rewrite (client_there ops w a c _ M).
  - destruct C as [[= -> ->]|(p & ->)]; [reflexivity|]. symmetry. apply last_last.
Qed.
Print Assumptions C296_default_partial.
(** With any other attribute alone, nothing is injected. *)
Theorem C296_other ops w a : dget (u "ai") (state (w a)) = None -> (forall o, In o ops -> ~ writes a (u "ai") o) -> resolve_client (run ops w) a [] = None.
Proof. intros W H. unfold resolve_client, request_app. cbn [last]. now rewrite (not_written a) by exact H; rewrite W. Qed.
Print Assumptions C296_other.
(** Nothing but a client is ever injected. *)
Theorem C296_origin ops w outer inner c : (forall a, state (w a) = []) -> resolve_client (run ops w) outer inner = Some c ->
  (exists attach, In (SetupAI (request_app outer inner) (Some c) (u "ai") attach) ops) \/ In (Assign (request_app outer inner) (u "ai") (OClient c)) ops.
Proof.
  intros W. unfold resolve_client. set (a := request_app outer inner). intros E.
  destruct (dget (u "ai") (state (run ops w a))) as [[|c'|]|] eqn:D; try discriminate. injection E as ->.
  destruct (put_by _ _ _ _ _ W D) as (o & I & P).
  destruct o as [a' [b|] at'|a' [b|] n' at'|a' n' o']; cbn [puts] in P; try contradiction.
  - destruct P as (_ & P & _). vm_compute in P. discriminate P.
  - destruct P as (-> & <- & [= ->]). left. eauto.
  - destruct P as (-> & <- & <-). now right.
Qed.
Print Assumptions C296_origin.
Example C296_case : client_set [SetupAI 0 (Some 3) (u "ai") true; SetupMail 0 (Some 1) true] 0 3 (u "ai") /\
  resolve_client (run [SetupAI 0 (Some 3) (u "ai") true; SetupMail 0 (Some 1) true] (fun _ => fresh)) 0 [] = Some 3.
Proof.
  split; [|reflexivity]. exists [], [SetupMail 0 (Some 1) true], true. split; [reflexivity|]. intros o [<-|[]]. cbn. intros [_ E]. vm_compute in E. discriminate E.
Qed.

(** ** C297 *)
(** Full statement: when the server starts and stops the application [root], every mailer and client set up (with its
    life cycle attached) on one of the applications [apps] that [root] serves is opened before the startup is reported and
    closed after the message to stop. *)
Definition attached (a : nat) (o : op) (up_hook down_hook : nat) : Prop :=
  (exists b, o = SetupMail a (Some b) true /\ up_hook = opens b /\ down_hook = closes b) \/
  (exists c n, o = SetupAI a (Some c) n true /\ up_hook = starts_up c /\ down_hook = shuts_down c).
Definition made (g : registry) (us ds : nat -> list nat) (w : world) : Prop := forall a, make_app g (us a) (ds a) None = Some (life (w a)).
Definition C297_statement : Prop := forall g us ds w ops root apps s fine a o x y,
  made g us ds w -> willing s -> (forall n, fine n = true) ->
  In a (root :: apps) -> In o ops -> attached a o x y ->
  exists before after, lifespan fine s (life (run ops w root)) = (orderly before after, true) /\ In x before /\ In y after.

(** False for an application made with any hook of its own: the later ones are not called ... *)
Theorem C297_refuted : ~ C297_statement.
Proof.
  intros H.
  destruct (H {| g_up := []; g_down := [] |} (fun _ => [99]) (fun _ => []) (fun _ => {| state := []; life := {| up := [99]; down := []; ctx := Listed [99] [] |} |})
    [SetupMail 0 (Some 5) true] 0 [] calm (fun _ => true) 0 (SetupMail 0 (Some 5) true) (opens 5) (closes 5)) as (b & d & E & I & _).
  - intros a. reflexivity.
  - exact calm_willing.
  - reflexivity.
  - now left.
  - now left.
  - left. exists 5. auto.
  - cbn in E. injection E as E. unfold orderly in E. cbn [app] in E. destruct b as [|b0 b]; [discriminate E|]. injection E as E0 E.
    destruct b as [|b1 b]; [|discriminate E]. destruct I as [I|[]]. rewrite <- E0 in I. discriminate I.
Qed.
Print Assumptions C297_refuted.
(** ... and for a nested application, whose hooks the server's lifespan does not reach. *)
Theorem C297_nested_refuted : exists ops o x y, In o ops /\ attached 1 o x y /\
  forall s fine, ~ In (Hook x) (fst (lifespan fine s (life (run ops (fun _ => fresh) 0)))).
Proof.
  exists [SetupMail 1 (Some 5) true], (SetupMail 1 (Some 5) true), (opens 5), (closes 5).
  split; [now left|]. split; [left; exists 5; auto|]. intros s fine. unfold lifespan. cbn.
  destruct (starts s), (takes s StartupComplete), (stops s); cbn; intuition discriminate.
Qed.
Print Assumptions C297_nested_refuted.

(** What holds: for an application made without hooks, and none registered for all applications, the hooks that run are
    exactly those of the services attached to it, each once per call of setup, in the order of the calls. *)
Definition up_of (a : nat) (o : op) : list nat :=
  match o with
  | SetupMail a' (Some b) true => if a' =? a then [opens b] else []
  | SetupAI a' (Some c) _ true => if a' =? a then [starts_up c] else []
  | _ => []
  end.
Definition down_of (a : nat) (o : op) : list nat :=
  match o with
  | SetupMail a' (Some b) true => if a' =? a then [closes b] else []
  | SetupAI a' (Some c) _ true => if a' =? a then [shuts_down c] else []
  | _ => []
  end.
Lemma run_life a ops : forall w, life (run ops w a) =
  {| up := up (life (w a)) ++ flat_map (up_of a) ops; down := down (life (w a)) ++ flat_map (down_of a) ops; ctx := ctx (life (w a)) |}.
Proof.
  induction ops as [|o ops IH]; intros w.
  - cbn. rewrite !app_nil_r. now destruct (life (w a)).
  - unfold run. cbn [fold_left]. change (fold_left step ops (step w o)) with (run ops (step w o)). rewrite IH. cbn [flat_map].
    destruct o as [a' [b|] at'|a' [c|] n' at'|a' n' o']; cbn [step up_of down_of app]; try reflexivity; unfold update;
      rewrite ?(Nat.eqb_sym a' a); destruct (a =? a') eqn:Ea; try (apply Nat.eqb_eq in Ea; subst a'); try (destruct at'); cbn [life attach_hooks on_startup on_shutdown up down ctx app];
      rewrite <- ?app_assoc; reflexivity.
Qed.
Theorem C297_hooks_partial ops w a s fine : life (w a) = {| up := []; down := []; ctx := OfRouter |} -> willing s -> (forall n, fine n = true) ->
  exists before after, lifespan fine s (life (run ops w a)) = (orderly before after, true) /\
    (forall o x y, In o ops -> attached a o x y -> In x before /\ In y after) /\
    (forall x, In x before -> exists o y, In o ops /\ attached a o x y) /\
    (forall y, In y after -> exists o x, In o ops /\ attached a o x y) /\
    before = flat_map (up_of a) ops /\ after = flat_map (down_of a) ops.
Proof.
  intros L W F. exists (flat_map (up_of a) ops), (flat_map (down_of a) ops).
  assert (U : forall o x y, attached a o x y -> up_of a o = [x] /\ down_of a o = [y]).
  { intros o x y [(b & -> & -> & ->)|(c & n & -> & -> & ->)]; cbn; now rewrite Nat.eqb_refl. }
  assert (V : forall o, (up_of a o = [] /\ down_of a o = []) \/ exists x y, attached a o x y).
  { intros [a' [b|] [|]|a' [c|] n' [|]|a' n' o']; cbn; auto; destruct (Nat.eqb_spec a' a) as [->|]; auto; right; do 2 eexists; [left|right]; eauto. }
  refine (conj _ (conj _ (conj _ (conj _ (conj eq_refl eq_refl))))).
  - rewrite run_life, L. cbn [up down ctx app]. apply orderly_run; auto; try (intros ? _; apply F).
  - intros o x y I A. destruct (U o x y A) as [E1 E2]. split; apply in_flat_map; exists o; (split; [exact I|]); [rewrite E1|rewrite E2]; now left.
  - intros x I. apply in_flat_map in I as (o & I & J). destruct (V o) as [[E1 _]|(x' & y & A)]; [rewrite E1 in J; destruct J|].
    exists o, y. split; [exact I|]. destruct (U o x' y A) as [E1 _]. rewrite E1 in J. destruct J as [->|[]]. exact A.
  - intros y I. apply in_flat_map in I as (o & I & J). destruct (V o) as [[_ E2]|(x & y' & A)]; [rewrite E2 in J; destruct J|].
    exists o, x. split; [exact I|]. destruct (U o x y' A) as [_ E2]. rewrite E2 in J. destruct J as [->|[]]. exact A.
Qed.
Print Assumptions C297_hooks_partial.
Example C297_case : let ops := [SetupMail 0 (Some 5) true; SetupAI 0 (Some 2) (u "ai") true; SetupMail 0 (Some 7) false] in
  life fresh = {| up := []; down := []; ctx := OfRouter |} /\
  fst (lifespan (fun _ => true) calm (life (run ops (fun _ => fresh) 0))) =
  [Received; Hook (opens 5); Hook (starts_up 2); Sent StartupComplete; Received; Hook (closes 5); Hook (shuts_down 2); Sent ShutdownComplete].
Proof. split; reflexivity. Qed.
