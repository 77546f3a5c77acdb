(** C227 to C230: the proxies of the logger and the serializer under every schedule. *)
From Verif Require Import PyStr ProxyModel.

(** What is in place after a trace. *)
Fixpoint in_place (tr : list event) (o : option obj) : option obj :=
  match tr with
  | [] => o
  | EDefault _ :: r => in_place r (Some Default)
  | EBind _ x :: r => in_place r x
  | _ :: r => in_place r o
  end.
Definition holds (tr : list event) : option obj := in_place tr None.
(** The setups of the default, and the binds of None. *)
Definition setups (tr : list event) : nat := length (filter (fun e => match e with ESetup _ => true | _ => false end) tr).
Definition unbinds (tr : list event) : nat := length (filter (fun e => match e with EBind _ None => true | _ => false end) tr).

(** * Facts *)
Lemma holds_snoc tr e : holds (tr ++ [e]) = match e with EDefault _ => Some Default | EBind _ x => x | _ => holds tr end.
Proof.
  enough (H : forall o, in_place (tr ++ [e]) o = match e with EDefault _ => Some Default | EBind _ x => x | _ => in_place tr o end) by apply H.
  induction tr as [|a tr IH]; intros o; [destruct e; reflexivity|]. cbn [app]. destruct a; cbn [in_place]; apply IH.
Qed.
Lemma setups_snoc tr e : setups (tr ++ [e]) = (setups tr + match e with ESetup _ => 1 | _ => 0 end)%nat.
Proof. unfold setups. rewrite filter_app, app_length. destruct e; reflexivity. Qed.
Lemma unbinds_snoc tr e : unbinds (tr ++ [e]) = (unbinds tr + match e with EBind _ None => 1 | _ => 0 end)%nat.
Proof. unfold unbinds. rewrite filter_app, app_length. destruct e as [|?|? [?|]|]; reflexivity. Qed.
Lemma upd_same {A} (f : nat -> A) t x : upd f t x t = x.
Proof. unfold upd. rewrite Nat.eqb_refl. reflexivity. Qed.
Lemma upd_other {A} (f : nat -> A) t x i : i <> t -> upd f t x i = f i.
Proof. unfold upd. intros N. destruct (Nat.eqb_spec i t); [contradiction|reflexivity]. Qed.

(** How often a place has the lock. *)
Definition locks (p : pc) : nat :=
  match p with
  | UCheck | USetup | SLock | UGet | UDone | URel | BWrite _ | BRel => 1
  | SWrite | SRel => 2
  | _ => 0
  end.
Section Inv.
Variable k : kind.
Variable falsy : nat -> bool.
Definition locked (s : state) : Prop :=
  match owner s with
  | None => depth s = 0%nat /\ forall t, locks (at_ s t) = 0%nat
  | Some t => depth s = locks (at_ s t) /\ (0 < depth s)%nat /\ forall t', t' <> t -> locks (at_ s t') = 0%nat
  end.
(** What a thread that has the lock knows. *)
Definition knows (s : state) : Prop := forall t,
  match at_ s t with
  | USetup | SLock | SWrite => missing k falsy (cur s) = true
  | SRel | UGet | URel => missing k falsy (cur s) = false
  | _ => True
  end.
Definition inv (s : state) : Prop := locked s /\ knows s /\ cur s = holds (trace s).
Lemma owns s t : locked s -> (0 < locks (at_ s t))%nat -> owner s = Some t /\ depth s = locks (at_ s t).
Proof.
  unfold locked. destruct (owner s) as [t'|]; intros L P.
  - destruct L as (D & _ & O). destruct (Nat.eq_dec t t') as [->|N]; [auto|]. specialize (O t N). lia.
  - destruct L as [_ O]. specialize (O t). lia.
Qed.
Ltac at_cases s t := intros t'; unfold go, note, put, release; cbn [at_ cur trace owner depth]; destruct (Nat.eq_dec t' t) as [->|NE]; [rewrite upd_same|rewrite (upd_other _ _ _ _ NE)].
(** A step that leaves the lock. *)
Lemma locked_go s t p : locked s -> locks p = locks (at_ s t) -> locked (go s t p).
Proof.
  unfold locked, go. cbn [owner depth at_]. destruct (owner s) as [o|]; intros L E.
  - destruct L as (D & P & O). refine (conj _ (conj P _)).
    + destruct (Nat.eq_dec o t) as [->|NE]; [rewrite upd_same; congruence|rewrite (upd_other _ _ _ _ NE); exact D].
    + intros t' NE'. destruct (Nat.eq_dec t' t) as [->|NE]; [rewrite upd_same, E; apply O, NE'|rewrite (upd_other _ _ _ _ NE); apply O, NE'].
  - destruct L as [D O]. split; [exact D|]. intros t'. destruct (Nat.eq_dec t' t) as [->|NE]; [rewrite upd_same, E; apply O|rewrite (upd_other _ _ _ _ NE); apply O].
Qed.
Lemma locked_acquire s t p s1 : locked s -> acquire s t = Some s1 -> locks p = S (locks (at_ s t)) -> locked (go s1 t p).
Proof.
  unfold locked, acquire. destruct (owner s) as [o|]; intros L A E.
  - destruct (Nat.eqb_spec t o) as [<-|]; [|discriminate A]. injection A as <-. unfold go. cbn [owner depth at_]. destruct L as (D & P & O). rewrite upd_same. refine (conj _ (conj _ _)); [lia|lia|].
    intros t' NE. rewrite (upd_other _ _ _ _ NE). apply O, NE.
  - injection A as <-. unfold go. cbn [owner depth at_]. destruct L as [D O]. rewrite upd_same. refine (conj _ (conj _ _)); [rewrite E, O; reflexivity|lia|]. intros t' NE. rewrite (upd_other _ _ _ _ NE). apply O.
Qed.
Lemma locked_release s t p : locked s -> locks (at_ s t) = S (locks p) -> locked (go (release s) t p).
Proof.
  intros L E. destruct (owns s t L) as [O D]; [lia|]. unfold locked in *. rewrite O in L. destruct L as (_ & P & OT). unfold go, release. cbn [owner depth at_]. rewrite D, E.
  destruct (Nat.eqb_spec (S (locks p)) 1) as [X|X].
  - split; [cbn; lia|]. intros t'. destruct (Nat.eq_dec t' t) as [->|NE]; [rewrite upd_same; lia|rewrite (upd_other _ _ _ _ NE); apply OT, NE].
  - rewrite O. rewrite upd_same. refine (conj eq_refl (conj _ _)); [cbn; lia|]. intros t' NE. rewrite (upd_other _ _ _ _ NE). apply OT, NE.
Qed.
Lemma locked_same s s' : owner s' = owner s -> depth s' = depth s -> at_ s' = at_ s -> locked s -> locked s'.
Proof. unfold locked. intros -> -> ->. trivial. Qed.
Lemma knows_go s s1 t p : knows s -> cur s1 = cur s -> at_ s1 = at_ s ->
  match p with USetup | SLock | SWrite => missing k falsy (cur s) = true | SRel | UGet | URel => missing k falsy (cur s) = false | _ => True end -> knows (go s1 t p).
Proof. intros K C A P t'. unfold go. cbn [at_ cur]. rewrite C, A. destruct (Nat.eq_dec t' t) as [->|NE]; [rewrite upd_same; exact P|rewrite (upd_other _ _ _ _ NE); exact (K t')]. Qed.
(** A write of a thread that has the lock: no other thread knows anything. *)
Lemma knows_write s s1 t p : locked s -> (0 < locks (at_ s t))%nat -> at_ s1 = at_ s ->
  match p with USetup | SLock | SWrite => missing k falsy (cur s1) = true | SRel | UGet | URel => missing k falsy (cur s1) = false | _ => True end -> knows (go s1 t p).
Proof.
  intros L W A P t'. unfold go. cbn [at_ cur]. rewrite A. destruct (Nat.eq_dec t' t) as [->|NE]; [rewrite upd_same; exact P|rewrite (upd_other _ _ _ _ NE)].
  destruct (owns s t L W) as [O _]. unfold locked in L. rewrite O in L. destruct L as (_ & _ & OT). specialize (OT t' NE). destruct (at_ s t'); cbn in OT; trivial; discriminate OT.
Qed.
Lemma acquire_same s t s1 : acquire s t = Some s1 -> cur s1 = cur s /\ at_ s1 = at_ s /\ trace s1 = trace s /\ todo s1 = todo s.
Proof. unfold acquire. destruct (owner s); [destruct (Nat.eqb _ _)|]; intros A; inversion A; auto. Qed.
Lemma step_inv s t s' : inv s -> step k falsy t s = Some s' -> inv s'.
Proof.
  intros (L & K & C) ST. unfold step in ST. assert (KT := K t). destruct (at_ s t) eqn:AT.
  - destruct (todo s t) as [|[|x] r]; [discriminate ST| |].
    + cbn [cur] in ST. destruct (missing k falsy (cur s)) eqn:M; [|destruct k eqn:KK].
      * injection ST as <-. refine (conj _ (conj _ C)); [apply locked_go; [exact L|cbn [at_]; rewrite AT; reflexivity]|apply (knows_go s); [exact K|reflexivity|reflexivity|exact I]].
      * injection ST as <-. refine (conj _ (conj _ C)); [apply locked_go; [exact L|cbn [at_]; rewrite AT; reflexivity]|]. apply (knows_go s); [exact K|reflexivity|reflexivity|exact I].
      * injection ST as <-. refine (conj L (conj K _)). unfold note. cbn [cur trace]. rewrite holds_snoc. exact C.
    + injection ST as <-. refine (conj _ (conj _ C)); [apply locked_go; [exact L|cbn [at_]; rewrite AT; reflexivity]|apply (knows_go s); [exact K|reflexivity|reflexivity|exact I]].
  - destruct (acquire s t) as [s1|] eqn:A; [|discriminate ST]. injection ST as <-. destruct (acquire_same s t s1 A) as (E1 & E2 & E3 & _).
    refine (conj _ (conj _ _)); [apply (locked_acquire s t _ s1 L A); rewrite AT; reflexivity|apply (knows_go s); [exact K|exact E1|exact E2|exact I]|cbn [go cur trace]; congruence].
  - injection ST as <-. refine (conj _ (conj _ C)).
    + apply locked_go; [exact L|]. rewrite AT. destruct (missing k falsy (cur s)); [reflexivity|destruct k; reflexivity].
    + apply (knows_go s); [exact K|reflexivity|reflexivity|]. destruct (missing k falsy (cur s)) eqn:M; [reflexivity|]. destruct k; reflexivity.
  - injection ST as <-. refine (conj _ (conj _ _)); [apply locked_go; [exact L|cbn [note at_]; rewrite AT; reflexivity]|apply (knows_go s); [exact K|reflexivity|reflexivity|exact KT]|]. unfold go, note. cbn [cur trace]. rewrite holds_snoc. exact C.
  - destruct (acquire s t) as [s1|] eqn:A; [|discriminate ST]. injection ST as <-. destruct (acquire_same s t s1 A) as (E1 & E2 & E3 & _).
    refine (conj _ (conj _ _)); [apply (locked_acquire s t _ s1 L A); rewrite AT; reflexivity|apply (knows_go s); [exact K|exact E1|exact E2|exact KT]|cbn [go cur trace]; congruence].
  - injection ST as <-. refine (conj _ (conj _ _)).
    + apply locked_go; [exact L|cbn [note put at_]; rewrite AT; reflexivity].
    + apply (knows_write s); [exact L|rewrite AT; cbn; lia|reflexivity|]. cbn [note put cur]. unfold missing. destruct k; reflexivity.
    + unfold go, note, put. cbn [cur trace]. rewrite holds_snoc. reflexivity.
  - injection ST as <-. refine (conj _ (conj _ C)); [apply locked_release; [exact L|rewrite AT; destruct k; reflexivity]|apply (knows_go s); [exact K|reflexivity|reflexivity|]]. destruct k; exact KT.
  - injection ST as <-. refine (conj _ (conj _ _)); [apply locked_go; [exact L|cbn [note at_]; rewrite AT; reflexivity]|apply (knows_go s); [exact K|reflexivity|reflexivity|exact I]|]. unfold go, note. cbn [cur trace]. rewrite holds_snoc. exact C.
  - injection ST as <-. refine (conj _ (conj _ C)); [apply locked_release; [exact L|rewrite AT; reflexivity]|apply (knows_go s); [exact K|reflexivity|reflexivity|exact I]].
  - injection ST as <-. refine (conj _ (conj _ C)); [apply locked_release; [exact L|rewrite AT; reflexivity]|apply (knows_go s); [exact K|reflexivity|reflexivity|exact I]].
  - injection ST as <-. refine (conj _ (conj _ _)); [apply locked_go; [exact L|cbn [note at_]; rewrite AT; reflexivity]|apply (knows_go s); [exact K|reflexivity|reflexivity|exact I]|]. unfold go, note. cbn [cur trace]. rewrite holds_snoc. exact C.
  - destruct (acquire s t) as [s1|] eqn:A; [|discriminate ST]. injection ST as <-. destruct (acquire_same s t s1 A) as (E1 & E2 & E3 & _).
    refine (conj _ (conj _ _)); [apply (locked_acquire s t _ s1 L A); rewrite AT; reflexivity|apply (knows_go s); [exact K|exact E1|exact E2|exact I]|cbn [go cur trace]; congruence].
  - injection ST as <-. refine (conj _ (conj _ _)).
    + apply locked_go; [exact L|cbn [note put at_]; rewrite AT; reflexivity].
    + apply (knows_write s); [exact L|rewrite AT; cbn; lia|reflexivity|exact I].
    + unfold go, note, put. cbn [cur trace]. rewrite holds_snoc. reflexivity.
  - injection ST as <-. refine (conj _ (conj _ C)); [apply locked_release; [exact L|rewrite AT; reflexivity]|apply (knows_go s); [exact K|reflexivity|reflexivity|exact I]].
Qed.
Lemma start_inv progs : inv (start progs).
Proof. split; [split; [reflexivity|intros; reflexivity]|]. split; [intros t; exact I|reflexivity]. Qed.
(** Induction over a schedule. *)
Lemma run_ind (P : state -> Prop) : (forall s t s', P s -> step k falsy t s = Some s' -> P s') -> forall sched s, P s -> P (run k falsy sched s).
Proof. intros ST. induction sched as [|t r IH]; intros s H; [exact H|]. cbn [run]. apply IH. destruct (step k falsy t s) as [s'|] eqn:E; [exact (ST s t s' H E)|exact H]. Qed.
Lemma run_inv sched progs : inv (run k falsy sched (start progs)).
Proof. apply run_ind; [intros s t s'; apply step_inv|apply start_inv]. Qed.
(** Something that every event satisfies, given what came before it. *)
Definition each (Q : list event -> event -> Prop) (tr : list event) : Prop := forall pre e post, tr = pre ++ e :: post -> Q pre e.
Lemma each_nil Q : each Q [].
Proof. intros pre e post E. destruct pre; discriminate E. Qed.
Lemma each_snoc Q tr e : each Q tr -> Q tr e -> each Q (tr ++ [e]).
Proof.
  intros A B pre x post E. destruct post as [|y post] using rev_ind; [apply app_inj_tail in E; destruct E as [-> ->]; exact B|]. clear IHpost.
  apply (A pre x post). change (x :: post ++ [y]) with ((x :: post) ++ [y]) in E. rewrite app_assoc in E. apply app_inj_tail in E. exact (proj1 E).
Qed.
(** The events a step adds. *)
Lemma step_event s t s' : inv s -> step k falsy t s = Some s' ->
  trace s' = trace s
  \/ trace s' = trace s ++ [ESetup t] /\ missing k falsy (holds (trace s)) = true
  \/ trace s' = trace s ++ [EDefault t] /\ missing k falsy (holds (trace s)) = true
  \/ (exists x, trace s' = trace s ++ [EBind t x] /\ at_ s t = BWrite x)
  \/ trace s' = trace s ++ [EGot t (holds (trace s))] /\ (missing k falsy (holds (trace s)) = false \/ at_ s t = URead /\ k = Logger \/ at_ s t = URead).
Proof.
  intros (L & K & C) ST. unfold step in ST. assert (KT := K t). rewrite <- C. destruct (at_ s t) eqn:AT; try (injection ST as <-).
  - destruct (todo s t) as [|[|x] r]; [discriminate ST| |]; [|injection ST as <-; left; reflexivity].
    cbn [cur] in ST. destruct (missing k falsy (cur s)) eqn:M; [injection ST as <-; left; reflexivity|]. destruct k; injection ST as <-; [left; reflexivity|]. do 4 right. split; [reflexivity|]. left. reflexivity.
  - destruct (acquire s t) as [s1|] eqn:A; [|discriminate ST]. injection ST as <-. left. apply (acquire_same s t s1 A).
  - left. reflexivity.
  - right. left. split; [reflexivity|exact KT].
  - destruct (acquire s t) as [s1|] eqn:A; [|discriminate ST]. injection ST as <-. left. apply (acquire_same s t s1 A).
  - do 2 right. left. split; [reflexivity|exact KT].
  - left. reflexivity.
  - do 4 right. split; [reflexivity|]. left. exact KT.
  - left. reflexivity.
  - left. reflexivity.
  - do 4 right. split; [reflexivity|]. right. right. reflexivity.
  - destruct (acquire s t) as [s1|] eqn:A; [|discriminate ST]. injection ST as <-. left. apply (acquire_same s t s1 A).
  - do 3 right. left. exists o. split; reflexivity.
  - left. reflexivity.
Qed.
End Inv.

(** * C227: the serializer *)
(** Whatever the threads do and however they are scheduled, a use gets what is in place at a moment of the
    use, which is never None, and the default is put in place only of None. *)
Theorem C227_serializer : forall falsy progs sched pre e post, trace (run Serializer falsy sched (start progs)) = pre ++ e :: post ->
  match e with
  | EGot _ o => o = holds pre /\ o <> None
  | ESetup _ | EDefault _ => holds pre = None
  | EBind _ _ => True
  end.
Proof.
  intros falsy progs sched. set (Q := fun pre e => match e with EGot _ o => o = holds pre /\ o <> None | ESetup _ | EDefault _ => holds pre = None | EBind _ _ => True end).
  assert (MS : forall o, missing Serializer falsy o = true -> o = None) by (intros [[|n]|]; cbn; intros X; try discriminate X; reflexivity).
  assert (MF : forall o, missing Serializer falsy o = false -> o <> None) by (intros [x|] X; [discriminate|discriminate X]).
  enough (H : inv Serializer falsy (run Serializer falsy sched (start progs)) /\ (forall t, at_ (run Serializer falsy sched (start progs)) t <> URead /\ at_ (run Serializer falsy sched (start progs)) t <> URel) /\ each Q (trace (run Serializer falsy sched (start progs)))) by exact (proj2 (proj2 H)).
  apply (run_ind Serializer falsy (fun s => inv Serializer falsy s /\ (forall t, at_ s t <> URead /\ at_ s t <> URel) /\ each Q (trace s))).
  - intros s t s' (I1 & NR & EA) ST. refine (conj (step_inv _ _ _ _ _ I1 ST) (conj _ _)).
    + assert (A : forall t', t' <> t -> at_ s' t' = at_ s t').
      { intros t' NE. unfold step in ST. destruct (at_ s t); try (injection ST as <-; unfold go; cbn [at_]; rewrite (upd_other _ _ _ _ NE); reflexivity).
        - destruct (todo s t) as [|[|x] r]; [discriminate ST| |]; [|injection ST as <-; unfold go; cbn [at_]; rewrite (upd_other _ _ _ _ NE); reflexivity]. destruct (missing _ _ _); injection ST as <-; unfold go; cbn [at_]; [rewrite (upd_other _ _ _ _ NE)|]; reflexivity.
        - destruct (acquire s t) as [s1|] eqn:AC; [|discriminate ST]; injection ST as <-; unfold go; cbn [at_]; rewrite (upd_other _ _ _ _ NE); rewrite (proj1 (proj2 (acquire_same _ _ _ AC))); reflexivity.
        - destruct (acquire s t) as [s1|] eqn:AC; [|discriminate ST]; injection ST as <-; unfold go; cbn [at_]; rewrite (upd_other _ _ _ _ NE); rewrite (proj1 (proj2 (acquire_same _ _ _ AC))); reflexivity.
        - destruct (acquire s t) as [s1|] eqn:AC; [|discriminate ST]; injection ST as <-; unfold go; cbn [at_]; rewrite (upd_other _ _ _ _ NE); rewrite (proj1 (proj2 (acquire_same _ _ _ AC))); reflexivity. }
      intros t'. destruct (Nat.eq_dec t' t) as [->|NE]; [|rewrite (A t' NE); apply NR]. destruct (NR t) as [NR1 NR2]. unfold step in ST. destruct (at_ s t) eqn:AT; try (injection ST as <-; unfold go; cbn [at_]; rewrite upd_same; split; discriminate); try congruence.
      * destruct (todo s t) as [|[|x] r]; [discriminate ST| |]; [|injection ST as <-; unfold go; cbn [at_]; rewrite upd_same; split; discriminate].
        destruct (missing _ _ _); injection ST as <-; unfold go, note; cbn [at_]; [rewrite upd_same; split; discriminate|rewrite AT; split; discriminate].
      * destruct (acquire s t) as [s1|]; [|discriminate ST]; injection ST as <-; unfold go; cbn [at_]; rewrite upd_same; split; discriminate.
      * injection ST as <-; unfold go; cbn [at_]; rewrite upd_same. destruct (missing _ _ _); split; discriminate.
      * destruct (acquire s t) as [s1|]; [|discriminate ST]; injection ST as <-; unfold go; cbn [at_]; rewrite upd_same; split; discriminate.
      * destruct (acquire s t) as [s1|]; [|discriminate ST]; injection ST as <-; unfold go; cbn [at_]; rewrite upd_same; split; discriminate.
    + destruct (step_event _ _ _ _ _ I1 ST) as [-> |[[-> M]|[[-> M]|[(x & -> & _)|[-> M]]]]]; [exact EA| | | |]; apply each_snoc; try exact EA; cbn.
      * apply MS, M.
      * apply MS, M.
      * exact I.
      * split; [reflexivity|]. destruct M as [M|[[M _]|M]]; [apply MF, M|contradiction (proj1 (NR t) M)|contradiction (proj1 (NR t) M)].
  - refine (conj (start_inv _ _ _) (conj _ (each_nil _))). intros t. split; discriminate.
Qed.
Print Assumptions C227_serializer.
Definition progs2 : nat -> list pop := fun t => match t with 0%nat => [Use; Use] | 1%nat => [Bind (Some (Custom 5)); Use] | _ => [] end.
(** Both threads find nothing; the first sets the default up, the bind of the second comes after. *)
Example C227_case : trace (run Serializer (fun _ => false) [0; 1; 0; 1; 0; 0; 0; 0; 0; 0; 0; 1; 1; 1; 0; 1]%nat (start progs2))
  = [ESetup 0; EDefault 0; EGot 0 (Some Default); EBind 1 (Some (Custom 5)); EGot 0 (Some (Custom 5)); EGot 1 (Some (Custom 5))].
Proof. vm_compute. reflexivity. Qed.

(** * C228: the logger *)
Definition C228_statement : Prop := forall falsy progs sched pre e post, trace (run Logger falsy sched (start progs)) = pre ++ e :: post ->
  match e with
  | EGot _ o => o = holds pre /\ o <> None
  | ESetup _ | EDefault _ => holds pre = None
  | EBind _ _ => True
  end.
(** A bind of None after the look of a use: the use gets None. *)
Theorem C228_refuted : ~ C228_statement.
Proof.
  intros H. specialize (H (fun _ => false) (fun t => match t with 0%nat => [Use] | 1%nat => [Bind (Some (Custom 5)); Bind None] | _ => [] end) [1; 1; 1; 1; 0; 1; 1; 1; 1; 0]%nat
    [EBind 1 (Some (Custom 5)); EBind 1 None] (EGot 0 None) []).
  destruct H as [_ H]; [vm_compute; reflexivity|]. apply H. reflexivity.
Qed.
Print Assumptions C228_refuted.
(** A logger that is false is replaced by the default. *)
Theorem C228_falsy_refuted : ~ C228_statement.
Proof.
  intros H. specialize (H (fun _ => true) (fun t => match t with 0%nat => [Bind (Some (Custom 5)); Use] | _ => [] end) [0; 0; 0; 0; 0; 0; 0; 0]%nat
    [EBind 0 (Some (Custom 5))] (ESetup 0) []).
  specialize (H ltac:(vm_compute; reflexivity)). discriminate H.
Qed.
Print Assumptions C228_falsy_refuted.
(** Without binds of None and loggers that are false it holds. *)
Theorem C228_partial : forall falsy progs, (forall t, ~ In (Bind None) (progs t)) -> (forall n, falsy n = false) ->
  forall sched pre e post, trace (run Logger falsy sched (start progs)) = pre ++ e :: post ->
  match e with
  | EGot _ o => o = holds pre /\ o <> None
  | ESetup _ | EDefault _ => holds pre = None
  | EBind _ _ => True
  end.
Proof.
  intros falsy progs NB NF sched. set (Q := fun pre e => match e with EGot _ o => o = holds pre /\ o <> None | ESetup _ | EDefault _ => holds pre = None | EBind _ _ => True end).
  assert (MS : forall o, missing Logger falsy o = true -> o = None) by (intros [[|n]|]; cbn; intros X; try discriminate X; [rewrite NF in X; discriminate X|reflexivity]).
  assert (MF : forall o, missing Logger falsy o = false -> o <> None) by (intros [x|] X; [discriminate|discriminate X]).
  set (R := fun s => (forall t, ~ In (Bind None) (todo s t) /\ at_ s t <> BLock None /\ at_ s t <> BWrite None) /\ (forall t, at_ s t = URead -> cur s <> None)).
  enough (H : inv Logger falsy (run Logger falsy sched (start progs)) /\ R (run Logger falsy sched (start progs)) /\ each Q (trace (run Logger falsy sched (start progs)))) by exact (proj2 (proj2 H)).
  apply (run_ind Logger falsy (fun s => inv Logger falsy s /\ R s /\ each Q (trace s))).
  - intros s t s' (I1 & (NN & RD) & EA) ST. refine (conj (step_inv _ _ _ _ _ I1 ST) (conj _ _)).
    + assert (KEY : (forall t', t' <> t -> at_ s' t' = at_ s t' /\ todo s' t' = todo s t') /\ ~ In (Bind None) (todo s' t) /\ at_ s' t <> BLock None /\ at_ s' t <> BWrite None
                    /\ (cur s <> None -> cur s' <> None) /\ (at_ s' t = URead -> cur s' <> None)).
      { destruct I1 as (_ & K & _). specialize (K t). destruct (NN t) as (N1 & N2 & N3). specialize (RD t). unfold step in ST. destruct (at_ s t) as [| | | | | | | | | | |o|o|] eqn:AT.
        - destruct (todo s t) as [|[|x] r] eqn:TD; [discriminate ST| |].
          + cbn [cur] in ST. assert (G : forall p, p <> BLock None -> p <> BWrite None -> (p = URead -> cur s <> None) ->
              forall s', Some (go {| cur := cur s; owner := owner s; depth := depth s; at_ := at_ s; todo := upd (todo s) t r; trace := trace s |} t p) = Some s' ->
              (forall t', t' <> t -> at_ s' t' = at_ s t' /\ todo s' t' = todo s t') /\ ~ In (Bind None) (todo s' t) /\ at_ s' t <> BLock None /\ at_ s' t <> BWrite None /\ (cur s <> None -> cur s' <> None) /\ (at_ s' t = URead -> cur s' <> None)).
            { intros p P1 P2 P3 s0 E. injection E as <-. unfold go. cbn [at_ todo cur]. rewrite !upd_same. refine (conj _ (conj _ (conj P1 (conj P2 (conj (fun x => x) P3))))).
              - intros t' NE. rewrite !(upd_other _ _ _ _ NE). auto.
              - intros X. apply N1. right. exact X. }
            destruct (missing Logger falsy (cur s)) eqn:M; apply (G _) in ST; trivial; try discriminate. intros _. apply MF, M.
          + injection ST as <-. unfold go. cbn [at_ todo cur]. rewrite !upd_same. refine (conj _ (conj _ (conj _ (conj _ (conj (fun x => x) _))))); try discriminate.
            * intros t' NE. rewrite !(upd_other _ _ _ _ NE). auto.
            * intros X. apply N1. right. exact X.
            * intros X. injection X as ->. apply N1. left. reflexivity.
        - destruct (acquire s t) as [s1|] eqn:AC; [|discriminate ST]; injection ST as <-. destruct (acquire_same _ _ _ AC) as (E1 & E2 & _ & E4). unfold go. cbn [at_ todo cur]. rewrite upd_same, E1, E2, E4. refine (conj _ (conj N1 (conj _ (conj _ (conj (fun x => x) _))))); try discriminate. intros t' NE. rewrite (upd_other _ _ _ _ NE). auto.
        - injection ST as <-. unfold go. cbn [at_ todo cur]. rewrite upd_same. refine (conj _ (conj N1 (conj _ (conj _ (conj (fun x => x) _))))); try (destruct (missing _ _ _); discriminate). intros t' NE. rewrite (upd_other _ _ _ _ NE). auto.
        - injection ST as <-. unfold go, note. cbn [at_ todo cur]. rewrite upd_same. refine (conj _ (conj N1 (conj _ (conj _ (conj (fun x => x) _))))); try discriminate. intros t' NE. rewrite (upd_other _ _ _ _ NE). auto.
        - destruct (acquire s t) as [s1|] eqn:AC; [|discriminate ST]; injection ST as <-. destruct (acquire_same _ _ _ AC) as (E1 & E2 & _ & E4). unfold go. cbn [at_ todo cur]. rewrite upd_same, E1, E2, E4. refine (conj _ (conj N1 (conj _ (conj _ (conj (fun x => x) _))))); try discriminate. intros t' NE. rewrite (upd_other _ _ _ _ NE). auto.
        - injection ST as <-. unfold go, note, put. cbn [at_ todo cur]. rewrite upd_same. refine (conj _ (conj N1 (conj _ (conj _ (conj _ _))))); try discriminate. intros t' NE. rewrite (upd_other _ _ _ _ NE). auto.
        - injection ST as <-. unfold go, release. cbn [at_ todo cur]. rewrite upd_same. refine (conj _ (conj N1 (conj _ (conj _ (conj (fun x => x) _))))); try discriminate. intros t' NE. rewrite (upd_other _ _ _ _ NE). auto.
        - injection ST as <-. unfold go, note. cbn [at_ todo cur]. rewrite upd_same. refine (conj _ (conj N1 (conj _ (conj _ (conj (fun x => x) _))))); try discriminate. intros t' NE. rewrite (upd_other _ _ _ _ NE). auto.
        - injection ST as <-. unfold go, release. cbn [at_ todo cur]. rewrite upd_same. refine (conj _ (conj N1 (conj _ (conj _ (conj (fun x => x) _))))); try discriminate. intros t' NE. rewrite (upd_other _ _ _ _ NE). auto.
        - injection ST as <-. unfold go, release. cbn [at_ todo cur]. rewrite upd_same. refine (conj _ (conj N1 (conj _ (conj _ (conj (fun x => x) _))))); try discriminate; [|intros _; apply MF, K]. intros t' NE. rewrite (upd_other _ _ _ _ NE). auto.
        - injection ST as <-. unfold go, note. cbn [at_ todo cur]. rewrite upd_same. refine (conj _ (conj N1 (conj _ (conj _ (conj (fun x => x) _))))); try discriminate. intros t' NE. rewrite (upd_other _ _ _ _ NE). auto.
        - destruct (acquire s t) as [s1|] eqn:AC; [|discriminate ST]; injection ST as <-. destruct (acquire_same _ _ _ AC) as (E1 & E2 & _ & E4). unfold go. cbn [at_ todo cur]. rewrite upd_same, E1, E2, E4. refine (conj _ (conj N1 (conj _ (conj _ (conj (fun x => x) _))))); try discriminate; [intros t' NE; rewrite (upd_other _ _ _ _ NE); auto|]. intros X. injection X as ->. apply N2. reflexivity.
        - injection ST as <-. unfold go, note, put. cbn [at_ todo cur]. rewrite upd_same. refine (conj _ (conj N1 (conj _ (conj _ (conj _ _))))); try discriminate; [intros t' NE; rewrite (upd_other _ _ _ _ NE); auto|]. intros _ X. rewrite X in N3. apply N3. reflexivity.
        - injection ST as <-. unfold go, release. cbn [at_ todo cur]. rewrite upd_same. refine (conj _ (conj N1 (conj _ (conj _ (conj (fun x => x) _))))); try discriminate. intros t' NE. rewrite (upd_other _ _ _ _ NE). auto. }
      destruct KEY as (OT & K1 & K2 & K3 & K4 & K5). split.
      * intros t'. destruct (Nat.eq_dec t' t) as [->|NE]; [auto|]. destruct (OT t' NE) as [-> ->]. apply NN.
      * intros t' X. destruct (Nat.eq_dec t' t) as [->|NE]; [apply K5, X|]. destruct (OT t' NE) as [E _]. rewrite E in X. apply K4, (RD t' X).
    + assert (CC := proj2 (proj2 I1)). destruct (step_event _ _ _ _ _ I1 ST) as [-> |[[-> M]|[[-> M]|[(x & -> & _)|[-> M]]]]]; [exact EA| | | |]; apply each_snoc; try exact EA; cbn.
      * apply MS, M.
      * apply MS, M.
      * exact I.
      * split; [reflexivity|]. destruct M as [M|[[M _]|M]]; [apply MF, M|rewrite <- CC; apply (RD t M)|rewrite <- CC; apply (RD t M)].
  - refine (conj (start_inv _ _ _) (conj (conj _ _) (each_nil _))); [intros t; refine (conj (NB t) (conj _ _)); discriminate|discriminate].
Qed.
Print Assumptions C228_partial.
Example C228_case : (forall t, ~ In (Bind None) (progs2 t)) /\ trace (run Logger (fun _ => false) [0; 1; 0; 1; 0; 0; 0; 0; 0; 0; 0; 1; 1; 1; 0; 1; 0; 1]%nat (start progs2))
  = [ESetup 0; EDefault 0; EGot 0 (Some Default); EBind 1 (Some (Custom 5)); EGot 0 (Some (Custom 5)); EGot 1 (Some (Custom 5))].
Proof.
  split; [|vm_compute; reflexivity]. intros [|[|t]]; cbn; intros X; repeat (destruct X as [X|X]; [discriminate X|]); destruct X.
Qed.

(** * C229: the default is set up once *)
(** The default is set up at most once more often than None is bound, whatever the schedule. *)
Theorem C229_once : forall k falsy progs, (forall n, falsy n = false) -> forall sched,
  (setups (trace (run k falsy sched (start progs))) <= 1 + unbinds (trace (run k falsy sched (start progs))))%nat.
Proof.
  intros k falsy progs NF sched.
  assert (MC : forall x, missing k falsy (Some x) = false) by (intros [|n]; destruct k; cbn; auto).
  assert (MN : missing k falsy None = true) by (destruct k; reflexivity).
  set (busy := fun s => match owner s with Some t => match at_ s t with SLock | SWrite => true | _ => false end | None => false end).
  set (R := fun s => (setups (trace s) + (if negb (missing k falsy (cur s)) || busy s then 0 else 1) <= 1 + unbinds (trace s))%nat).
  enough (H : inv k falsy (run k falsy sched (start progs)) /\ R (run k falsy sched (start progs))) by (destruct H as [_ H]; unfold R in H; lia).
  apply (run_ind k falsy (fun s => inv k falsy s /\ R s)).
  - intros s t s' [I1 H] ST. split; [exact (step_inv _ _ _ _ _ I1 ST)|].
    (* without a change of the attribute, of the trace and of being busy *)
    assert (I2 := step_inv _ _ _ _ _ I1 ST). destruct I1 as (L & K & C). destruct I2 as (L2 & _ & _).
    assert (OWN : (0 < locks (at_ s t))%nat -> owner s = Some t) by (intros P; apply (owns s t L P)).
    assert (OWN2 : (0 < locks (at_ s' t))%nat -> owner s' = Some t) by (intros P; apply (owns s' t L2 P)).
    (* busy says where the owner is *)
    assert (B1 : forall st, locked st -> busy st = true <-> exists x, at_ st x = SLock \/ at_ st x = SWrite).
    { intros st LS. unfold busy. split.
      - destruct (owner st) as [x|]; [|discriminate]. intros X. exists x. destruct (at_ st x); try discriminate X; auto.
      - intros (x & X). destruct (owns st x LS) as [-> _]; [destruct X as [-> | -> ]; cbn; lia|]. destruct X as [-> | -> ]; reflexivity. }
    assert (OTH : forall x, x <> t -> at_ s' x = at_ s x).
    { intros x NE. unfold step in ST. destruct (at_ s t); try (injection ST as <-; unfold go; cbn [at_]; rewrite (upd_other _ _ _ _ NE); reflexivity).
      - destruct (todo s t) as [|[|y] r]; [discriminate ST| |]; [|injection ST as <-; unfold go; cbn [at_]; rewrite (upd_other _ _ _ _ NE); reflexivity]. cbn [cur] in ST. destruct (missing k falsy (cur s)); [|destruct k]; injection ST as <-; unfold go; cbn [at_]; try rewrite (upd_other _ _ _ _ NE); reflexivity.
      - destruct (acquire s t) as [s1|] eqn:AC; [|discriminate ST]; injection ST as <-; unfold go; cbn [at_]; rewrite (upd_other _ _ _ _ NE); rewrite (proj1 (proj2 (acquire_same _ _ _ AC))); reflexivity.
      - destruct (acquire s t) as [s1|] eqn:AC; [|discriminate ST]; injection ST as <-; unfold go; cbn [at_]; rewrite (upd_other _ _ _ _ NE); rewrite (proj1 (proj2 (acquire_same _ _ _ AC))); reflexivity.
      - destruct (acquire s t) as [s1|] eqn:AC; [|discriminate ST]; injection ST as <-; unfold go; cbn [at_]; rewrite (upd_other _ _ _ _ NE); rewrite (proj1 (proj2 (acquire_same _ _ _ AC))); reflexivity. }
    assert (KEEP : trace s' = trace s \/ (exists o, trace s' = trace s ++ [EGot t o]) -> cur s' = cur s -> ((at_ s t = SLock \/ at_ s t = SWrite) <-> (at_ s' t = SLock \/ at_ s' t = SWrite)) -> R s').
    { intros TR CU AB. assert (BB : busy s' = busy s).
      { apply Bool.eq_true_iff_eq. rewrite (B1 s' L2), (B1 s L). split; intros (x & X); exists x; (destruct (Nat.eq_dec x t) as [->|NE]; [apply AB, X|]); [rewrite <- (OTH x NE)|rewrite (OTH x NE)]; exact X. }
      unfold R in *. rewrite CU, BB. destruct TR as [-> |(o & ->)]; [exact H|]. rewrite setups_snoc, unbinds_snoc. lia. }
    assert (KT := K t). unfold step in ST. destruct (at_ s t) as [| | | | | | | | | | |o|o|] eqn:AT.
    + destruct (todo s t) as [|[|x] r]; [discriminate ST| |].
      * cbn [cur] in ST. destruct (missing k falsy (cur s)); [|destruct k]; injection ST as <-; apply KEEP; unfold go, note; cbn [trace cur at_]; try rewrite upd_same; try rewrite AT; auto; try (split; intros [X|X]; discriminate X). right. eauto.
      * injection ST as <-. apply KEEP; unfold go; cbn [trace cur at_]; try rewrite upd_same; auto. split; intros [X|X]; discriminate X.
    + destruct (acquire s t) as [s1|] eqn:AC; [|discriminate ST]; injection ST as <-. destruct (acquire_same _ _ _ AC) as (E1 & _ & E3 & _). apply KEEP; unfold go; cbn [trace cur at_]; try rewrite upd_same; auto. split; intros [X|X]; discriminate X.
    + injection ST as <-. apply KEEP; unfold go; cbn [trace cur at_]; try rewrite upd_same; auto. split; intros [X|X]; try discriminate X; destruct (missing k falsy (cur s)); try discriminate X; destruct k; discriminate X.
    + (* the setup begins *)
      assert (BS : busy s = false) by (unfold busy; rewrite (OWN ltac:(cbn; lia)), AT; reflexivity). assert (BS' : busy s' = true) by (injection ST as <-; unfold busy, go, note; cbn [owner at_]; rewrite (OWN ltac:(cbn; lia)), upd_same; reflexivity).
      unfold R in *. rewrite BS, KT in H. rewrite BS'. injection ST as <-. unfold go, note. cbn [cur trace]. rewrite setups_snoc, unbinds_snoc, KT. cbn in H |- *. lia.
    + destruct (acquire s t) as [s1|] eqn:AC; [|discriminate ST]; injection ST as <-. destruct (acquire_same _ _ _ AC) as (E1 & _ & E3 & _). apply KEEP; unfold go; cbn [trace cur at_]; try rewrite upd_same; auto. split; auto.
    + (* the default is in place *)
      assert (BS : busy s = true) by (unfold busy; rewrite (OWN ltac:(cbn; lia)), AT; reflexivity).
      unfold R in *. rewrite BS, KT in H. injection ST as <-. unfold go, note, put. cbn [cur trace]. rewrite setups_snoc, unbinds_snoc, (MC Default). cbn in H |- *. lia.
    + injection ST as <-. apply KEEP; unfold go, release; cbn [trace cur at_]; try rewrite upd_same; auto. split; intros [X|X]; try discriminate X; destruct k; discriminate X.
    + injection ST as <-. apply KEEP; unfold go, note; cbn [trace cur at_]; try rewrite upd_same; eauto. split; intros [X|X]; discriminate X.
    + injection ST as <-. apply KEEP; unfold go, release; cbn [trace cur at_]; try rewrite upd_same; auto. split; intros [X|X]; discriminate X.
    + injection ST as <-. apply KEEP; unfold go, release; cbn [trace cur at_]; try rewrite upd_same; auto. split; intros [X|X]; discriminate X.
    + injection ST as <-. apply KEEP; unfold go, note; cbn [trace cur at_]; try rewrite upd_same; eauto. split; intros [X|X]; discriminate X.
    + destruct (acquire s t) as [s1|] eqn:AC; [|discriminate ST]; injection ST as <-. destruct (acquire_same _ _ _ AC) as (E1 & _ & E3 & _). apply KEEP; unfold go; cbn [trace cur at_]; try rewrite upd_same; auto. split; intros [X|X]; discriminate X.
    + (* a bind *)
      injection ST as <-. unfold R in *. unfold go, note, put. cbn [cur trace]. rewrite setups_snoc, unbinds_snoc. destruct o as [x|]; [rewrite (MC x)|rewrite MN]; cbn [negb orb].
      * destruct (negb (missing k falsy (cur s)) || busy s); lia.
      * match goal with |- context [if ?b then _ else _] => destruct b end; destruct (negb (missing k falsy (cur s)) || busy s); lia.
    + injection ST as <-. apply KEEP; unfold go, release; cbn [trace cur at_]; try rewrite upd_same; auto. split; intros [X|X]; discriminate X.
  - split; [apply start_inv|]. unfold R, start. cbn [cur trace]. rewrite MN. cbn. lia.
Qed.
Print Assumptions C229_once.

(** * C230: nobody waits for ever *)
(** In every reachable state, if a thread is not done, then some thread can move. *)
Theorem C230_progress : forall k falsy progs sched t, let s := run k falsy sched (start progs) in
  at_ s t <> Idle \/ todo s t <> [] -> exists t' s', step k falsy t' s = Some s'.
Proof.
  intros k falsy progs sched t s W. assert (L : locked s) by apply (proj1 (run_inv k falsy sched progs)).
  destruct (owner s) as [o|] eqn:O.
  - exists o. assert (P : (0 < locks (at_ s o))%nat) by (unfold locked in L; rewrite O in L; lia). unfold step. destruct (at_ s o); cbn in P; try lia; try (eexists; reflexivity).
    unfold acquire. rewrite O, Nat.eqb_refl. eexists; reflexivity.
  - exists t. unfold step. destruct (at_ s t); try (eexists; reflexivity); try (unfold acquire; rewrite O; eexists; reflexivity).
    destruct W as [W|W]; [contradiction W; reflexivity|]. destruct (todo s t) as [|[|x] r]; [contradiction W; reflexivity| |eexists; reflexivity].
    destruct (missing k falsy _); [|destruct k]; eexists; reflexivity.
Qed.
Print Assumptions C230_progress.
(** The steps a thread can still take. *)
Definition left_ (p : pc) : nat :=
  match p with Idle => 0 | ULock => 9 | UCheck => 8 | USetup => 7 | SLock => 6 | SWrite => 5 | SRel => 4 | UGet => 3 | URel => 3 | UDone => 2 | URead => 1 | BLock _ => 3 | BWrite _ => 2 | BRel => 1 end.
Fixpoint moves (k : kind) (falsy : nat -> bool) (t : nat) (sched : list nat) (s : state) : nat :=
  match sched with
  | [] => 0
  | x :: r => match step k falsy x s with
              | Some s' => (if Nat.eqb x t then 1 else 0) + moves k falsy t r s'
              | None => moves k falsy t r s
              end
  end.
(** A thread takes at most ten steps for an operation, so with finitely many operations all are finished. *)
Theorem C230_bounded : forall k falsy progs t sched, (moves k falsy t sched (start progs) <= 10 * length (progs t))%nat.
Proof.
  intros k falsy progs t sched.
  enough (H : forall s, (moves k falsy t sched s <= left_ (at_ s t) + 10 * length (todo s t))%nat) by (specialize (H (start progs)); cbn in H |- *; lia).
  induction sched as [|x r IH]; intros s; [cbn; lia|]. cbn [moves]. destruct (step k falsy x s) as [s'|] eqn:ST; [|exact (IH s)]. specialize (IH s').
  assert (K : (left_ (at_ s' t) + 10 * length (todo s' t) + (if Nat.eqb x t then 1 else 0) <= left_ (at_ s t) + 10 * length (todo s t))%nat); [|lia].
  clear IH. destruct (Nat.eqb_spec x t) as [->|NE].
  - unfold step in ST. destruct (at_ s t) as [| | | | | | | | | | |o|o|] eqn:AT; try (injection ST as <-; unfold go, release, note, put; cbn [at_ todo]; rewrite upd_same; cbn [left_]; lia).
    + destruct (todo s t) as [|[|y] l]; [discriminate ST| |].
      * cbn [cur] in ST. destruct (missing k falsy (cur s)); [|destruct k]; injection ST as <-; unfold go, note; cbn [at_ todo]; rewrite !upd_same; try rewrite AT; cbn [left_ length]; lia.
      * injection ST as <-; unfold go, note; cbn [at_ todo]; rewrite !upd_same; cbn [left_ length]; lia.
    + destruct (acquire s t) as [s1|] eqn:AC; [|discriminate ST]; injection ST as <-. destruct (acquire_same _ _ _ AC) as (_ & _ & _ & E). unfold go. cbn [at_ todo]. rewrite upd_same, E. cbn [left_]; lia.
    + injection ST as <-; unfold go; cbn [at_ todo]; rewrite upd_same. destruct (missing k falsy (cur s)); [|destruct k]; cbn [left_]; lia.
    + destruct (acquire s t) as [s1|] eqn:AC; [|discriminate ST]; injection ST as <-. destruct (acquire_same _ _ _ AC) as (_ & _ & _ & E). unfold go. cbn [at_ todo]. rewrite upd_same, E. cbn [left_]; lia.
    + injection ST as <-; unfold go, release; cbn [at_ todo]; rewrite upd_same. destruct k; cbn [left_]; lia.
    + destruct (acquire s t) as [s1|] eqn:AC; [|discriminate ST]; injection ST as <-. destruct (acquire_same _ _ _ AC) as (_ & _ & _ & E). unfold go. cbn [at_ todo]. rewrite upd_same, E. cbn [left_]; lia.
  - assert (E : at_ s' t = at_ s t /\ todo s' t = todo s t); [|destruct E as [-> ->]; lia]. assert (NE' : t <> x) by congruence.
    unfold step in ST. destruct (at_ s x); try (injection ST as <-; unfold go, release, note, put; cbn [at_ todo]; rewrite (upd_other _ _ _ _ NE'); auto).
    + destruct (todo s x) as [|[|y] l]; [discriminate ST| |]; [|injection ST as <-; unfold go; cbn [at_ todo]; rewrite !(upd_other _ _ _ _ NE'); auto].
      cbn [cur] in ST. destruct (missing k falsy (cur s)); [|destruct k]; injection ST as <-; unfold go, note; cbn [at_ todo]; rewrite !(upd_other _ _ _ _ NE'); auto.
    + destruct (acquire s x) as [s1|] eqn:AC; [|discriminate ST]; injection ST as <-. destruct (acquire_same _ _ _ AC) as (_ & E2 & _ & E4). unfold go. cbn [at_ todo]. rewrite (upd_other _ _ _ _ NE'), E2, E4. auto.
    + destruct (acquire s x) as [s1|] eqn:AC; [|discriminate ST]; injection ST as <-. destruct (acquire_same _ _ _ AC) as (_ & E2 & _ & E4). unfold go. cbn [at_ todo]. rewrite (upd_other _ _ _ _ NE'), E2, E4. auto.
    + destruct (acquire s x) as [s1|] eqn:AC; [|discriminate ST]; injection ST as <-. destruct (acquire_same _ _ _ AC) as (_ & E2 & _ & E4). unfold go. cbn [at_ todo]. rewrite (upd_other _ _ _ _ NE'), E2, E4. auto.
Qed.
Print Assumptions C230_bounded.
