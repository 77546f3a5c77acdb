(** C382-C384: the life of a proxy relay. *)
From Coq Require Import Lia.
From Verif Require Import PyStr PyStrFacts RlifeModel.

(** ** C382 *)
(** No client is lost: each client that was made is closed, or it is the client of the relay. *)
Definition kept (r : relay) : Prop := forall c, c < made r -> client r = Some c \/ In c (closed r).
Definition C382_statement : Prop := forall es, kept (live es).
(** One shutdown at a time: none begins while another waits. *)
Fixpoint one_by_one (busy : bool) (es : list event) : Prop :=
  match es with
  | [] => True
  | Startup :: r => one_by_one busy r
  | ShutdownBegins :: r => busy = false /\ one_by_one true r
  | ShutdownEnds :: r => one_by_one false r
  end.
Lemma kept_step r e busy : (forall c, client r = Some c -> c < made r) -> kept r ->
  (closing r = 0 \/ closing r = 1 /\ busy = true /\ exists c, client r = Some c /\ In c (closed r)) ->
  (e = ShutdownBegins -> busy = false) ->
  let r' := step r e in
  let busy' := match e with Startup => busy | ShutdownBegins => true | ShutdownEnds => false end in
  (forall c, client r' = Some c -> c < made r') /\ kept r'
  /\ (closing r' = 0 \/ closing r' = 1 /\ busy' = true /\ exists c, client r' = Some c /\ In c (closed r')).
Proof.
  intros L K C B. destruct r as [cl m cd n]. unfold kept in *. cbn [client made closed closing] in *. destruct e; cbn [step client made closed closing].
  - destruct cl as [c|]; cbn [client made closed closing]; [auto|]. split; [intros c E; injection E as <-; lia|]. split.
    + intros c H. destruct (PeanoNat.Nat.eq_dec c m) as [->|N]; [left; reflexivity|]. right. destruct (K c); [lia|discriminate|assumption].
    + destruct C as [C|(_ & _ & c & E & _)]; [left; exact C|discriminate E].
  - destruct cl as [c|]; cbn [client made closed closing].
    + split; [exact L|]. split.
      * intros c' H. destruct (K c' H) as [E|I]; [left; exact E|right; apply in_or_app; left; exact I].
      * destruct C as [C|(_ & X & _)]; [|rewrite (B eq_refl) in X; discriminate X]. right. rewrite C. split; [reflexivity|]. split; [reflexivity|]. exists c. split; [reflexivity|].
        apply in_or_app. right. left. reflexivity.
    + split; [exact L|]. split; [exact K|]. destruct C as [C|(_ & _ & c & E & _)]; [left; exact C|discriminate E].
  - destruct n as [|n]; cbn [client made closed closing]; [split; [exact L|]; split; [exact K|left; reflexivity]|].
    destruct C as [C|(C & _ & c & E & I)]; [discriminate C|]. injection C as ->. split; [intros c' X; discriminate X|]. split; [|left; reflexivity].
    intros c' H. right. destruct (K c' H) as [X|X]; [rewrite X in E; injection E as ->; exact I|exact X].
Qed.
Theorem C382_kept_partial : forall es, one_by_one false es -> kept (live es).
Proof.
  enough (H : forall es r busy, (forall c, client r = Some c -> c < made r) -> kept r ->
    (closing r = 0 \/ closing r = 1 /\ busy = true /\ exists c, client r = Some c /\ In c (closed r)) -> one_by_one busy es -> kept (fold_left step es r)).
  { intros es O. apply (H es new_relay false); [intros c E; discriminate E|intros c X; cbn in X; lia|left; reflexivity|exact O]. }
  induction es as [|e r IH]; intros s busy L K C O; cbn [fold_left]; [exact K|].
  assert (B : e = ShutdownBegins -> busy = false) by (intros ->; destruct O as (X & _); exact X).
  destruct (kept_step s e busy L K C B) as (L' & K' & C'). eapply IH; [exact L'|exact K'|exact C'|].
  destruct e; cbn [one_by_one] in O; [exact O|apply O|exact O].
Qed.
Print Assumptions C382_kept_partial.
(** The second of two shutdowns that overlap forgets the client of a startup between them. *)
Theorem C382_refuted : ~ C382_statement.
Proof.
  intros H. destruct (H [Startup; ShutdownBegins; ShutdownBegins; ShutdownEnds; Startup; ShutdownEnds] 1) as [E|E].
  - vm_compute. lia.
  - vm_compute in E. discriminate E.
  - vm_compute in E. destruct E as [E|[E|[]]]; discriminate E.
Qed.
Print Assumptions C382_refuted.
Example C382_case :
  one_by_one false [Startup; Startup; ShutdownBegins; Startup; ShutdownEnds; Startup]
  /\ live [Startup; Startup; ShutdownBegins; Startup; ShutdownEnds; Startup] = {| client := Some 1; made := 2; closed := [0]; closing := 0 |}.
Proof. split; [cbn; auto|vm_compute; reflexivity]. Qed.

(** ** C383 *)
(** A relay is started by [startup], and stays so until a shutdown ends; a relay that is not started
    answers no http request: it sends nothing and raises. *)
Theorem C383_started : forall M es (after : relay) (http websocket : list M * bool) not_found,
  (client (live es) = None -> call (live es) after (u "http") http websocket not_found = ([], NotStarted))
  /\ (forall es', ~ In ShutdownEnds es' -> exists c, client (live (es ++ Startup :: es')) = Some c)
  /\ (client (live es) <> None -> fst (call (live es) after (u "http") http websocket not_found) = fst http).
Proof.
  intros M es after http websocket not_found. split; [|split].
  - intros E. unfold call. rewrite seqb_refl, E. reflexivity.
  - intros es'. unfold live. rewrite fold_left_app. cbn [fold_left]. set (r := fold_left step es new_relay).
    assert (S : exists c, client (step r Startup) = Some c) by (cbn [step]; destruct (client r) as [c|] eqn:E; [exists c; exact E|eexists; reflexivity]).
    revert S. generalize (step r Startup). induction es' as [|e es' IH]; intros s S N; cbn [fold_left]; [exact S|].
    apply IH; [|intros X; apply N; right; exact X]. destruct S as (c & S). destruct e; cbn [step]; [rewrite S; exists c; exact S|rewrite S; exists c; reflexivity|].
    destruct N. left. reflexivity.
  - intros E. unfold call. rewrite seqb_refl. destruct (client (live es)); [reflexivity|contradiction E; reflexivity].
Qed.
Print Assumptions C383_started.
Example C383_case :
  call (live []) (live []) (u "http") ([1; 2], true) ([], true) [404] = ([], NotStarted)
  /\ call (live [Startup]) (live [Startup]) (u "http") ([1; 2], true) ([], true) [404] = ([1; 2], Returns).
Proof. vm_compute. auto. Qed.

(** ** C384 *)
(** A connection that was served to its end is no error. *)
Definition C384_statement : Prop := forall M es es' kind (http websocket : list M * bool) not_found,
  snd http = true -> snd websocket = true -> client (live es) <> None ->
  snd (call (live es) (live (es ++ es')) kind http websocket not_found) = Returns.
Theorem C384_served_partial : forall M es es' kind (http websocket : list M * bool) not_found,
  snd http = true -> snd websocket = true -> client (live es) <> None -> ~ In ShutdownEnds es' ->
  snd (call (live es) (live (es ++ es')) kind http websocket not_found) = Returns.
Proof.
  intros M es es' kind http websocket not_found H W C N.
  assert (A : client (live (es ++ es')) <> None).
  { unfold live in *. rewrite fold_left_app. revert C. generalize (fold_left step es new_relay). induction es' as [|e es' IH]; intros s C; cbn [fold_left]; [exact C|].
    apply IH; [intros X; apply N; right; exact X|]. destruct e; cbn [step]; [destruct (client s) eqn:E; [congruence|discriminate]| |destruct N; left; reflexivity].
    destruct (client s) eqn:E; [discriminate|congruence]. }
  unfold call. destruct (client (live (es ++ es'))) as [c|]; [|contradiction A; reflexivity].
  destruct (client (live es)) as [c0|]; [|contradiction C; reflexivity]. destruct (seqb kind (u "http")); [cbn [snd]; rewrite H; reflexivity|].
  destruct (seqb kind (u "websocket")); cbn [snd]; [rewrite W|]; reflexivity.
Qed.
Print Assumptions C384_served_partial.
(** A shutdown while the response is sent makes an error of a request that was answered in full. *)
Theorem C384_refuted : ~ C384_statement.
Proof.
  intros H. specialize (H nat [Startup] [ShutdownBegins; ShutdownEnds] (u "http") ([1], true) ([], true) [] eq_refl eq_refl).
  assert (X : client (live [Startup]) <> None) by (vm_compute; discriminate). specialize (H X). vm_compute in H. discriminate H.
Qed.
Print Assumptions C384_refuted.
Example C384_case :
  call (live [Startup]) (live [Startup; ShutdownBegins]) (u "http") ([1; 2], true) ([], true) [404] = ([1; 2], Returns)
  /\ call (live []) (live []) (u "websocket") ([], true) ([7], true) [404] = ([7], NotStarted).
Proof. vm_compute. auto. Qed.
