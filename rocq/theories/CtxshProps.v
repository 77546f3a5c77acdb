(** C392-C393: context dicts that are given more than once. *)
From Verif Require Import PyStr PyStrFacts TplModel CtxshModel.

(** ** Specification *)
Definition uses {V} (i : nat) (c : call V) : bool := match w_dict c with Some j => Nat.eqb i j | None => false end.
(** Neither a processor nor a dict of the program brings a request of its own. *)
Definition no_request {V} (h : dicts V) (l : list (call V)) : Prop :=
  (forall i, dget (u "request") (h i) = None) /\ forall c p r, In c l -> In p (w_processors c) -> dget (u "request") (p r) = None.

(** ** Proofs *)
Lemma dget_update {V} k (d : dict V) : dget k d = None -> forall c, dget k (dupdate c d) = dget k c.
Proof.
  unfold dupdate. induction d as [|[k' v] d IH]; intros N c; [reflexivity|]. cbn [fold_left fst snd dget] in *. destruct (seqb k k') eqn:E; [discriminate N|].
  rewrite (IH N). apply dget_dset_other. intros ->. rewrite seqb_refl in E. discriminate E.
Qed.
Lemma shown_request {V} (r : V) ps : (forall p, In p ps -> dget (u "request") (p r) = None) -> forall d,
  dget (u "request") (template_context r ps d) = Some (match dget (u "request") d with Some x => x | None => r end).
Proof.
  intros P d. unfold template_context.
  assert (F : dget (u "request") (fold_left (fun c p => dupdate c (p r)) ps d) = dget (u "request") d).
  { revert d P. induction ps as [|p ps IH]; intros d P; [reflexivity|]. cbn [fold_left]. rewrite IH by (intros q I; apply P; right; exact I). apply dget_update. apply P. left. reflexivity. }
  rewrite F. destruct (dget (u "request") d) as [x|] eqn:E; [rewrite F; reflexivity | apply dget_dset_same].
Qed.
Definition first_user {V} (i : nat) (l : list (call V)) : option V := match filter (uses i) l with c :: _ => Some (w_request c) | [] => None end.
Lemma kept {V} (h : dicts V) l : no_request h l -> forall i, dget (u "request") (after h l i) = first_user i l.
Proof.
  intros (H & P). induction l as [|c l IH] using rev_ind; intros i; [apply H|].
  assert (IH' : forall i, dget (u "request") (after h l i) = first_user i l) by (apply IH; intros c' p r I; apply P; apply in_or_app; left; exact I). clear IH.
  unfold after. rewrite fold_left_app. cbn [fold_left]. fold (after h l). unfold respond, first_user. cbn [fst]. rewrite filter_app. cbn [filter].
  unfold uses at 2. destruct (w_dict c) as [j|].
  - destruct (Nat.eqb_spec i j) as [-> |N].
    + rewrite shown_request by (intros p I; apply (P c); [apply in_or_app; right; left; reflexivity | exact I]). rewrite IH'. unfold first_user. destruct (filter (uses j) l); reflexivity.
    + rewrite IH'. unfold first_user. rewrite app_nil_r. reflexivity.
  - rewrite IH'. unfold first_user. rewrite app_nil_r. reflexivity.
Qed.
Lemma untouched {V} (h : dicts V) l i : (forall c, In c l -> w_dict c <> Some i) -> after h l i = h i.
Proof.
  intros N. induction l as [|c l IH] using rev_ind; [reflexivity|]. unfold after. rewrite fold_left_app. cbn [fold_left]. fold (after h l). unfold respond. cbn [fst].
  assert (IH' : after h l i = h i) by (apply IH; intros c' I; apply N; apply in_or_app; left; exact I).
  destruct (w_dict c) as [j|] eqn:D; [|exact IH']. destruct (Nat.eqb_spec i j) as [-> |_]; [|exact IH']. exfalso. apply (N c); [apply in_or_app; right; left; reflexivity | exact D].
Qed.

(** * C392: a template sees the request it answers *)
Definition C392_statement : Prop := forall (V : Type) (h : dicts V) l c seen, no_request h (l ++ [c]) -> snd (respond (after h l) c) = Some seen ->
  dget (u "request") seen = Some (w_request c).
Definition page (r : nat) : call nat := {| w_dict := Some 0; w_request := r; w_processors := [fun r => [(u "user", r)]]; w_found := true |}.
Lemma pages_fine rs : no_request (fun _ => [(u "title", 0)]) (map page rs).
Proof. split; [reflexivity|]. intros c p r I J. apply in_map_iff in I as (x & <- & _). destruct J as [<-|[]]. reflexivity. Qed.
Theorem C392_refuted : ~ C392_statement.
Proof. intros H. specialize (H nat (fun _ => [(u "title", 0)]) [page 1] (page 2) _ (pages_fine [1; 2]) eq_refl). vm_compute in H. discriminate H. Qed.
Print Assumptions C392_refuted.
(** It sees the request of the first response that was made, or tried, of the same dict. *)
Theorem C392_partial : forall (V : Type) (h : dicts V) l c seen, no_request h (l ++ [c]) -> snd (respond (after h l) c) = Some seen ->
  dget (u "request") seen = Some (match w_dict c with
                                  | Some i => match filter (uses i) l with first :: _ => w_request first | [] => w_request c end
                                  | None => w_request c
                                  end).
Proof.
  intros V h l c seen N E. unfold respond in E. cbn [snd] in E. destruct (w_found c); [|discriminate E]. injection E as <-.
  rewrite shown_request by (intros p I; apply (proj2 N c); [apply in_or_app; right; left; reflexivity | exact I]).
  destruct (w_dict c) as [i|]; [|reflexivity]. rewrite kept.
  - unfold first_user. destruct (filter (uses i) l); reflexivity.
  - split; [apply N|]. intros c' p r I. apply (proj2 N c'). apply in_or_app. left. exact I.
Qed.
Print Assumptions C392_partial.
Example C392_case : no_request (fun _ => [(u "title", 0)]) (map page [1; 2]) /\
  snd (respond (after (fun _ => [(u "title", 0)]) [page 1]) (page 2)) = Some [(u "title", 0); (u "user", 2); (u "request", 1)].
Proof. split; [apply pages_fine | vm_compute; reflexivity]. Qed.

(** * C393: a template sees nothing of other responses *)
Definition C393_statement : Prop := forall (V : Type) (h : dicts V) l c, snd (respond (after h l) c) = snd (respond h c).
(** What a processor gave for one user only is shown to the next. *)
Definition greet (r : nat) : call nat := {| w_dict := Some 0; w_request := r; w_processors := [fun r => if Nat.eqb r 1 then [(u "secret", 41)] else []]; w_found := true |}.
Theorem C393_refuted : ~ C393_statement.
Proof. intros H. specialize (H nat (fun _ => []) [greet 1] (greet 2)). vm_compute in H. discriminate H. Qed.
Print Assumptions C393_refuted.
(** If its dict was not used before, or it was given none. *)
Theorem C393_partial : forall (V : Type) (h : dicts V) l c, (forall i c', w_dict c = Some i -> In c' l -> w_dict c' <> Some i) -> snd (respond (after h l) c) = snd (respond h c).
Proof.
  intros V h l c N. unfold respond. cbn [snd]. destruct (w_dict c) as [i|] eqn:D; [|reflexivity]. rewrite untouched by (intros c' I; apply (N i c' eq_refl I)). reflexivity.
Qed.
Print Assumptions C393_partial.
Example C393_case : snd (respond (after (fun _ => []) [greet 1]) (greet 2)) = Some [(u "secret", 41); (u "request", 1)] /\
  snd (respond (after (fun _ => []) [greet 1]) {| w_dict := None; w_request := 2; w_processors := w_processors (greet 2); w_found := true |}) = Some [(u "request", 2)].
Proof. split; vm_compute; reflexivity. Qed.
