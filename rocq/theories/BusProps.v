(** C46: the command and query buses. *)
From Verif Require Import PyStr BusModel.

Section Spec.
Context {Msg Hnd : Type}.
(** The handler of a type: the first one registered since the registry was last cleared. *)
Fixpoint first_registered (k : nat) (os : list (bop Hnd)) (cur : option Hnd) : option Hnd :=
  match os with
  | [] => cur
  | ClearAll :: r => first_registered k r None
  | Register j h :: r => first_registered k r (match cur with Some _ => cur | None => if Nat.eqb j k then Some h else None end)
  end.
(** Layers [i] up to [n] around a handler: each layer's calls lie between its own begin and end. *)
Inductive onion (n : nat) (h : Hnd) : nat -> list (called Msg Hnd) -> Prop :=
  | core : forall m, onion n h n [Handles h m]
  | layer : forall i m ts, i < n -> Forall (onion n h (S i)) ts -> onion n h i ([Enter i m] ++ concat ts ++ [Leave i]).
End Spec.

Lemma rget_app {Hnd} k (r : registry (Hnd := Hnd)) j h : rget k (r ++ [(j, h)]) = match rget k r with Some x => Some x | None => if Nat.eqb j k then Some h else None end.
Proof. induction r as [|(i, x) r IH]; cbn [app rget]; [reflexivity|]. destruct (Nat.eqb i k); [reflexivity|exact IH]. Qed.

(** After any history the handler of a type is the first registered one; registering another fails and
    changes nothing. *)
Theorem C46_registered : forall Hnd (os : list (bop Hnd)) k, rget k (bus_run os) = first_registered k os None.
Proof.
  intros Hnd os k. unfold bus_run. change (None : option Hnd) with (rget k ([] : registry (Hnd := Hnd))). generalize ([] : registry (Hnd := Hnd)). induction os as [|o os IH]; intros r; [reflexivity|].
  cbn [fold_left first_registered]. rewrite IH. destruct o as [j h|]; [|reflexivity]. f_equal. cbn [bus_step]. unfold register. destruct (rget j r) eqn:E; cbn [fst].
  - destruct (rget k r) eqn:F; [reflexivity|]. destruct (Nat.eqb_spec j k) as [->|]; [congruence|reflexivity].
  - rewrite rget_app. destruct (rget k r); reflexivity.
Qed.
Print Assumptions C46_registered.
Theorem C46_second : forall Hnd (r : registry (Hnd := Hnd)) k h, rget k r <> None -> register k h r = (r, Some AlreadyRegistered).
Proof. intros Hnd r k h H. unfold register. destruct (rget k r); [reflexivity|contradiction H; reflexivity]. Qed.
Print Assumptions C46_second.
Theorem C46_first : forall Hnd (r : registry (Hnd := Hnd)) k h, rget k r = None -> snd (register k h r) = None /\ rget k (fst (register k h r)) = Some h.
Proof. intros Hnd r k h H. unfold register. rewrite H. cbn [fst snd]. split; [reflexivity|]. rewrite rget_app, H, Nat.eqb_refl. reflexivity. Qed.
Print Assumptions C46_first.

(** None and types without a handler raise, and nothing is called. *)
Theorem C46_refused : forall Msg Res Exn Hnd kind handle mws (r : registry (Hnd := Hnd)) (m : Msg),
  (kind m = None -> ask (Res := Res) (Exn := Exn) kind handle mws r m = ([], inr InvalidMessage) /\ dispatch (Res := Res) (Exn := Exn) kind handle mws r m = ([], inr InvalidMessage))
  /\ (forall k, kind m = Some k -> rget k r = None -> ask (Res := Res) (Exn := Exn) kind handle mws r m = ([], inr NotFound) /\ dispatch (Res := Res) (Exn := Exn) kind handle mws r m = ([], inr NotFound)).
Proof.
  intros. unfold dispatch, ask. split.
  - intros ->. auto.
  - intros k -> ->. auto.
Qed.
Print Assumptions C46_refused.

(** Whatever the middlewares do, they enclose each other in the declared order, and the only handler that is
    called is that of the type of the message. *)
Theorem C46_order : forall Msg Res Exn Hnd kind (handle : Hnd -> Msg -> Res + Exn) mws r m k h,
  kind m = Some k -> rget k r = Some h -> onion (length mws) h 0 (fst (ask kind handle mws r m)) /\ fst (dispatch kind handle mws r m) = fst (ask kind handle mws r m).
Proof.
  intros Msg Res Exn Hnd kind handle mws r m k h K R. unfold dispatch, ask. rewrite K, R.
  assert (G : forall mws i m, onion (i + length mws) h i (fst (run_chain handle i mws h m))).
  { clear. induction mws as [|mw mws IH]; intros i m; cbn [run_chain length].
    - cbn [fst]. rewrite Nat.add_0_r. apply core.
    - assert (P : forall p, exists ts, Forall (onion (i + S (length mws)) h (S i)) ts /\ fst (run_prog p (run_chain handle (S i) mws h)) = concat ts).
      { induction p as [v|e|m2 k IHk].
        - exists []. split; [constructor|reflexivity].
        - exists []. split; [constructor|reflexivity].
        - cbn [run_prog]. specialize (IH (S i) m2). destruct (run_chain handle (S i) mws h m2) as [t res]. destruct (IHk res) as (ts & F & E). destruct (run_prog (k res) (run_chain handle (S i) mws h)) as [t' res'].
          cbn [fst] in *. exists (t :: ts). split; [constructor; [|exact F]|cbn [concat]; rewrite E; reflexivity]. rewrite Nat.add_succ_r. exact IH. }
      destruct (P (mw m)) as (ts & F & E). destruct (run_prog (mw m) (run_chain handle (S i) mws h)) as [t res]. cbn [fst] in *. rewrite E. apply layer; [lia|exact F]. }
  specialize (G mws 0 m). cbn [Nat.add] in G. destruct (run_chain handle 0 mws h m) as [t res]. cbn [fst] in *. auto.
Qed.
Print Assumptions C46_order.

(** Middlewares that call on once see the message as the ones outside left it, the handler sees it as all of
    them left it, and its result comes back through them in reverse order. *)
Definition passing {Msg Res Exn} (f : (Msg -> Msg) * (Res + Exn -> Res + Exn)) : middleware (Msg := Msg) (Res := Res) (Exn := Exn) :=
  fun m => Next (fst f m) (fun r => match snd f r with inl v => Ret v | inr e => Err e end).
Fixpoint entries {Msg Res Exn Hnd} (i : nat) (fs : list ((Msg -> Msg) * (Res + Exn -> Res + Exn))) (h : Hnd) (m : Msg) : list (called Msg Hnd) :=
  match fs with [] => [Handles h m] | f :: r => Enter i m :: entries (S i) r h (fst f m) ++ [Leave i] end.
Theorem C46_passing : forall Msg Res Exn Hnd kind (handle : Hnd -> Msg -> Res + Exn) fs r m k h,
  kind m = Some k -> rget k r = Some h ->
  ask kind handle (map passing fs) r m = (entries 0 fs h m, inl (fold_right (fun f x => snd f x) (handle h (fold_left (fun x f => fst f x) fs m)) fs)).
Proof.
  intros Msg Res Exn Hnd kind handle fs r m k h K R. unfold ask. rewrite K, R.
  assert (G : forall fs i m, run_chain handle i (map passing fs) h m = (entries i fs h m, fold_right (fun f x => snd f x) (handle h (fold_left (fun x f => fst f x) fs m)) fs)).
  { clear. induction fs as [|f fs IH]; intros i m; [reflexivity|]. cbn [map run_chain passing run_prog fold_left fold_right]. rewrite IH. cbn [entries]. destruct (snd f _); cbn [run_prog]; rewrite app_nil_r; reflexivity. }
  rewrite G. reflexivity.
Qed.
Print Assumptions C46_passing.
Example C46_case :
  let os := [Register 1 10; Register 2 20; Register 1 11] in
  let m1 : middleware (Msg := nat) (Res := nat) (Exn := nat) := fun m => Next (m + 100) (fun r => match r with inl v => Ret (v + 1) | inr e => Err e end) in
  let m2 : middleware := fun m => Next m (fun _ => Next (m + 1) (fun r => match r with inl v => Ret (v * 2) | inr e => Err e end)) in
  let m3 : middleware := fun m => if Nat.eqb m 0 then Ret 7 else Next m (fun r => match r with inl v => Ret v | inr e => Err e end) in
  ask (fun m => Some 1) (fun h m => inl (h + m)) [m1; m2; m3] (bus_run os) 5
  = ([Enter 0 5; Enter 1 105; Enter 2 105; Handles 10 105; Leave 2; Enter 2 106; Handles 10 106; Leave 2; Leave 1; Leave 0], inl (inl 233))
  /\ ask (Res := nat) (Exn := nat) (fun m => Some 3) (fun h m => inl (h + m)) [m1] (bus_run os) 5 = ([], inr NotFound).
Proof. split; vm_compute; reflexivity. Qed.
