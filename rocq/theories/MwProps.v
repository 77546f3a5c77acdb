(** C31, C62: the middleware stack. *)
From Verif Require Import PyStr PyStrFacts MwModel MwSpec MwProofs.
From Coq Require Import Lia.

(** C31. Layers that call the application they wrap exactly once, whatever else they do and however
    they end, are entered in the declared order and left in the opposite one. *)
Theorem C31_order : forall ctl e ls s lists,
  Forall (fun l => calls (l_body l) 1) ls ->
  filter crossing (trace (fst (serve (stack_on ctl (endpoint e) ls) s lists))) =
  map Enter (map l_id ls) ++ [Enter (l_id e); Exit (l_id e)] ++ map Exit (rev (map l_id ls)).
Proof.
  intros ctl e ls s lists F. rewrite filter_flat. apply (stack_crossings ctl e ls F 0 server). intros m w. unfold server. cbn [fst]. rewrite tr_log. reflexivity.
Qed.
Print Assumptions C31_order.

(** With layers that pass every message on, each message of the endpoint passes the layers from the
    innermost to the outermost and then reaches the server. *)
Theorem C31_messages : forall ctl e n ls s lists,
  does (l_body e) 0 n -> Forall (fun l => does (l_body l) 1 0 /\ forall m, does (l_hook l m) 0 1) ls ->
  flat_map shape (trace (fst (serve (stack_on ctl (endpoint e) ls) s lists))) =
  map In_ (map l_id ls) ++ [In_ (l_id e)] ++ concat (repeat (map Msg (rev (map l_id ls)) ++ [Msg 0]) n) ++ [Out (l_id e)] ++ map Out (rev (map l_id ls)).
Proof.
  intros ctl e n ls s lists E F. apply (stack_messages ctl e n ls E F [Msg 0] 0 server). intros m w. unfold server. cbn [fst]. rewrite tr_log. reflexivity.
Qed.
Print Assumptions C31_messages.

(** Isolation: the application below a layer is any stack of any programs; it runs while the layer
    waits for it, with the layer's scope at [i] and the [send] given by the layer.  No entry of that
    scope changes, but for the metadata and for what the layer's own [send] does: whatever is true of
    an entry and kept by that [send] is true afterwards. *)
Theorem C31_isolation : forall ctl e ls i snd w k (P : option value -> Prop),
  i < length (scopes w) -> stays_below (length (scopes w)) snd -> ~ metadata k ->
  (forall m w, P (entry w i k) -> P (entry (fst (snd m w)) i k)) ->
  P (entry w i k) -> P (entry (fst (isolate (stack_on ctl (endpoint e) ls) i snd w)) i k).
Proof.
  intros ctl e ls i snd w k P I S M K H. set (n := length (scopes w)).
  assert (J : inv i n k (fun _ => False) P (fun _ => True) w).
  { split; [reflexivity|]. split; [intros r []|]. split; [|split; [exact H | intros r []]]. intros j J k' r _ []. }
  apply (isolate_keeps i n k (fun _ => False) P (fun _ => True) I _ i snd w (stack_fine i n k _ P _ I ctl e ls)).
  - intros m w0 (A & B & C & D & E). destruct (S m w0 A) as (X & Y & Z). split; [fold n in A; lia|]. split; [intros r []|]. split; [intros j J' k' r _ []|]. split; [apply K; exact D | intros r []].
  - exact J.
  - right. split; [reflexivity|]. split; [exact M|]. intros k' _ r _ [].
Qed.
Print Assumptions C31_isolation.

(** The header list: if the layer's scope holds it only under "headers", in-place changes made below
    do not reach it. *)
Theorem C31_headers : forall ctl e ls i snd w r (P : mlist -> Prop),
  i < length (scopes w) -> stays_below (length (scopes w)) snd ->
  entry w i (u "headers") = Some (Ref r) -> r < length (lists w) ->
  (forall k, k <> u "headers" -> entry w i k <> Some (Ref r)) ->
  (forall m w, P (list_of w r) -> P (list_of (fst (snd m w)) r)) ->
  P (list_of w r) -> P (list_of (fst (isolate (stack_on ctl (endpoint e) ls) i snd w)) r).
Proof.
  intros ctl e ls i snd w r P I S E R O K H. set (n := length (scopes w)).
  assert (M : ~ metadata (u "headers")) by (intros [X|[X|X]]; discriminate X).
  assert (J : inv i n (u "headers") (fun q => q = r) (fun _ => True) P w).
  { split; [reflexivity|]. split; [intros q ->; exact R|]. split; [|split; [exact Logic.I | intros q ->; exact H]].
    intros j J k' q E'. unfold entry, scope_of in E'. rewrite nth_overflow in E' by exact J. discriminate E'. }
  destruct (isolate_keeps i n (u "headers") (fun q => q = r) (fun _ => True) P I _ i snd w (stack_fine i n _ _ _ P I ctl e ls)) as (_ & _ & _ & _ & G).
  - intros m w0 (A & B & C & D & E0). destruct (S m w0 A) as (X & Y & Z). split; [fold n in A; lia|]. split; [intros q Q; apply B in Q; lia|].
    split; [intros j J' k'; unfold entry; rewrite Z by exact J'; apply C; exact J'|]. split; [exact D | intros q ->; apply K, E0; reflexivity].
  - exact J.
  - right. split; [reflexivity|]. split; [exact M|]. intros k' N q Q ->. apply (O k' N Q).
  - apply G. reflexivity.
Qed.
Print Assumptions C31_headers.

(** Seen in a whole run: a layer that waits for the rest of the stack, whatever that is, and then looks
    at an entry that the server gave, finds it as it was. *)
Definition looks (id : nat) (k : str) : layer :=
  {| l_id := id; l_body := Call (fun _ => Look k (fun v => Show v Return)); l_hook := fun m => Emit m (fun _ => Return) |}.
Theorem C31_observed : forall e id ls k a s lists,
  ~ metadata k -> dget k s = Some (Text a) ->
  exists before, notes (fst (serve (stack_on false (endpoint e) (looks id k :: ls)) s lists)) = before ++ [IsText a].
Proof.
  intros e id ls k a s lists M D. rewrite stack_cons. replace (if match ls with [] => false | _ => false end then stack_on false (endpoint e) ls else isolate (stack_on false (endpoint e) ls)) with (isolate (stack_on false (endpoint e) ls)) by (destruct ls; reflexivity).
  unfold serve. set (w := W (@cons scope s nil) lists [] []).
  pose proof (copy_scope_last 0 w) as (L1 & L2 & _ & _ & _ & L6 & _).
  destruct (copy_scope 0 w) as (w1 & c) eqn:CE. cbn [fst snd] in *. change (length (scopes w)) with 1 in *. subst c.
  assert (KH : entry w1 1 k = Some (Text a)).
  { rewrite L6. change (scope_of w 0) with s. destruct (seqb k (u "headers")) eqn:K.
    - apply seqb_eq in K. subst k. rewrite D. exact D.
    - destruct (dget (u "headers") s) as [[x|r]|]; exact D. }
  unfold isolate at 1. cbv beta. rewrite CE. set (f := length (flags w1)). set (w2 := W (scopes w1) (MwModel.lists w1) (flags w1 ++ [false]) (trace w1)). set (snd' := fun m w => server m _).
  unfold use. cbn [l_body looks exec].
  set (w3 := log (Enter _) w2).
  assert (B : stays_below (length (scopes w3)) snd').
  { intros m w0 N. unfold snd', server. cbn [fst]. destruct (nth f (flags w0) false); [split; [reflexivity | split; reflexivity]|].
    change (length (scopes w3)) with (length (scopes w1)) in N. rewrite L2 in N.
    split; [apply sync_length|]. split.
    - unfold sync. cbn [log scopes MwModel.lists]. generalize route_keys. intros ks. clear. revert w0. induction ks as [|k ks IH]; intros w0; [reflexivity|]. cbn [fold_left]. etransitivity; [|apply IH]. unfold sync1. destruct (entry w0 1 k); reflexivity.
    - intros j J. change (length (scopes w3)) with (length (scopes w1)) in J. rewrite L2 in J. unfold sync. generalize route_keys. intros ks. clear -J. change (scope_of (fold_left (sync1 1 0) ks w0) j = scope_of w0 j). revert w0. induction ks as [|k ks IH]; intros w0; [reflexivity|]. cbn [fold_left]. rewrite IH. unfold sync1. destruct (entry w0 1 k); [|reflexivity].
      unfold scope_of, set_scope. cbn [scopes]. apply nth_update_other. lia. }
  assert (I3 : 1 < length (scopes w3)) by (unfold w3, w2; cbn [log scopes]; lia).
  assert (P3 : forall m w0, Some (Text a) = entry w0 1 k -> Some (Text a) = entry (fst (snd' m w0)) 1 k).
  { intros m w0 E0. unfold snd', server. cbn [fst]. destruct (nth f (flags w0) false); [exact E0|].
    change (Some (Text a) = entry (sync 1 0 w0) 1 k). rewrite E0. clear. unfold sync. generalize route_keys. intros ks. revert w0. induction ks as [|x ks IH]; intros w0; [reflexivity|]. cbn [fold_left]. rewrite <- IH. unfold sync1. destruct (entry w0 1 x); [|reflexivity].
    unfold entry, scope_of, set_scope. cbn [scopes]. rewrite nth_update_other by lia. reflexivity. }
  pose proof (C31_isolation false e ls 1 (hooked (looks id k) 1 snd') w3 k (eq (Some (Text a))) I3 (hooked_below _ _ _ _ I3 B) M) as G.
  assert (P4 : forall m w0, Some (Text a) = entry w0 1 k -> Some (Text a) = entry (fst (hooked (looks id k) 1 snd' m w0)) 1 k).
  { intros m w0 E0. unfold hooked. cbn [l_hook looks exec]. pose proof (P3 m (log (Hook (l_id (looks id k)) m) w0) E0) as Q. destruct (snd' m _) as (w9 & o9). exact Q. }
  specialize (G P4 (eq_sym KH)). fold (looks id k).
  destruct (isolate (stack_on false (endpoint e) ls) 1 (hooked (looks id k) 1 snd') w3) as (w4 & o4). cbn [fst] in *.
  unfold seen. rewrite <- G. exists (notes w4). unfold notes. rewrite trace_sync. cbn [log trace]. rewrite !flat_map_app. cbn [flat_map]. rewrite !app_nil_r. reflexivity.
Qed.
Print Assumptions C31_observed.

(** The hypotheses on [send] hold for the sends of layers: they run the code of outer layers. *)
Theorem C31_sends : forall n, stays_below n server /\
  forall l i snd, i < n -> stays_below n snd -> stays_below n (hooked l i snd).
Proof. intros n. split; [apply server_below | intros; apply hooked_below; assumption]. Qed.
Print Assumptions C31_sends.

Definition waits (id : nat) : layer := {| l_id := id; l_body := Call (fun _ => Return); l_hook := fun m => Emit m (fun _ => Return) |}.
Definition messy : layer :=
  {| l_id := 9; l_body := Put (u "user") (u "eve") (Grow (u "headers") (u "x", u "y") (Put (u "route") (u "R") (Emit (u "start") (fun _ => Emit (u "body") (fun _ => Fail 3)))));
     l_hook := fun m => Return |}.
Example C31_order_case : calls (l_body (looks 1 (u "user"))) 1 /\
  filter crossing (trace (fst (serve (stack_on false (endpoint messy) [waits 1; looks 2 (u "user")]) [] []))) = [Enter 1; Enter 2; Enter 9; Exit 9; Exit 2; Exit 1].
Proof. split; [apply ca_call; intros o; apply ca_look; intros v; apply ca_show, ca_return | vm_compute; reflexivity]. Qed.
Example C31_messages_case : does (l_body messy) 0 2 /\ does (l_body (waits 1)) 1 0 /\
  flat_map shape (trace (fst (serve (stack_on false (endpoint messy) [waits 1; waits 2]) [] []))) =
  [In_ 1; In_ 2; In_ 9; Msg 2; Msg 1; Msg 0; Msg 2; Msg 1; Msg 0; Out 9; Out 2; Out 1].
Proof.
  split; [|split; [apply do_call; intros; apply do_return | vm_compute; reflexivity]].
  apply do_put, do_grow, do_put, do_emit. intros o. apply do_emit. intros o'. apply do_fail.
Qed.
(** A layer outside a messy endpoint sees its own entries and headers; it sees the route. *)
Example C31_isolation_case : let s := [(u "user", Text (u "bob")); (u "headers", Ref 0)] in
  notes (fst (serve (stack_on false (endpoint messy) [looks 1 (u "user"); looks 2 (u "headers"); looks 3 (u "route")]) s [[(u "host", u "h")]])) =
  [IsText (u "R"); IsList [(u "host", u "h")]; IsText (u "bob")].
Proof. vm_compute. reflexivity. Qed.
(** Two things are not isolated: the innermost layer around a controller class shares its scope, and
    mutable values other than the header list are shared by all layers. *)
Example C31_controller_shares : 
  notes (fst (serve (stack_on true (endpoint messy) [looks 1 (u "user")]) [(u "user", Text (u "bob"))] [])) = [IsText (u "eve")].
Proof. vm_compute. reflexivity. Qed.
Definition grows : layer := {| l_id := 8; l_body := Grow (u "state") (u "x", u "y") Return; l_hook := fun m => Return |}.
Example C31_nested_values_shared :
  notes (fst (serve (stack_on false (endpoint grows) [looks 1 (u "state")]) [(u "state", Ref 0)] [[]])) = [IsList [(u "x", u "y")]].
Proof. vm_compute. reflexivity. Qed.

(** C62. What layers add to the scope is seen below: the endpoint finds the text added by the
    innermost layer that added one, else what the server gave. *)
Theorem C62_downstream : forall ctl e ls added k s lists,
  l_body e = Look k (fun v => Show v Return) ->
  Forall2 (fun l ka => adder l (fst ka) (snd ka)) ls added ->
  (forall k' r, dget k' s = Some (Ref r) -> r < length lists) ->
  notes (fst (serve (stack_on ctl (endpoint e) ls) s lists)) =
  [last_added added k (match dget k s with None => Absent | Some (Text a) => IsText a | Some (Ref r) => IsList (nth r lists []) end)].
Proof.
  intros ctl e ls added k s lists E F S. apply (stack_reports ctl k e ls added E F 0 server (W [s] lists [] [])); [cbn; lia | exact S].
Qed.
Print Assumptions C62_downstream.
Definition adds_to (id : nat) (k a : str) : layer := {| l_id := id; l_body := Put k a (Call (fun _ => Return)); l_hook := fun m => Return |}.
Definition peek (k : str) : layer := {| l_id := 9; l_body := Look k (fun v => Show v Return); l_hook := fun m => Return |}.
Example C62_downstream_case : adder (adds_to 1 (u "user") (u "bob")) (u "user") (u "bob") /\
  notes (fst (serve (stack_on false (endpoint (peek (u "user"))) [adds_to 1 (u "user") (u "bob"); adds_to 2 (u "lang") (u "en"); adds_to 3 (u "user") (u "al")]) [] [])) = [IsText (u "al")].
Proof. split; [reflexivity | vm_compute; reflexivity]. Qed.

(** Route metadata comes out: whatever the application is, when it is done the caller's scope has
    every metadata entry of the scope that the application was given, which is the next one made. *)
Theorem C62_metadata : forall a i snd w w' o k v,
  isolate a i snd w = (w', o) -> i < length (scopes w) -> i < length (scopes w') -> metadata k ->
  entry w' (length (scopes w)) k = Some v -> entry w' i k = Some v.
Proof.
  intros a i snd w w' o k v E I I' M V. unfold isolate in E. pose proof (copy_scope_last i w) as (L1 & _). destruct (copy_scope i w) as (w1 & c). cbn [Datatypes.snd] in L1. subst c.
  destruct (a _ _ _) as (w3 & o3). injection E as <- <-. rewrite sync_length in I'.
  destruct (sync_entry (length (scopes w)) i w3 k ltac:(lia) I') as (A & B). rewrite A in V. rewrite B; [exact V | exact M | congruence].
Qed.
Print Assumptions C62_metadata.

(** And it is there already when the first message reaches the caller: here the application replaces
    its scope by anything and sends, and the caller looks. *)
Theorem C62_metadata_first_message : forall i w s m k a,
  i < length (scopes w) -> metadata k -> dget k s = Some (Text a) ->
  notes (fst (isolate (fun c send w => send m (set_scope c s w)) i (fun m w => (log (Note (seen w i k)) w, None)) w)) = notes w ++ [IsText a].
Proof.
  intros i w s m k a I M D. unfold isolate. pose proof (copy_scope_last i w) as (L1 & L2 & _).
  assert (T : trace (fst (copy_scope i w)) = trace w) by (unfold copy_scope; destruct (dget (u "headers") _) as [[x|r]|]; reflexivity).
  destruct (copy_scope i w) as (w1 & c). cbn [fst snd] in *. subst c. set (c := length (scopes w)) in *.
  cbn [set_scope flags scopes lists trace]. rewrite app_nth2 by lia. rewrite PeanoNat.Nat.sub_diag. cbn [nth].
  set (w3 := set_scope c s _). cbn [fst]. set (w4 := W _ _ (update _ _ _) _).
  unfold notes. rewrite trace_sync. cbn [log trace]. rewrite flat_map_app. cbn [flat_map app]. unfold w4 at 1. cbn [trace]. rewrite trace_sync. unfold w3 at 1. cbn [trace set_scope]. rewrite T. f_equal.
  assert (Ic : c < length (scopes w1)) by (unfold c; lia).
  assert (E3 : entry w3 c k = Some (Text a)).
  { unfold w3, entry, scope_of, set_scope. cbn [scopes]. rewrite nth_update, PeanoNat.Nat.eqb_refl. apply PeanoNat.Nat.ltb_lt in Ic. rewrite Ic. exact D. }
  assert (I3 : i < length (scopes w3)) by (unfold w3, set_scope; cbn [scopes]; rewrite update_length; lia).
  destruct (sync_entry c i w3 k ltac:(unfold c; lia) I3) as (_ & B). specialize (B M ltac:(congruence)). rewrite E3 in B.
  unfold seen. change (entry w4 i k) with (entry (sync c i w3) i k). rewrite B. reflexivity.
Qed.
Print Assumptions C62_metadata_first_message.
Example C62_metadata_case :
  notes (fst (serve (stack_on false (endpoint messy) [looks 1 (u "route"); looks 2 (u "route"); waits 3]) [] [])) = [IsText (u "R"); IsText (u "R")].
Proof. vm_compute. reflexivity. Qed.
