(** What C251-C258 say. *)
From Verif Require Import PyStr ExcModel ExcSpec WsrModel.

(** The components of an application end normally or raise an exception; they do not ask the router to go on. *)
Definition plain (o : ending) : Prop := o = Done \/ exists e, o = Raise e.
Definition plain_world (w : world) : Prop :=
  (forall n, plain (snd (hook w n))) /\ (forall n ms o, guard w n = Stop ms o -> plain o) /\
  (forall n, plain (snd (endpoint w n))) /\ (forall n e, plain (snd (handle w n e))).

(** A table of handlers without one for all exceptions; no key twice. *)
Definition proper (t : table) : Prop :=
  NoDup (map fst t) /\ ~ In (KStatus 500) (map fst t) /\ ~ In (KClass cException) (map fst t).
(** An application with handlers and nothing else. *)
Definition with_handlers (t : table) : settings := {| a_handlers := t; a_mids := []; a_before := []; a_perms := []; a_after := [] |}.
(** The endpoint of a route is reached: its hooks before are silent and end, its middlewares and permissions pass. *)
Definition let_in (w : world) (o : options) : Prop :=
  (forall n, In n (o_before o) -> hook w n = ([], Done)) /\ (forall n, In n (o_guards o) -> guard w n = Pass).
Definition let_out (w : world) (o : options) : Prop := forall n, In n (o_after o) -> hook w n = ([], Done).
(** The exception is a WebSocketException, and the application has no other handler for it. *)
Definition websocket_exception (t : table) (e : exc) : Prop := chosen t e WsDefault.
Definition no_handler (t : table) (e : exc) : Prop := forall h, ~ chosen t e h.

(** Some close among what happened. *)
Definition closed (l : list ev) : Prop := exists c r, In (Sent (MClose c r)) l.
Definition closes (l : list ev) : nat := length (filter (fun e => match e with Sent (MClose _ _) => true | _ => false end) l).
Definition closings (ms : list msg) : nat := length (filter (fun m => match m with MClose _ _ => true | _ => false end) ms).

(** A component that closes at most once, and ends normally if it did. *)
Definition tidy (x : list msg * ending) : Prop := closings (fst x) = 0 \/ (closings (fst x) = 1 /\ snd x = Done).
Definition tidy_world (w : world) : Prop :=
  (forall n, closings (fst (hook w n)) = 0) /\ (forall n ms o, guard w n = Stop ms o -> tidy (ms, o)) /\
  (forall n, tidy (endpoint w n)) /\ (forall n e, tidy (handle w n e)).
(** The hooks after a request of these routes end normally. *)
Inductive calm (w : world) : node -> Prop :=
| calm_miss : calm w Miss
| calm_path o t : (forall n, In n (o_after o) -> snd (hook w n) = Done) -> calm w (WsPath o t)
| calm_inc o rs : (forall n, In n (o_after o) -> snd (hook w n) = Done) -> Forall (calm w) rs -> calm w (Inc o rs)
| calm_mount o a rs : (forall n, In n (o_after o ++ a_after a) -> snd (hook w n) = Done) -> Forall (calm w) rs -> calm w (Mount o a rs).

(** Includes in includes around a route, and the order of what is called. *)
Fixpoint nested (os : list options) (n : node) : node := match os with [] => n | o :: os' => Inc o [nested os' n] end.
Definition entering (o : options) : list ev := map (Did Before) (o_before o) ++ map (Did Guard) (o_guards o).
Definition leaving (o : options) : list ev := map (Did After) (o_after o).
Definition around (os : list options) (l : list ev) : list ev :=
  concat (map entering os) ++ l ++ concat (map leaving (rev os)).

(** RFC 6455, 5.5, 7.4: the codes an endpoint may send, and at most 123 bytes of reason. *)
Definition legal_code (c : Z) : Prop := (1000 <= c <= 1003 \/ 1007 <= c <= 1014 \/ 3000 <= c <= 4999)%Z.
