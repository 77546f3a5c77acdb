(** Vocabulary for C95, C96 and C97. *)
From Verif Require Import PyStr Asgi ExcModel DispModel.

(** Whenever the handler [h] runs in [tr], each of [ids] has been asked before and has let the request pass. *)
Definition asked (w : world) (q : req) (k : nat -> event) (ids : list nat) (tr : list event) : Prop :=
  forall t1 t2 h ov, tr = t1 ++ Ran h ov :: t2 -> forall n, In n ids -> guard w n q = Pass /\ In (k n) t1.
(** ... and so has each permission and middleware of a route with this handler. *)
Definition route_asked (w : world) (q : req) (rs : list route) (tr : list event) : Prop :=
  forall t1 t2 h ov, tr = t1 ++ Ran h ov :: t2 -> exists r, In r rs /\ r_handler r = h /\
    (forall n, In n (r_perms r) -> guard w n q = Pass /\ In (Perm n) t1) /\
    (forall n, In n (r_mids r) -> guard w n q = Pass /\ In (Mid n) t1).

(** What an application is made with. *)
Record config := {
  c_debug : bool; c_intercept : bool; c_settings : bool; c_handlers : table; c_mids : list nat; c_perms : list nat;
  c_before : list nat; c_after : list nat; c_routes : list route; c_slashes : bool }.
Definition construct (c : config) : appl :=
  make (c_debug c) (c_intercept c) (c_settings c) (c_handlers c) (c_mids c) (c_perms c) (c_before c) (c_after c) (c_routes c) (c_slashes c).
(** The answers to the requests of a history. *)
Definition answers (w : world) (c : config) (os : list op) : list out := snd (history w (construct c) os).
(** The shortcut is taken only by applications with one fixed path and nothing else in their way. *)
Definition one_fixed_path (c : config) : Prop :=
  c_debug c = false /\ c_intercept c = false /\ c_settings c = false /\ c_handlers c = [] /\ c_mids c = [] /\
  exists r, c_routes c = [r] /\ r_params r = false.

(** No exception of a websocket is raised; the exceptions of the framework are http exceptions. *)
Definition off_topic (e : exc) : Prop := In cWS (e_mro e).
Record sensible (w : world) : Prop := {
  s_guard : forall n q e, guard w n q = Refuse e -> ~ off_topic e;
  s_callback : forall n q e, callback w n q = Some e -> ~ off_topic e;
  s_endpoint : forall h q ov ms e, endpoint w h q ov = (ms, Err e) -> ~ off_topic e;
  s_handler : forall n e e', (acts (w_env w) n e = Raises e' \/ exists ms, acts (w_env w) n e = Gives ms (Some e')) -> ~ off_topic e';
  s_python : ~ off_topic (py_error (w_env w));
  s_not_found : ~ off_topic (not_found w);
  s_not_allowed : forall r, ~ off_topic (not_allowed w r) }.

(** What a user calls to configure an application, and the application made with the same at once. *)
Inductive configured : config -> op -> config -> Prop :=
| by_middleware c m : configured c (AddMiddleware m)
    {| c_debug := c_debug c; c_intercept := c_intercept c; c_settings := c_settings c; c_handlers := c_handlers c; c_mids := m :: c_mids c;
       c_perms := c_perms c; c_before := c_before c; c_after := c_after c; c_routes := c_routes c; c_slashes := c_slashes c |}
| by_permission c p : configured c (AddPermission p)
    {| c_debug := c_debug c; c_intercept := c_intercept c; c_settings := c_settings c; c_handlers := c_handlers c; c_mids := c_mids c;
       c_perms := p :: c_perms c; c_before := c_before c; c_after := c_after c; c_routes := c_routes c; c_slashes := c_slashes c |}
| by_handler c k h : configured c (AddHandler k h)
    {| c_debug := c_debug c; c_intercept := c_intercept c; c_settings := c_settings c; c_handlers := aset key_eqb k h (c_handlers c); c_mids := c_mids c;
       c_perms := c_perms c; c_before := c_before c; c_after := c_after c; c_routes := c_routes c; c_slashes := c_slashes c |}
| by_route c r : configured c (AddRoute r)
    {| c_debug := c_debug c; c_intercept := c_intercept c; c_settings := c_settings c; c_handlers := c_handlers c; c_mids := c_mids c;
       c_perms := c_perms c; c_before := c_before c; c_after := c_after c; c_routes := c_routes c ++ [r]; c_slashes := c_slashes c |}.
Inductive all_configured : config -> list op -> config -> Prop :=
| no_more c : all_configured c [] c
| one_more c o c1 os c2 : configured c o c1 -> all_configured c1 os c2 -> all_configured c (o :: os) c2.

(** The same application with a settings module of its own, which is the general way only. *)
Definition with_settings (c : config) : config :=
  {| c_debug := c_debug c; c_intercept := c_intercept c; c_settings := true; c_handlers := c_handlers c; c_mids := c_mids c;
     c_perms := c_perms c; c_before := c_before c; c_after := c_after c; c_routes := c_routes c; c_slashes := c_slashes c |}.
(** Two answers the client and the components cannot tell apart. *)
Definition same_answer (x y : out) : Prop :=
  match x, y with
  | Served r, Served r' => events r = events r' /\ messages r = messages r' /\ (ends r = Done <-> ends r' = Done)
  | Quiet, Quiet | RuntimeErr, RuntimeErr => True
  | _, _ => False
  end.
(** The answer to a request after a history. *)
Definition answer_after (w : world) (c : config) (os : list op) (q : req) (r : res) : Prop :=
  snd (step w (fst (history w (construct c) os)) (Request q)) = Served r.
