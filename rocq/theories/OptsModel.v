(** Model of how a path takes its options and those of its controller (lilya/routing/path.py:78-207,
    lilya/routing/websocket.py:60-160, lilya/controllers.py:24-32, 61-131), and of the decorators of a router
    (lilya/routing/router.py:679-777, lilya/_internal/_responses.py:1011-1030).
    Permissions, middlewares, hooks, handlers and providers are numbers. *)
From Verif Require Import PyStr.

(** What the body of one class defines. *)
Record own := {
  d_permissions : option (list nat); d_middleware : option (list nat); d_handlers : option (dict nat);
  d_dependencies : option (dict nat); d_before : option (list nat); d_after : option (list nat) }.
Definition nothing : own := {| d_permissions := None; d_middleware := None; d_handlers := None; d_dependencies := None; d_before := None; d_after := None |}.
(** controllers.py:24-32 [BaseController]. *)
Definition base_controller : own :=
  {| d_permissions := Some []; d_middleware := Some []; d_handlers := Some []; d_dependencies := Some []; d_before := Some []; d_after := Some [] |}.
(** A class: what it and its bases define, in the order in which Python looks attributes up. *)
Definition class := list own.
Fixpoint attribute {X} (f : own -> option (list X)) (c : class) : list X :=
  match c with [] => [] | o :: c' => match f o with Some x => x | None => attribute f c' end end.
(** controllers.py:51-59, 193-200: [Controller] and [WebSocketController] themselves define no options. *)
Definition controller : class := [nothing; base_controller].
(** A class of the user, with its own bases. *)
Definition subclass (bodies : list own) : class := bodies ++ controller.
(** controllers.py:86-131, 239-290 [with_init]: a subclass of [Controller], not of the class it is called on. *)
Definition with_init (c : class) : class := nothing :: controller.

(** A list of hooks: one that the caller keeps too, by its place, or one that only the path has. *)
Inductive hooks := Shared (a : nat) | Own (l : list nat).
(** The arguments of a path. [socket]: a websocket path. *)
Record given := {
  g_permissions : list nat; g_middleware : list nat; g_handlers : dict nat; g_dependencies : dict nat;
  g_before : option nat; g_after : option nat; g_controller : option class; g_endpoint : nat; g_socket : bool }.
Record route := {
  r_permissions : list nat; r_middleware : list nat; r_handlers : dict nat; r_dependencies : dict nat;
  r_before : hooks; r_after : hooks; r_has_before : bool; r_has_after : bool; r_looks : bool; r_endpoint : nat }.

(** The lists that the callers keep. *)
Definition lists := list (list nat).
Definition content (h : lists) (x : hooks) : list nat := match x with Shared a => nth a h [] | Own l => l end.
Fixpoint set_at (a : nat) (f : list nat -> list nat) (h : lists) : lists :=
  match h, a with [], _ => [] | l :: h', 0%nat => f l :: h' | l :: h', S a' => l :: set_at a' f h' end.
(** [list.extend]. *)
Definition extend (h : lists) (x : hooks) (l : list nat) : lists * hooks :=
  match x with Shared a => (set_at a (fun l0 => l0 ++ l) h, x) | Own l0 => (h, Own (l0 ++ l)) end.
Definition is_empty {X} (l : list X) : bool := match l with [] => true | _ => false end.
(** path.py:134-135. *)
Definition hooks_of (o : option nat) : hooks := match o with Some a => Shared a | None => Own [] end.
Definition class_of (g : given) : class := match g_controller g with Some c => c | None => [] end.
(** path.py:100-154 and 181-207 [_apply_controller_options]; websocket.py:62-99, 130-158.
    Simplified: of a websocket path the dependencies are not modelled further, for nobody asks for them when the
    endpoint is a controller. *)
Definition make (h : lists) (g : given) : lists * route :=
  let c := class_of g in
  let '(h, b) := extend h (hooks_of (g_before g)) (attribute d_before c) in
  let '(h, a) := extend h (hooks_of (g_after g)) (attribute d_after c) in
  let eh := dupdate (g_handlers g) (attribute d_handlers c) in
  (h, {| r_permissions := g_permissions g ++ attribute d_permissions c; r_middleware := g_middleware g ++ attribute d_middleware c;
         r_handlers := eh; r_dependencies := dupdate (g_dependencies g) (attribute d_dependencies c);
         r_before := b; r_after := a; r_has_before := negb (is_empty (content h b)); r_has_after := negb (is_empty (content h a));
         r_looks := g_socket g || negb (is_empty eh); r_endpoint := g_endpoint g |}).
(** A module that makes its routes, one after the other, with lists [h]. *)
Fixpoint build (h : lists) (gs : list given) : lists * list route :=
  match gs with [] => (h, []) | g :: gs' => let '(h, r) := make h g in let '(h, rs) := build h gs' in (h, r :: rs) end.

(** path.py:386-440, websocket.py:237-261: what runs for a request that every guard lets pass. *)
Inductive event := Before (n : nat) | Middleware (n : nat) | Permission (n : nat) | Endpoint (n : nat) | After (n : nat).
Definition runs_before (h : lists) (r : route) : list nat := if r_looks r || r_has_before r then content h (r_before r) else [].
Definition runs_after (h : lists) (r : route) : list nat := if r_looks r || r_has_after r then content h (r_after r) else [].
(** _internal/_middleware.py:109-111: the first of the list is the outermost; path.py:141-142: permissions first, so that
    they are inside the middlewares. *)
Definition wrap (k : nat -> event) (stack : list nat) (inner : list event) : list event := fold_right (fun n i => k n :: i) inner stack.
Definition request (h : lists) (r : route) : list event :=
  map Before (runs_before h r) ++ wrap Middleware (r_middleware r) (wrap Permission (r_permissions r) [Endpoint (r_endpoint r)]) ++ map After (runs_after h r).

(** Dependencies given to a decorator: a [Provide], a callable, or a value. *)
Inductive dependency := Provide (n : nat) | Callable (n : nat) | Value (n : nat).
(** A use of [@router.get(..., dependencies=...)] on a function. *)
Record decoration := { c_function : nat; c_dependencies : dict dependency }.
(** dependencies.py:28-53 [wrap_dependency]: the cache is in DepModel. *)
Definition wrap_dependency (d : dependency) : dependency := match d with Callable n | Value n | Provide n => Provide n end.
(** What functions carry in [_lilya_dependencies]. *)
Definition attributes := list (nat * dict dependency).
Fixpoint attribute_of (f : nat) (s : attributes) : dict dependency :=
  match s with [] => [] | (f', d) :: s' => if Nat.eqb f f' then d else attribute_of f s' end.
(** router.py:712-726: the path wraps them (path.py:108-109); the function is marked with them as they are. *)
Definition decorate (s : attributes) (c : decoration) : attributes * (nat * dict dependency) :=
  ((c_function c, c_dependencies c) :: s, (c_function c, map (fun p => (fst p, wrap_dependency (snd p))) (c_dependencies c))).
Fixpoint decorate_all (s : attributes) (cs : list decoration) : attributes * list (nat * dict dependency) :=
  match cs with [] => (s, []) | c :: cs' => let '(s, r) := decorate s c in let '(s, rs) := decorate_all s cs' in (s, r :: rs) end.
(** What a parameter gets: the value of a provider; AttributeError, for a callable or a value has no [resolve]; nothing. *)
Inductive injected := Resolved (n : nat) | AttributeError | Missing.
(** _responses.py:1019-1026, 1060-1072 and 1146-1152, 1160-1182: the dependencies of the path, then those on the function. *)
Definition inject (s : attributes) (r : nat * dict dependency) (name : str) : injected :=
  match dget name (dupdate (snd r) (attribute_of (fst r) s)) with
  | None => Missing
  | Some (Provide n) => Resolved n
  | Some _ => AttributeError
  end.
