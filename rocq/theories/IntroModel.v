(** Model of the introspection graph of an application: lilya/introspection/__builder.py, lilya/introspection/_graph.py,
    the constructor of lilya/routing/include.py as far as the builder looks at it, and [Lilya.graph] (lilya/apps.py:1380-1397).

    Applications are numbered; the objects that the builder tells apart with [id] are these numbers.  The identifiers of
    nodes, random UUIDs in the code, are the numbers 0, 1, 2, ... in the order of creation: what matters is that they differ
    (DESIGN.md, trusted base). *)
From Coq Require Import List Bool Arith.
From Verif Require Import PyStr.
Import ListNotations.

(** A middleware or permission as it is declared: through [DefineMiddleware]/[DefinePermission], or the class itself.  A class
    is given by its name. *)
Inductive decl := Define (c : str) | Raw (c : str).

(** What an include leads to: an application, a router made of the [routes] or the [namespace] given to it, or another ASGI
    application. *)
Inductive entry :=
| Route (path : option str) (methods : list str) (mws perms : list decl)
| Incl (path : str) (name : option str) (mws perms : list decl) (t : target)
with target := ToApp (a : nat) | ToRoutes (es : list entry) | ToOther.

Record application := { a_debug : bool; a_middleware : list decl; a_routes : list entry }.
(** All the applications, by number. *)
Definition store := list application.

(** _types.py:9-24. *)
Inductive kind := APPLICATION | MIDDLEWARE | ROUTER | ROUTE | PERMISSION | INCLUDE.
Inductive edge_kind := WRAPS | DISPATCHES_TO.
Definition kind_eqb (a b : kind) : bool :=
  match a, b with
  | APPLICATION, APPLICATION | MIDDLEWARE, MIDDLEWARE | ROUTER, ROUTER | ROUTE, ROUTE | PERMISSION, PERMISSION | INCLUDE, INCLUDE => true
  | _, _ => false
  end.
(** The object a node stands for: an application, a class, the router of an application, or the entry with a number in the
    routes of an application. *)
Inductive ref := RApp (a : nat) | RClass (c : str) | RRouter (a : nat) | REntry (a k : nat).
Inductive meta := MDebug (b : bool) | MClass (c : str) | MNone | MRoute (path : option str) (methods : list str) | MIncl (path : str) (name : option str).
(** _types.py:27-50. *)
Record node := { n_id : nat; n_kind : kind; n_ref : ref; n_meta : meta }.
Record edge := { e_source : nat; e_target : nat; e_kind : edge_kind }.

(** __builder.py:98-102. *)
Record builder := { b_nodes : list node; b_edges : list edge; b_visited : list nat }.
Definition empty : builder := {| b_nodes := []; b_edges := []; b_visited := [] |}.

(** __builder.py:28-72 [_resolve_middleware_class], [_resolve_permission_class]. *)
Definition resolve (d : decl) : str := match d with Define c => c | Raw c => c end.

(** __builder.py:157-246 [_add_application], [_add_middleware], [_add_router], [_add_route], [_add_permission],
    [_add_include]: all append a node with a new identifier and return it. *)
Definition add_node (k : kind) (r : ref) (m : meta) (b : builder) : builder * nat :=
  let i := length (b_nodes b) in
  ({| b_nodes := b_nodes b ++ [{| n_id := i; n_kind := k; n_ref := r; n_meta := m |}]; b_edges := b_edges b; b_visited := b_visited b |}, i).
(** __builder.py:352-361 [_add_edge]. *)
Definition add_edge (s t : nat) (k : edge_kind) (b : builder) : builder :=
  {| b_nodes := b_nodes b; b_edges := b_edges b ++ [{| e_source := s; e_target := t; e_kind := k |}]; b_visited := b_visited b |}.
Definition visit (a : nat) (b : builder) : builder :=
  {| b_nodes := b_nodes b; b_edges := b_edges b; b_visited := a :: b_visited b |}.

(** The loops over middlewares or permissions: __builder.py:121-126, 276-292, 335-350.  [last] is [last_wrapped_node]. *)
Fixpoint add_layers (k : kind) (ds : list decl) (last : nat) (b : builder) : builder * nat :=
  match ds with
  | [] => (b, last)
  | d :: ds' =>
      let (b1, i) := add_node k (RClass (resolve d)) (MClass (resolve d)) b in
      add_layers k ds' i (add_edge last i WRAPS b1)
  end.

(** routing/include.py:106-141: the [app] of an include, after the permissions and middleware have been applied
    (_internal/_middleware.py:93-112: with any layer the application is wrapped, and no longer an instance of [Lilya]).  It is
    never [None], so that __builder.py:310-319 is never reached. *)
Definition include_app (mws perms : list decl) (t : target) : option nat :=
  match mws, perms, t with [], [], ToApp a => Some a | _, _, _ => None end.

(** __builder.py:248-327 [_traverse_router] on the router of application [a], with [_attach_route_layers] (329-350): the loop
    over the entries, from number [k] on.  [rec] is [_traverse_router] itself. *)
Section traverse.
  Variable st : store.
  Fixpoint loop (rec : nat -> nat -> builder -> option builder) (a router : nat) (k : nat) (es : list entry) (b : builder) : option builder :=
    match es with
    | [] => Some b
    | Incl p nm mws perms t :: es' =>
        let (b1, i) := add_node INCLUDE (REntry a k) (MIncl p nm) b in
        let b2 := add_edge router i DISPATCHES_TO b1 in
        let (b3, l3) := add_layers MIDDLEWARE mws i b2 in
        let (b4, l4) := add_layers PERMISSION perms l3 b3 in
        match include_app mws perms t with
        | Some c =>
            if existsb (Nat.eqb c) (b_visited b4) then loop rec a router (S k) es' b4
            else
              let (b5, r) := add_node ROUTER (RRouter c) MNone (visit c b4) in
              match rec c r (add_edge l4 r DISPATCHES_TO b5) with
              | Some b6 => loop rec a router (S k) es' b6
              | None => None
              end
        | None => loop rec a router (S k) es' b4
        end
    | Route p ms mws perms :: es' =>
        let (b1, i) := add_node ROUTE (REntry a k) (MRoute p ms) b in
        let b2 := add_edge router i DISPATCHES_TO b1 in
        let (b3, l3) := add_layers MIDDLEWARE mws i b2 in
        let (b4, l4) := add_layers PERMISSION perms l3 b3 in
        loop rec a router (S k) es' b4
    end.
  (** The recursion is on fuel; [None] is running out of it. *)
  Fixpoint traverse (fuel : nat) (a router : nat) (b : builder) : option builder :=
    match fuel with
    | 0 => None
    | S fuel' => match nth_error st a with Some ap => loop (traverse fuel') a router 0 (a_routes ap) b | None => Some b end
    end.
End traverse.

(** _graph.py:62-99: what is kept of the nodes and edges; edges whose ends are missing are left out of the adjacency. *)
Record graph := { g_nodes : list node; g_edges : list edge }.

(** __builder.py:104-134 [build], of application [a].  An application always has a router. *)
Definition build (st : store) (fuel : nat) (a : nat) : option graph :=
  match nth_error st a with
  | None => None
  | Some ap =>
      let (b1, i) := add_node APPLICATION (RApp a) (MDebug (a_debug ap)) empty in
      let (b2, l) := add_layers MIDDLEWARE (a_middleware ap) i b1 in
      let (b3, r) := add_node ROUTER (RRouter a) MNone b2 in
      option_map (fun b => {| g_nodes := b_nodes b; g_edges := b_edges b |}) (traverse st fuel a r (add_edge l r DISPATCHES_TO b3))
  end.

(** * The queries *)
(** _graph.py:74 and [nodes]: the node with an identifier. *)
Definition node_of (g : graph) (i : nat) : option node := List.find (fun n => Nat.eqb (n_id n) i) (g_nodes g).
(** _graph.py:111-120 [by_kind]. *)
Definition by_kind (g : graph) (k : kind) : list node := filter (fun n => kind_eqb (n_kind n) k) (g_nodes g).
(** _graph.py:122-138 [application]: [None] is the RuntimeError. *)
Definition application_of (g : graph) : option node := match by_kind g APPLICATION with [n] => Some n | _ => None end.
(** _graph.py:85-99: the nodes that the WRAPS edges of a node lead to, in the order of insertion. *)
Definition wraps (g : graph) (i : nat) : list node :=
  flat_map (fun e => if Nat.eqb (e_source e) i && match e_kind e with WRAPS => true | _ => false end
                     then match node_of g (e_source e), node_of g (e_target e) with Some _, Some n => [n] | _, _ => [] end else []) (g_edges g).
(** The loop of _graph.py:140-164 [middlewares], 184-216 [permissions_for], 265-297 [route_middlewares]: along the first WRAPS
    edges while the node is of the kind.  The fuel is the number of nodes; [None] is a loop that does not end. *)
Fixpoint chain (g : graph) (fuel : nat) (k : kind) (i : nat) : option (list node) :=
  match fuel with
  | 0 => None
  | S fuel' =>
      match wraps g i with
      | n :: _ => if kind_eqb (n_kind n) k then option_map (cons n) (chain g fuel' k (n_id n)) else Some []
      | [] => Some []
      end
  end.
Definition fuel_of (g : graph) : nat := S (length (g_nodes g)).
Definition middlewares (g : graph) : option (list node) :=
  match application_of g with Some n => chain g (fuel_of g) MIDDLEWARE (n_id n) | None => None end.
(** [None] is also the TypeError for a node of another kind. *)
Definition permissions_for (g : graph) (n : node) : option (list node) :=
  if kind_eqb (n_kind n) ROUTE then chain g (fuel_of g) PERMISSION (n_id n) else None.
Definition route_middlewares (g : graph) (n : node) : option (list node) :=
  if kind_eqb (n_kind n) ROUTE then chain g (fuel_of g) MIDDLEWARE (n_id n) else None.
(** _graph.py:299-339 [include_layers]. *)
Fixpoint layers (g : graph) (fuel : nat) (i : nat) : option (list node * list node) :=
  match fuel with
  | 0 => None
  | S fuel' =>
      match wraps g i with
      | n :: _ =>
          match n_kind n with
          | MIDDLEWARE => option_map (fun r => (n :: fst r, snd r)) (layers g fuel' (n_id n))
          | PERMISSION => option_map (fun r => (fst r, n :: snd r)) (layers g fuel' (n_id n))
          | _ => Some ([], [])
          end
      | [] => Some ([], [])
      end
  end.
Definition include_layers (g : graph) (n : node) : option (list node * list node) :=
  if kind_eqb (n_kind n) INCLUDE then layers g (fuel_of g) (n_id n) else None.
(** _graph.py:166-182 [routes], [route_by_path]; 261-263 [includes]. *)
Definition routes (g : graph) : list node := by_kind g ROUTE.
Definition includes (g : graph) : list node := by_kind g INCLUDE.
Definition path_of (n : node) : option str := match n_meta n with MRoute p _ => p | MIncl p _ => Some p | _ => None end.
Definition route_by_path (g : graph) (p : str) : option node :=
  List.find (fun n => match path_of n with Some q => seqb q p | None => false end) (routes g).
Definition class_of (n : node) : str := match n_meta n with MClass c => c | _ => [] end.
(** _graph.py:218-259 [explain]: debug, middlewares, path, methods, permissions; [None] is the ValueError. *)
Record explanation := { x_debug : bool; x_middlewares : list str; x_path : option str; x_methods : list str; x_permissions : list str }.
Definition explain (g : graph) (p : str) : option explanation :=
  match route_by_path g p with
  | None => None
  | Some n =>
      match middlewares g, permissions_for g n, application_of g with
      | Some ms, Some ps, Some ap =>
          Some {| x_debug := match n_meta ap with MDebug b => b | _ => false end;
                  x_middlewares := map class_of ms;
                  x_path := path_of n;
                  x_methods := match n_meta n with MRoute _ m => m | _ => [] end;
                  x_permissions := map class_of ps |}
      | _, _, _ => None
      end
  end.

(** apps.py:1380-1397 [graph]: built at the first use and kept. *)
Definition graph_property (st : store) (fuel : nat) (a : nat) (cache : option graph) : option graph * option graph :=
  match cache with
  | Some g => (cache, Some g)
  | None => let g := build st fuel a in (g, g)
  end.
