(** Model of the middleware stack and its scope isolation (lilya/_internal/_middleware.py).
    Scopes are mutable dictionaries that live in a heap; their values are texts or references to
    mutable lists, as the header list is.  The code of middlewares and endpoints is any program over
    its own scope, [send] and the application it wraps. *)
From Verif Require Import PyStr.

Inductive value := Text (a : str) | Ref (r : nat).
Definition scope := dict value.
Definition mlist := list (str * str).
(** What is seen of a scope's entry. *)
Inductive view := Absent | IsText (a : str) | IsList (l : mlist).

Inductive event :=
| Enter (id : nat) | Exit (id : nat)      (* the call of a layer starts, ends *)
| Hook (id : nat) (m : str)               (* a message passes the [send] that a layer gave its child *)
| Note (v : view).                        (* something a program shows *)

(** The heap: the scopes, the lists, the flags [route_metadata_synced] of the calls of isolation
    layers, and what happened so far. *)
Record world := W { scopes : list scope; lists : list mlist; flags : list bool; trace : list event }.
(** How a call ends: normally or with an exception. *)
Definition outcome := option nat.
Definition sender := str -> world -> world * outcome.
(** An ASGI application: the place of its scope, [send], the heap. *)
Definition asgi := nat -> sender -> world -> world * outcome.

(** Programs of layers and endpoints.  Variables captured by a [send] wrapper can be kept in the
    layer's own scope. *)
Inductive prog :=
| Return
| Fail (e : nat)
| Look (k : str) (next : view -> prog)            (* scope.get(k) *)
| Put (k a : str) (p : prog)                      (* scope[k] = a text *)
| PutList (k : str) (l : mlist) (p : prog)        (* scope[k] = a new list *)
| Alias (k from : str) (p : prog)                 (* scope[k] = scope[from], if there *)
| Drop (k : str) (p : prog)                       (* scope.pop(k, None) *)
| Grow (k : str) (h : str * str) (p : prog)       (* scope[k].append(h), if a list *)
| Emit (m : str) (next : outcome -> prog)         (* await send(m), errors caught or not *)
| Call (next : outcome -> prog)                   (* await self.app(scope, receive, send) *)
| Show (v : view) (p : prog).

Fixpoint update {A} (n : nat) (x : A) (l : list A) : list A :=
  match l, n with
  | [], _ => []
  | _ :: r, 0 => x :: r
  | y :: r, S n' => y :: update n' x r
  end.
Definition scope_of (w : world) (i : nat) : scope := nth i (scopes w) [].
Definition entry (w : world) (i : nat) (k : str) : option value := dget k (scope_of w i).
Definition list_of (w : world) (r : nat) : mlist := nth r (lists w) [].
Definition seen (w : world) (i : nat) (k : str) : view :=
  match entry w i k with None => Absent | Some (Text a) => IsText a | Some (Ref r) => IsList (list_of w r) end.
Definition set_scope (i : nat) (s : scope) (w : world) : world := W (update i s (scopes w)) (lists w) (flags w) (trace w).
Definition log (e : event) (w : world) : world := W (scopes w) (lists w) (flags w) (trace w ++ [e]).
Definition new_list (l : mlist) (w : world) : world := W (scopes w) (lists w ++ [l]) (flags w) (trace w).
Definition set_list (r : nat) (l : mlist) (w : world) : world := W (scopes w) (update r l (lists w)) (flags w) (trace w).

(** Running a program whose scope is at [i]. *)
Fixpoint exec (p : prog) (i : nat) (child : world -> world * outcome) (snd : sender) (w : world) : world * outcome :=
  match p with
  | Return => (w, None)
  | Fail e => (w, Some e)
  | Look k next => exec (next (seen w i k)) i child snd w
  | Put k a p => exec p i child snd (set_scope i (dset k (Text a) (scope_of w i)) w)
  | PutList k l p =>
      exec p i child snd (set_scope i (dset k (Ref (length (lists w))) (scope_of w i)) (new_list l w))
  | Alias k from p =>
      exec p i child snd (match entry w i from with Some v => set_scope i (dset k v (scope_of w i)) w | None => w end)
  | Drop k p => exec p i child snd (set_scope i (ddel k (scope_of w i)) w)
  | Grow k h p =>
      exec p i child snd (match entry w i k with Some (Ref r) => set_list r (list_of w r ++ [h]) w | _ => w end)
  | Emit m next => let '(w', o) := snd m w in exec (next o) i child snd w'
  | Call next => let '(w', o) := child w in exec (next o) i child snd w'
  | Show v p => exec p i child snd (log (Note v) w)
  end.

(** _middleware.py:31-48 [copy_scope_for_middleware]: a new dictionary with the same entries; the
    header list, given as a list, is copied into a new one. *)
Definition copy_scope (i : nat) (w : world) : world * nat :=
  let s := scope_of w i in
  let c := length (scopes w) in
  match dget (u "headers") s with
  | Some (Ref r) =>
      let w' := new_list (list_of w r) w in
      (W (scopes w' ++ [dset (u "headers") (Ref (length (lists w))) s]) (lists w') (flags w') (trace w'), c)
  | _ => (W (scopes w ++ [s]) (lists w) (flags w) (trace w), c)
  end.

(** _middleware.py:10 [ROUTE_SCOPE_KEYS], 64-74 [sync_route_metadata]. *)
Definition route_keys : list str := [u "route"; u "route_path_template"; u "handler"].
Definition sync1 (c i : nat) (w : world) (k : str) : world :=
  match entry w c k with Some v => set_scope i (dset k v (scope_of w i)) w | None => w end.
Definition sync (c i : nat) (w : world) : world := fold_left (sync1 c i) route_keys w.

(** _middleware.py:76-90 [ScopeIsolationMiddleware.__call__]. *)
Definition isolate (a : asgi) : asgi := fun i snd w =>
  let '(w1, c) := copy_scope i w in
  let f := length (flags w1) in
  let w2 := W (scopes w1) (lists w1) (flags w1 ++ [false]) (trace w1) in
  let snd' := fun m w => snd m (if nth f (flags w) false then w
                                else let w' := sync c i w in W (scopes w') (lists w') (update f true (flags w')) (trace w')) in
  let '(w3, o) := a c snd' w2 in
  (sync c i w3, o).

(** A middleware: its [__call__] and the [send] that it hands to its child. *)
Record layer := { l_id : nat; l_body : prog; l_hook : str -> prog }.
Definition nobody (w : world) : world * outcome := (w, None).
Definition hooked (l : layer) (i : nat) (snd : sender) : sender :=
  fun m w => exec (l_hook l m) i nobody snd (log (Hook (l_id l) m) w).
Definition use (l : layer) (child : asgi) : asgi := fun i snd w =>
  let '(w', o) := exec (l_body l) i (child i (hooked l i snd)) snd (log (Enter (l_id l)) w) in
  (log (Exit (l_id l)) w', o).
(** The endpoint wraps nothing. *)
Definition endpoint (l : layer) : asgi := fun i snd w =>
  let '(w', o) := exec (l_body l) i nobody snd (log (Enter (l_id l)) w) in
  (log (Exit (l_id l)) w', o).

(** _middleware.py:93-112 [apply_asgi_stack]; [controller] says that the application is a controller
    class, which the first layer wrapped around it gets as it is. *)
Definition stack_on (controller : bool) (a : asgi) (layers : list layer) : asgi :=
  fst (fold_left (fun '(x, ctl) l => (isolate (use l (if ctl : bool then x else isolate x)), false)) (rev layers) (a, controller)).

(** Serving a request: the first scope, and a server that takes every message. *)
Definition server : sender := fun m w => (log (Hook 0 m) w, None).
Definition serve (a : asgi) (s : scope) (ls : list mlist) : world * outcome := a 0 server (W [s] ls [] []).
