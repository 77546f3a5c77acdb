(** Model of the objects that serve the requests of a controller (lilya/controllers.py:51-190, 193-290,
    lilya/protocols/middleware.py:10-18, lilya/protocols/permissions.py:10-18,
    lilya/_internal/_middleware.py:93-112, lilya/routing/path.py:355-362, 397-400): a path without middlewares
    and permissions makes an object for each request; behind a middleware or a permission one object, made with
    the route, serves them all.
    Simplified: what a handler gets from the path, the body and the providers is an oracle (ArgsModel has it in
    detail); the attributes that the user's code keeps on [self] are one value. *)
From Verif Require Import PyStr.

Section Inst.
  Context {request V A error response : Type}.

  (** A parameter of a handler: bound to the query, a header or a cookie by its default, or not. *)
  Inductive param := Bound | Other.
  Definition signature := list (str * param).
  Definition names (s : signature) : list str := map fst s.
  Definition args := dict V.
  (** How a request ends: an answer, 405 (an HTTPException within an application, else a response with the
      header Allow), or an exception. *)
  Inductive outcome := Answer (r : response) | NotAllowed (raised : bool) | Raised (e : error).
  (** The code of a handler: at each step it may change the attributes of [self]; between two steps it waits. *)
  Inductive code := Return (f : A -> outcome) | Do (f : A -> A) (k : A -> code).

  (** The class: [pick] finds the handler of the request's method and its signature; [body] is its code.
      [in_app]: the scope has the key app.  [provided]: _responses.py:976-1075; [bound_value]: one parameter of
      _responses.py:615-668; [init]: the attributes of a new object. *)
  Record class := {
    pick : request -> option (nat * signature); body : nat -> args -> code; init : A;
    in_app : request -> bool; provided : request -> signature -> args + error;
    bound_value : request -> str -> V + error; the_request : request -> V }.
  Variable c : class.

  (** controllers.py:57-59: what the framework keeps on the object, and the attributes of the user. *)
  Record object := { o_signature : option signature; o_scope : option request; o_attrs : A }.
  Definition new : object := {| o_signature := None; o_scope := None; o_attrs := init c |}.

  (** _responses.py:615-668 on top of [a]. *)
  Fixpoint bind (q : request) (s : signature) (a : args) : args + error :=
    match s with
    | [] => inl a
    | (n, Bound) :: s' => match bound_value c q n with inl v => bind q s' (dset n v a) | inr e => inr e end
    | (_, Other) :: s' => bind q s' a
    end.
  (** controllers.py:151-159: the handler, or [handle_not_allowed], whose signature is empty. *)
  Definition handler (q : request) : option nat * signature :=
    match pick c q with Some (h, s) => (Some h, s) | None => (None, []) end.

  (** A request in the object: not yet begun, waiting for [_extract_params_from_request], running, over. *)
  Inductive task := New (q : request) | Extracting (q : request) (h : option nat) (r : args + error) | Running (p : code) | Over (o : outcome).
  (** controllers.py:149-181 [handle_dispatch], cut at the places where it waits. The signature is written before
      the first of them and read again from [self] after it. *)
  Definition tick (t : task) (o : object) : task * object :=
    match t with
    | New q =>
        let '(h, s) := handler q in
        (Extracting q h (provided c q s), {| o_signature := Some s; o_scope := Some q; o_attrs := o_attrs o |})
    | Extracting q h (inr e) => (Over (Raised e), o)
    | Extracting q h (inl a) =>
        let s := match o_signature o with Some s => s | None => [] end in
        match bind q s a with
        | inr e => (Over (Raised e), o)
        | inl a =>
            let a := if smem (u "request") (names s) then dset (u "request") (the_request c q) a else a in
            match h with
            | Some h => (Running (body c h a), o)
            | None => (Over (NotAllowed match o_scope o with Some q' => in_app c q' | None => false end), o)
            end
        end
    | Running (Return f) => (Over (f (o_attrs o)), o)
    | Running (Do f k) =>
        (Running (k (o_attrs o)), {| o_signature := o_signature o; o_scope := o_scope o; o_attrs := f (o_attrs o) |})
    | Over r => (Over r, o)
    end.

  (** The requests that the route has got, each with the object made for it, and the object made with the route. *)
  Record world := { common : object; tasks : list (task * object) }.
  Definition start (qs : list request) : world := {| common := new; tasks := map (fun q => (New q, new)) qs |}.
  Fixpoint put {X} (i : nat) (x : X) (l : list X) : list X :=
    match l, i with
    | [], _ => []
    | _ :: l', 0%nat => x :: l'
    | y :: l', S i' => y :: put i' x l'
    end.
  (** One step of the [i]th request. path.py:355-362: a new object for each request ([guarded] false);
      protocols/middleware.py:13-14, protocols/permissions.py:13-14: [instance.app = app()] once. *)
  Definition step (guarded : bool) (w : world) (i : nat) : world :=
    match nth_error (tasks w) i with
    | None => w
    | Some (t, own) =>
        if guarded then
          let '(t', o) := tick t (common w) in {| common := o; tasks := put i (t', own) (tasks w) |}
        else
          let '(t', o) := tick t own in {| common := common w; tasks := put i (t', o) (tasks w) |}
    end.
  (** Any interleaving. *)
  Definition run (guarded : bool) (qs : list request) (sched : list nat) : world := fold_left (step guarded) sched (start qs).
  (** What the [i]th request got. *)
  Definition result (w : world) (i : nat) : option outcome :=
    match nth_error (tasks w) i with Some (Over o, _) => Some o | _ => None end.
End Inst.
Arguments class : clear implicits.
Arguments code : clear implicits.
Arguments outcome : clear implicits.

(** How the application inside the guards of a route is called.
    A controller class: [Controller] or [WebSocketController], or what [with_init] makes of one. *)
Inductive kind := Http | Socket | HttpFactory | SocketFactory.
(** A middleware or permission: a class of [MiddlewareProtocol] or [PermissionProtocol], whose metaclass replaces
    a controller class by an object, or a plain ASGI class that keeps what it is given. *)
Inductive guard := OfProtocol | Plain.
(** When the guards let a request pass: it is served; the route cannot be made; every request raises TypeError. *)
Inductive fate := Served | NoRoute | TypeFails.
(** [cls()]: controllers.py:202-208 wants three arguments; the factories take any (114, 264-272). *)
Definition call_class_empty (k : kind) : fate := match k with Socket => NoRoute | _ => Served end.
(** [await cls(scope, receive, send)]: a [Controller] takes no arguments, and the object made by the factory of one
    cannot be awaited; controllers.py:210-213, 274-285. *)
Definition call_class (k : kind) : fate := match k with Http | HttpFactory => TypeFails | _ => Served end.
(** _internal/_middleware.py:109-111: the last guard of the list is the one next to the controller; without one,
    path.py:360-362 makes the object, websocket.py:248 calls the class. *)
Definition reach (k : kind) (guards : list guard) : fate :=
  match rev guards with
  | [] => match k with Http | HttpFactory => call_class_empty k | _ => call_class k end
  | OfProtocol :: _ => call_class_empty k
  | Plain :: _ => call_class k
  end.
