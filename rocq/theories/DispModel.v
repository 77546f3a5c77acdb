(** Model of how an application dispatches an http request (lilya/apps.py:105-126, 380-412, 505-626,
    1275-1300, lilya/routing/router.py:111-175, 228-262, 343-495, 644-675, lilya/routing/path.py:288-440):
    the stack of middlewares, the permissions and callbacks of the router, the routes, and the shortcut
    for an application with one fixed path.
    Simplified: all routes are paths (mounts are in RouterModel); the scope is not modelled beyond the
    method, the paths and the overridden dependencies; which messages are read is not modelled. *)
From Verif Require Import PyStr Asgi ExcModel.

(** A request: its method, its path and the root path of the scope. *)
Record req := { q_method : str; q_path : str; q_root : str }.
(** What a middleware or a permission does with a request: call the rest, answer, raise.
    Simplified: what it does after the rest has answered is not modelled. *)
Inductive verdict := Pass | Answer (ms : list amsg) | Refuse (e : exc).
(** A path: fixed or with parameters, in which case [r_fits] is its pattern; [r_wrapped] for an endpoint
    function, else a controller. *)
Record route := {
  r_path : str; r_params : bool; r_fits : req -> bool; r_methods : list str; r_handler : nat; r_wrapped : bool;
  r_mids : list nat; r_perms : list nat; r_before : list nat; r_after : list nat; r_handlers : table }.

(** What is observed besides the messages: who was called; [Ran h ov]: the handler [h] ran, with the
    dependencies [ov] overridden. *)
Inductive event := Mid (n : nat) | Perm (n : nat) | Before (n : nat) | After (n : nat) | Ran (h : nat) (ov : dict nat).
(** How a call ends: normally, by an exception, by [ContinueRouting] (a BaseException,
    lilya/exceptions.py:93-97, which [except Exception] does not catch). *)
Inductive ending := Done | Err (e : exc) | Defer.
Record res := R { events : list event; messages : list amsg; ends : ending }.

(** The components supplied by the user, and exceptions and texts made by the framework. *)
Record world := {
  guard : nat -> req -> verdict; callback : nat -> req -> option exc;
  endpoint : nat -> req -> dict nat -> list amsg * ending;
  w_env : env; moved : req -> list amsg; not_found : exc; not_allowed : route -> exc }.

(** Sequence: the second part runs if the first one ends normally. *)
Definition bind (r k : res) : res :=
  match ends r with Done => R (events r ++ events k) (messages r ++ messages k) (ends k) | _ => r end.
(** Handlers of exceptions (ExcModel) see the exceptions only. *)
Definition on_errors (f : run -> run) (r : res) : res :=
  match ends r with
  | Err e => match f (messages r, Some e) with
             | (ms, Some e') => R (events r) ms (Err e')
             | (ms, None) => R (events r) ms Done
             end
  | _ => r
  end.

Section World.
  Variable w : world.

  (** _internal/_middleware.py:93-112 [apply_asgi_stack]: the first of the list is the outermost. *)
  Fixpoint guards (k : nat -> event) (ids : list nat) (q : req) (inner : res) : res :=
    match ids with
    | [] => inner
    | n :: ids' =>
        match guard w n q with
        | Pass => let r := guards k ids' q inner in R (k n :: events r) (messages r) (ends r)
        | Answer ms => R [k n] ms Done
        | Refuse e => R [k n] [] (Err e)
        end
    end.
  (** router.py:656-675, path.py:391-412: the callbacks before and after a request. *)
  Fixpoint calls (k : nat -> event) (ids : list nat) (q : req) : res :=
    match ids with
    | [] => R [] [] Done
    | n :: ids' =>
        match callback w n q with
        | Some e => R [k n] [] (Err e)
        | None => let r := calls k ids' q in R (k n :: events r) (messages r) (ends r)
        end
    end.

  (** _internal/_path.py:46-55 [get_route_path]; the same is written out in apps.py:569-574. *)
  Definition route_path (q : req) : str :=
    if negb (seqb (q_root q) []) && prefixb (q_root q) (q_path q) then skipn (length (q_root q)) (q_path q) else q_path q.
  (** path.py:359, 383: [self.methods and scope["method"] not in self.methods]. *)
  Definition wrong_method (r : route) (q : req) : bool :=
    match r_methods r with [] => false | l => negb (smem (q_method q) l) end.
  (** path.py:288-328, 330-366 [search]: no match, a match up to the method, a match. *)
  Inductive mtch := NoMatch | Partial | Full.
  Definition search (r : route) (q : req) : mtch :=
    if (if r_params r then r_fits r q else seqb (route_path q) (r_path r))
    then if wrong_method r q then Partial else Full
    else NoMatch.

  (** What [scope] holds for the endpoint wrapper: the tables of [ExceptionMiddleware] and the error
      handler (apps.py:509-512, exceptions.py:104-107), or nothing. *)
  Definition tables_in_scope := option (table * option nat).
  (** _responses.py:538-583: the wrapper of an endpoint function; without tables it raises again. *)
  Definition wrapper (t : tables_in_scope) (r : res) : res :=
    match t with None => r | Some (t', eh) => on_errors (endpoint_wrapper (w_env w) t' eh) r end.
  (** path.py:376-440 [handle_dispatch], and path.py:115-142: the permissions and middlewares of the
      path. Without handlers of its own [route_handlers] lets every exception pass. *)
  Definition handle_dispatch (t : tables_in_scope) (ov : dict nat) (r : route) (q : req) : res :=
    if wrong_method r q then R [] [] (Err (not_allowed w r))
    else
      let '(ms, o) := endpoint w (r_handler r) q ov in
      let h := R [Ran (r_handler r) ov] ms o in
      let h := if r_wrapped r then wrapper t h else h in
      on_errors (route_handlers (w_env w) (r_handlers r))
        (bind (calls Before (r_before r) q)
           (bind (guards Mid (r_mids r) q (guards Perm (r_perms r) q h)) (calls After (r_after r) q))).

  (** router.py:405-414, 448-465: the path with the slash at its end added or removed. *)
  Definition other_slash (q : req) : option req :=
    if seqb (route_path q) (u "/") then None
    else
      let p := if suffixb (u "/") (route_path q) then rstrip_by (N.eqb 47) (q_path q) else q_path q ++ u "/" in
      Some {| q_method := q_method q; q_path := p; q_root := q_root q |}.
  Definition redirects (on : bool) (rs : list route) (q : req) : option req :=
    if on then
      match other_slash q with
      | Some q' => if existsb (fun r => match search r q' with NoMatch => false | _ => true end) rs then Some q' else None
      | None => None
      end
    else None.
  (** router.py:496-516 [handle_not_found] within an application. *)
  Definition default_ : res := R [] [] (Err (not_found w)).
  (** After a first part that did not answer. *)
  Definition then_ (r k : res) : res := R (events r ++ events k) (messages r ++ messages k) (ends k).

  (** router.py:361-416: a router with one path. *)
  Definition app_one (on : bool) (t : tables_in_scope) (ov : dict nat) (r : route) (q : req) : res :=
    match search r q with
    | NoMatch =>
        match redirects on [r] q with
        | Some q' => R [] (moved w q') Done
        | None => default_
        end
    | _ =>
        let d := handle_dispatch t ov r q in
        match ends d with Defer => then_ d default_ | _ => d end
    end.
  (** router.py:418-495: the routes in order; a route that defers, or ends without having sent anything,
      is followed by the next one; then the matches up to the method. *)
  Fixpoint try_full (t : tables_in_scope) (ov : dict nat) (rs : list route) (q : req) (k : res) : res :=
    match rs with
    | [] => k
    | r :: rs' =>
        match search r q with
        | Full =>
            let d := handle_dispatch t ov r q in
            match ends d, messages d with
            | Err _, _ => d
            | Done, [] | Defer, [] => then_ d (try_full t ov rs' q k)
            | Done, _ => d
            | Defer, _ => R (events d) (messages d) (Err (py_error (w_env w)))
            end
        | _ => try_full t ov rs' q k
        end
    end.
  Fixpoint try_partial (t : tables_in_scope) (rs : list route) (q : req) : res :=
    match rs with
    | [] => default_
    | r :: rs' => match search r q with Partial => handle_dispatch t [] r q | _ => try_partial t rs' q end
    end.
  Definition app_many (on : bool) (t : tables_in_scope) (ov : dict nat) (rs : list route) (q : req) : res :=
    let had := existsb (fun r => match search r q with NoMatch => false | _ => true end) rs in
    let rest :=
      match (if had then None else redirects on rs q) with
      | Some q' => R [] (moved w q') Done
      | None => try_partial t rs q
      end in
    try_full t ov rs q rest.
  Definition router_app (on : bool) (t : tables_in_scope) (ov : dict nat) (rs : list route) (q : req) : res :=
    match rs with [r] => app_one on t ov r q | _ => app_many on t ov rs q end.

  (** An application: what it was made with and what it has become. [perms] are the permissions in the
      router's stack, [listed] its attribute [permissions]; [fast_http] and [fast_route] are the shortcut;
      [built] is the stack made at the first request, with the handlers of that moment. *)
  Record appl := {
    debug : bool; intercept : bool; own_settings : bool; handlers : table; mids : list nat;
    perms : list nat; listed : list nat; before : list nat; after : list nat; routes : list route; slashes : bool;
    overrides : dict nat; fast_http : bool; fast_route : option route; built : option (list nat * table) }.

  (** router.py:644-675 [BaseRouter.__call__] and the permissions (router.py:166-172). *)
  Definition router_call (a : appl) (t : tables_in_scope) (q : req) : res :=
    bind (calls Before (before a) q)
      (bind (guards Perm (perms a) q (router_app (slashes a) t (overrides a) (routes a) q))
        (calls After (after a) q)).

  (** apps.py:105-126, 622-626: the general way. *)
  Definition general (a : appl) (m : list nat) (t : table) (q : req) : res :=
    let inner := other_handlers t in
    let r := router_call a (Some (inner, error_handler (handlers a))) q in
    let r := on_errors (exception_middleware (w_env w) inner) r in
    let r := guards Mid m q r in
    let r := if intercept a then on_errors (lilya_middleware (w_env w) inner) r else r in
    on_errors (server_error (w_env w) (debug a) (error_handler t)) r.

  (** apps.py:590-620: the handling of exceptions on the shortcut. *)
  Definition fast_errors (r : run) : run :=
    match r with
    | (ms, None) => (ms, None)
    | (ms, Some e) =>
        if started ms then (ms, Some e)
        else if is_http e then respond ms (http_default (w_env w) e)
        else (ms ++ [AStart 500 (heads (w_env w) e); ABody (shown (w_env w) e) false], Some e)
    end.
  (** apps.py:550-589: the shortcut. *)
  Definition fast (a : appl) (r : route) (q : req) : res :=
    on_errors fast_errors
      (if seqb (route_path q) (r_path r) then handle_dispatch None [] r q else router_call a None q).

  (** apps.py:1275-1300 [_compute_fast_http], [_compute_fast_route]. *)
  Definition compute_fast_http (a_debug a_intercept a_settings : bool) (t : table) (m : list nat) : bool :=
    negb a_debug && (match t with [] => true | _ => false end) && (match m with [] => true | _ => false end)
    && negb a_intercept && negb a_settings.
  Definition compute_fast_route (ok : bool) (rs : list route) : option route :=
    match ok, rs with true, [r] => if r_params r then None else Some r | _, _ => None end.
  (** apps.py:1152-1273 [__init__]. *)
  Definition make (a_debug a_intercept a_settings : bool) (t : table) (m p b f : list nat) (rs : list route) (on : bool) : appl :=
    let ok := compute_fast_http a_debug a_intercept a_settings t m in
    {| debug := a_debug; intercept := a_intercept; own_settings := a_settings; handlers := t; mids := m;
       perms := p; listed := p; before := b; after := f; routes := rs; slashes := on; overrides := [];
       fast_http := ok; fast_route := compute_fast_route ok rs; built := None |}.

  (** What is done with an application. *)
  Inductive op :=
  | AddMiddleware (m : nat) | AddPermission (p : nat) | AddHandler (k : key) (h : nat) | AddRoute (r : route)
  | Override (name : str) (d : nat) | ResetOverrides | Request (q : req).
  Inductive out := Quiet | RuntimeErr | Served (r : res).

  Definition set_built (a : appl) (b : list nat * table) : appl :=
    {| debug := debug a; intercept := intercept a; own_settings := own_settings a; handlers := handlers a; mids := mids a;
       perms := perms a; listed := listed a; before := before a; after := after a; routes := routes a; slashes := slashes a;
       overrides := overrides a; fast_http := fast_http a; fast_route := fast_route a; built := Some b |}.
  (** apps.py:550-626 [_dispatch] for http. *)
  Definition dispatch (a : appl) (q : req) : appl * res :=
    match fast_http a, fast_route a with
    | true, Some r => (a, fast a r q)
    | _, _ =>
        let b := match built a with Some b => b | None => (mids a, handlers a) end in
        (set_built a b, general a (fst b) (snd b) q)
    end.
  (** apps.py:380-409, 1325-1336; router.py:533-580 for [add_route]. *)
  Definition step (a : appl) (o : op) : appl * out :=
    match o with
    | AddMiddleware m =>
        match built a with
        | Some _ => (a, RuntimeErr)
        | None =>
            ({| debug := debug a; intercept := intercept a; own_settings := own_settings a; handlers := handlers a; mids := m :: mids a;
                perms := perms a; listed := listed a; before := before a; after := after a; routes := routes a; slashes := slashes a;
                overrides := overrides a; fast_http := false; fast_route := None; built := None |}, Quiet)
        end
    | AddPermission p =>
        ({| debug := debug a; intercept := intercept a; own_settings := own_settings a; handlers := handlers a; mids := mids a;
            perms := perms a; listed := p :: listed a; before := before a; after := after a; routes := routes a; slashes := slashes a;
            overrides := overrides a; fast_http := fast_http a; fast_route := fast_route a; built := built a |}, Quiet)
    | AddHandler k h =>
        ({| debug := debug a; intercept := intercept a; own_settings := own_settings a; handlers := aset key_eqb k h (handlers a); mids := mids a;
            perms := perms a; listed := listed a; before := before a; after := after a; routes := routes a; slashes := slashes a;
            overrides := overrides a; fast_http := false; fast_route := None; built := built a |}, Quiet)
    | AddRoute r =>
        ({| debug := debug a; intercept := intercept a; own_settings := own_settings a; handlers := handlers a; mids := mids a;
            perms := perms a; listed := listed a; before := before a; after := after a; routes := routes a ++ [r]; slashes := slashes a;
            overrides := overrides a; fast_http := fast_http a; fast_route := fast_route a; built := built a |}, Quiet)
    | Override name d =>
        ({| debug := debug a; intercept := intercept a; own_settings := own_settings a; handlers := handlers a; mids := mids a;
            perms := perms a; listed := listed a; before := before a; after := after a; routes := routes a; slashes := slashes a;
            overrides := dset name d (overrides a); fast_http := fast_http a; fast_route := fast_route a; built := built a |}, Quiet)
    | ResetOverrides =>
        ({| debug := debug a; intercept := intercept a; own_settings := own_settings a; handlers := handlers a; mids := mids a;
            perms := perms a; listed := listed a; before := before a; after := after a; routes := routes a; slashes := slashes a;
            overrides := []; fast_http := fast_http a; fast_route := fast_route a; built := built a |}, Quiet)
    | Request q => let '(a', r) := dispatch a q in (a', Served r)
    end.
  Fixpoint history (a : appl) (os : list op) : appl * list out :=
    match os with
    | [] => (a, [])
    | o :: os' => let '(a', x) := step a o in let '(a'', xs) := history a' os' in (a'', x :: xs)
    end.
End World.
