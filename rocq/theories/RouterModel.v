(** Model of lilya/routing/router.py [BaseRouter.app], routing/path.py [Path.search] and
    [handle_dispatch], routing/include.py [Include.search] and [handle_dispatch], and the
    SendReceiveSniffer of datastructures.py, for http scopes.

    Handlers are arbitrary programs that read messages and then end (having sent a response or
    not).  Not modelled: middleware, permissions, before/after hooks, exception handlers of
    includes, Host and WebSocket routes, an Include of another ASGI application. *)
From Verif Require Import PyStr PathModel.

(** The entries of the scope that routing reads. *)
Record scope := { sc_root : str; sc_path : str; sc_method : str; sc_params : dict pvalue }.

Definition set_params (sc : scope) (ps : dict pvalue) : scope :=
  {| sc_root := sc_root sc; sc_path := sc_path sc; sc_method := sc_method sc; sc_params := ps |}.
Definition set_path (sc : scope) (p : str) : scope :=
  {| sc_root := sc_root sc; sc_path := p; sc_method := sc_method sc; sc_params := sc_params sc |}.

(** A Path route after construction; [pr_id] names its handler. *)
Record path_route := {
  pr_id : nat;
  pr_path : str;                      (** [self.path], cleaned *)
  pr_rx : list relem;
  pr_convs : dict conv;
  pr_methods : option (list str)      (** [self.methods] *)
}.

(** routing/path.py:113-120 and 141-144: the effective method list; [is_function] tells a function
    or method handler from another application. *)
Definition effective_methods (is_function : bool) (methods : option (list str)) : option (list str) :=
  let ms := match methods with
            | None => if is_function then Some [u "GET"] else None
            | Some l => Some l
            end in
  match ms with
  | None => None
  | Some l => let l := map upper l in Some (if smem (u "GET") l then l ++ [u "HEAD"] else l)
  end.

(** [self.methods and scope["method"] not in self.methods] (path.py:318, 352, 382). *)
Definition method_refused (methods : option (list str)) (m : str) : bool :=
  match methods with
  | None | Some [] => false
  | Some l => negb (smem m l)
  end.

Inductive route :=
| RPath (p : path_route)
| RInclude (rx : list relem) (convs : dict conv) (redirect_slashes : bool) (children : list route).

Inductive search_result :=
| SNone
| SError                                          (** a converter raised *)
| SPartial
| SFull (child : scope).                          (** the scope given to the route *)

(** path.py:289-355 [Path.search] and [handle_match]. *)
Definition path_search (p : path_route) (sc : scope) : search_result :=
  let route_path := get_route_path (sc_root sc) (sc_path sc) in
  match pr_convs p with
  | [] =>
      if seqb route_path (pr_path p)
      then if method_refused (pr_methods p) (sc_method sc) then SPartial else SFull sc
      else SNone
  | _ =>
      match rmatch (pr_rx p) route_path with
      | None => SNone
      | Some groups =>
          match transform_all (pr_convs p) groups with
          | None => SError
          | Some matched =>
              if method_refused (pr_methods p) (sc_method sc) then SPartial
              else SFull (set_params sc (dupdate (sc_params sc) matched))
          end
      end
  end.

(** [search] of both kinds; include.py:199-250. *)
Definition search (r : route) (sc : scope) : search_result :=
  match r with
  | RPath p => path_search p sc
  | RInclude rx convs _ _ =>
      match include_search rx convs (sc_root sc) (sc_path sc) (sc_params sc) with
      | IncNone => SNone
      | IncError => SError
      | IncFull ps root => SFull {| sc_root := root; sc_path := sc_path sc; sc_method := sc_method sc; sc_params := ps |}
      end
  end.

(** ** Handlers *)
Inductive hend := HReturn | HContinue | HRaise.      (** return, raise ContinueRouting, raise another exception *)
Inductive prog :=
| PRecv (k : str -> prog)                            (** [await receive()] *)
| PEnd (sent : bool) (e : hend).                     (** response sent or not *)

(** datastructures.py:854-885 [SendReceiveSniffer], the receiving side. *)
Record sniffer := { sn_repeat : bool; sn_message : option str }.
Definition fresh_sniffer : sniffer := {| sn_repeat := false; sn_message := None |}.
Definition disconnect_msg : str := u "http.disconnect".

(** [receive] through a stack of sniffers, innermost first; [inp] is what the server delivers. *)
Fixpoint recv (sn : list sniffer) (inp : list str) : str * list sniffer * list str :=
  match sn with
  | [] => match inp with m :: r => (m, [], r) | [] => (disconnect_msg, [], []) end
  | s :: rest =>
      match sn_repeat s, sn_message s with
      | true, Some m => (m, {| sn_repeat := false; sn_message := Some m |} :: rest, inp)
      | _, _ => let '(m, rest', inp') := recv rest inp in
                (m, {| sn_repeat := false; sn_message := Some m |} :: rest', inp')
      end
  end.

(** [sniffer.repeat_message = True] on the innermost sniffer. *)
Definition rearm (sn : list sniffer) : list sniffer :=
  match sn with
  | s :: rest => {| sn_repeat := true; sn_message := sn_message s |} :: rest
  | [] => []
  end.

(** A handler call, as the handler sees it. *)
Record call := { c_id : nat; c_root : str; c_params : dict pvalue; c_seen : list str }.

Fixpoint run_prog (p : prog) (sn : list sniffer) (inp : list str) (seen : list str)
  : bool * hend * list str * list sniffer * list str :=
  match p with
  | PEnd sent e => (sent, e, seen, sn, inp)
  | PRecv k => let '(m, sn', inp') := recv sn inp in run_prog (k m) sn' inp' (seen ++ [m])
  end.

(** What reaches the client. *)
Inductive answer :=
| AHandler (id : nat)
| A405 (allow : str)
| ARedirect (path : str)
| ADefault.

Record state := { st_sn : list sniffer; st_in : list str; st_log : list call }.
Definition set_sn (st : state) (sn : list sniffer) : state := {| st_sn := sn; st_in := st_in st; st_log := st_log st |}.

Inductive dispatched :=
| DSent (a : answer) (st : state)
| DSilent (st : state)                       (** returned without sending *)
| DContinue (st : state)                     (** ContinueRouting *)
| DPass (partials : list str) (st : state)   (** PassPartialMatches, with the Allow header of each *)
| DError (a : list answer) (st : state).     (** another exception *)

(** path.py:382-388: [", ".join(self.methods)]. *)
Definition allow_header (r : route) : str :=
  match r with
  | RPath p => match pr_methods p with Some l => join (u ", ") l | None => [] end
  | RInclude _ _ _ _ => []
  end.

Section Handlers.
  (** The handler called [id], given its scope. *)
  Variable handlers : nat -> scope -> prog.

  (** path.py:366-436 [handle_dispatch] of a full match. *)
  Definition path_dispatch (p : path_route) (sc : scope) (st : state) : dispatched :=
    let '(sent, e, seen, sn', inp') := run_prog (handlers (pr_id p) sc) (st_sn st) (st_in st) [] in
    let st' := {| st_sn := sn'; st_in := inp';
                  st_log := st_log st ++ [{| c_id := pr_id p; c_root := sc_root sc; c_params := sc_params sc; c_seen := seen |}] |} in
    match sent, e with
    | true, HReturn => DSent (AHandler (pr_id p)) st'
    | false, HReturn => DSilent st'
    | true, HContinue | true, HRaise => DError [AHandler (pr_id p)] st'   (** router.py:444: assertion *)
    | false, HContinue => DContinue st'
    | false, HRaise => DError [] st'
    end.

  Inductive loop_result :=
  | LSent (a : answer) (st : state)
  | LEnd (sc : scope) (st : state) (had_match : bool) (partials : list str)
  | LError (a : list answer) (st : state).

  (** router.py:418-446, the loop over the routes, with [handle_route] (242-264): the base scope
      of the router receives the parameters of every full match. *)
  Definition loop (disp : route -> scope -> state -> dispatched) : list route -> scope -> state -> bool -> list str -> loop_result :=
    fix go (rs : list route) (sc : scope) (st : state) (had : bool) (partials : list str) : loop_result :=
      match rs with
      | [] => LEnd sc st had partials
      | r :: rs' =>
          match search r sc with
          | SNone => go rs' sc st had partials
          | SError => LError [] st
          | SPartial => go rs' sc st true (partials ++ [allow_header r])
          | SFull child =>
              let sc' := set_params sc (dupdate (sc_params sc) (sc_params child)) in
              match disp r child st with
              | DSent a st' => LSent a st'
              | DSilent st' => go rs' sc' (set_sn st' (rearm (st_sn st'))) true partials
              | DContinue st' => go rs' sc' (set_sn st' (rearm (st_sn st'))) true partials
              | DPass ps st' => go rs' sc' st' true (partials ++ ps)
              | DError a st' => LError a st'
              end
          end
      end.

  (** router.py:448-464 (and 399-412): the path the client is sent to, if any route matches it. *)
  Definition redirect_path (sc : scope) : option str :=
    let route_path := get_route_path (sc_root sc) (sc_path sc) in
    if seqb route_path [slash] then None
    else Some (if suffixb [slash] route_path then rstrip_by is_slash (sc_path sc) else sc_path sc ++ [slash]).

  Fixpoint any_match (rs : list route) (sc : scope) : option bool :=
    match rs with
    | [] => Some false
    | r :: rs' => match search r sc with
                  | SNone => any_match rs' sc
                  | SError => None
                  | _ => Some true
                  end
    end.

  Inductive redirect_result := RNo | RTo (path : str) | RFail.
  Definition try_redirect (enabled had : bool) (rs : list route) (sc : scope) : redirect_result :=
    if (negb had && enabled)%bool then
      match redirect_path sc with
      | None => RNo
      | Some p => match any_match rs (set_path sc p) with
                  | Some true => RTo p
                  | Some false => RNo
                  | None => RFail
                  end
      end
    else RNo.

  (** The general path of [app] for a sub-router, ending in PassPartialMatches (router.py:466-468),
      called by [Include.handle_dispatch]. *)
  Fixpoint dispatch (r : route) (sc : scope) (st : state) : dispatched :=
    match r with
    | RPath p => path_dispatch p sc st
    | RInclude _ _ redirect children =>
        let pop st' := set_sn st' (tl (st_sn st')) in
        match loop dispatch children sc (set_sn st (fresh_sniffer :: st_sn st)) false [] with
        | LSent a st' => DSent a (pop st')
        | LError a st' => DError a (pop st')
        | LEnd sc' st' had partials =>
            match try_redirect redirect had children sc' with
            | RTo p => DSent (ARedirect p) (pop st')
            | RFail => DError [] (pop st')
            | RNo => DPass partials (pop st')
            end
        end
    end.

  (** The outcome of a request: the answers sent, whether an exception escaped, the calls made. *)
  Record outcome := { o_answers : list answer; o_error : bool; o_calls : list call }.

  (** router.py:369-416, the shortcut for one Path. *)
  Definition app_fast (redirect : bool) (p : path_route) (sc : scope) (inp : list str) : outcome :=
    let st := {| st_sn := []; st_in := inp; st_log := [] |} in
    match path_search p sc with
    | SError => {| o_answers := []; o_error := true; o_calls := [] |}
    | SPartial => {| o_answers := [A405 (allow_header (RPath p))]; o_error := false; o_calls := [] |}
    | SFull child =>
        let '(sent, e, seen, sn', inp') := run_prog (handlers (pr_id p) child) [] inp [] in
        let a := if sent then [AHandler (pr_id p)] else [] in
        let c := [{| c_id := pr_id p; c_root := sc_root child; c_params := sc_params child; c_seen := seen |}] in
        match e with
        | HReturn => {| o_answers := a; o_error := false; o_calls := c |}
        | HContinue => {| o_answers := a ++ [ADefault]; o_error := false; o_calls := c |}
        | HRaise => {| o_answers := a; o_error := true; o_calls := c |}
        end
    | SNone =>
        match try_redirect redirect false [RPath p] sc with
        | RTo path => {| o_answers := [ARedirect path]; o_error := false; o_calls := [] |}
        | RFail => {| o_answers := []; o_error := true; o_calls := [] |}
        | RNo => {| o_answers := [ADefault]; o_error := false; o_calls := [] |}
        end
    end.

  (** router.py:418-485 for the main router; a partial match is answered by 405 (handle_partial,
      path.py:382-388), so the first one ends the loop of 471-483.  With an application in the
      scope the 405 and 404 are raised as HTTPExceptions of the same status and headers. *)
  Definition app_general (redirect : bool) (rs : list route) (sc : scope) (inp : list str) : outcome :=
    match loop dispatch rs sc {| st_sn := [fresh_sniffer]; st_in := inp; st_log := [] |} false [] with
    | LSent a st => {| o_answers := [a]; o_error := false; o_calls := st_log st |}
    | LError a st => {| o_answers := a; o_error := true; o_calls := st_log st |}
    | LEnd sc' st had partials =>
        match try_redirect redirect had rs sc' with
        | RTo p => {| o_answers := [ARedirect p]; o_error := false; o_calls := st_log st |}
        | RFail => {| o_answers := []; o_error := true; o_calls := st_log st |}
        | RNo => match partials with
                 | allow :: _ => {| o_answers := [A405 allow]; o_error := false; o_calls := st_log st |}
                 | [] => {| o_answers := [ADefault]; o_error := false; o_calls := st_log st |}
                 end
        end
    end.

  (** router.py:361-416: which of the two. *)
  Definition router_app (redirect : bool) (rs : list route) (sc : scope) (inp : list str) : outcome :=
    match rs with
    | [RPath p] => app_fast redirect p sc inp
    | _ => app_general redirect rs sc inp
    end.
End Handlers.

(** path.py:94-150 [Path.__init__]: [None] when the template does not compile. *)
Definition make_path (id : nat) (path : str) (is_function : bool) (methods : option (list str)) : option path_route :=
  let path := clean_path path in
  match compile_path path with
  | Compiled rx _ convs => Some {| pr_id := id; pr_path := path; pr_rx := rx; pr_convs := convs;
                                   pr_methods := effective_methods is_function methods |}
  | CompileError => None
  end.

(** include.py:75-170 [Include.__init__] with [routes]. *)
Definition make_include (path : str) (redirect : bool) (children : list route) : option route :=
  match compile_path (include_template path) with
  | Compiled rx _ convs => Some (RInclude rx convs redirect children)
  | CompileError => None
  end.
