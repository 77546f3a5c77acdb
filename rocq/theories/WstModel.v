(** Model of the websocket session and of the lifespan of the test client: lilya/testclient/_internal/websockets.py
    (all of [WebSocketTestSession]), lilya/testclient/base.py:451-510 [websocket_connect], [_prepare_websocket_headers],
    512-582 [__enter__], [__exit__], 200-216 [_portal_factory], 609-690 [lifespan], [wait_startup], [wait_shutdown],
    lilya/testclient/_internal/transport.py:192-244 and 582-630 [_handle_websocket_request] and
    lilya/testclient/async_client.py:425-452.
    The test and the application run in two threads, joined by two unbounded queues; a schedule says whose turn it is.
    Simplified: the application does nothing more once it is cancelled; its other tasks are left out. *)
From Verif Require Import PyStr Utf8 JsonModel.
Local Open Scope N_scope.

(** What the application is given, and what it sends.  An absent key of a message is [None]. *)
Inductive cmsg := CConnect | CReceive (text bytes : option str) | CDisconnect (code : N) (reason : option str) | COther (type : str).
Inductive smsg :=
  | SAccept (subprotocol : option str) (headers : option (list (str * str)))
  | SSend (text bytes : option str)
  | SClose (code : option N) (reason : option str)
  | SStart (status : N) (headers : list (str * str))
  | SBody (body : str) (more : option bool)
  | SOther (type : str).
Inductive exn :=
  | AppError (n : N) | Disconnected (code : N) (reason : str) | Denied (status : N) (headers : list (str * str)) (content : str)
  | AssertionError | KeyError | DecodeError | TypeError.
Definition item : Type := smsg + exn.

(** The application: it receives, sends, awaits something else, returns or raises. *)
CoInductive asgi :=
  | ARecv (k : cmsg -> asgi) | ASend (m : smsg) (k : asgi) | AWait (k : asgi) | ARet | ARaise (n : N).
(** The thread of the test: what it does with the two queues. *)
CoInductive prog (R : Type) :=
  | PRet (r : R) | PRaise (e : exn) | PSend (m : cmsg) (k : prog R) | PGet (k : item -> prog R).
Arguments PRet {R} r. Arguments PRaise {R} e. Arguments PSend {R} m k. Arguments PGet {R} k.
(** [try: p except ...: ...] followed by the rest; and [p] followed by the rest. *)
CoFixpoint attempt {R S : Type} (p : prog R) (k : R + exn -> prog S) : prog S :=
  match p with
  | PRet r => match k (inl r) with PRet s => PRet s | PRaise e => PRaise e | PSend m q => PSend m q | PGet q => PGet q end
  | PRaise e => match k (inr e) with PRet s => PRet s | PRaise e => PRaise e | PSend m q => PSend m q | PGet q => PGet q end
  | PSend m q => PSend m (attempt q k)
  | PGet q => PGet (fun x => attempt (q x) k)
  end.
Definition bind {R S : Type} (p : prog R) (k : R -> prog S) : prog S :=
  attempt p (fun x => match x with inl r => k r | inr e => PRaise e end).

(** websockets.py:189-196 [send], 198-214 [send_text], [send_bytes], 230-238 [close], 240-250 [receive]. *)
Definition send (m : cmsg) : prog unit := PSend m (PRet tt).
Definition send_text (t : str) : prog unit := send (CReceive (Some t) None).
Definition send_bytes (b : str) : prog unit := send (CReceive None (Some b)).
Definition close (code : N) (reason : option str) : prog unit := send (CDisconnect code reason).
Definition receive : prog smsg := PGet (fun x => match x with inl m => PRet m | inr e => PRaise e end).

(** websockets.py:162-187 [_raise_on_close]: the loop over the bodies, and the whole. *)
CoFixpoint denial (status : N) (headers : list (str * str)) (body : list str) : prog unit :=
  PGet (fun x =>
    match x with
    | inr e => PRaise e
    | inl (SBody b more) =>
        if match more with Some true => true | _ => false end then denial status headers (body ++ [b])
        else PRaise (Denied status headers (concat (body ++ [b])))
    | inl _ => PRaise AssertionError
    end).
Definition raise_on_close (m : smsg) : prog unit :=
  match m with
  | SClose code reason => PRaise (Disconnected (match code with Some c => c | None => 1000 end) (match reason with Some r => r | None => [] end))
  | SStart status headers => denial status headers []
  | _ => PRet tt
  end.

(** websockets.py:69-90 [__enter__], once the portal is there: what it leaves in [accepted_subprotocol], [extra_headers]. *)
Definition fields (m : smsg) : option str * option (list (str * str)) := match m with SAccept p h => (p, h) | _ => (None, None) end.
Definition enter : prog (option str * option (list (str * str))) :=
  bind (send CConnect) (fun _ => bind receive (fun m => bind (raise_on_close m) (fun _ => PRet (fields m)))).

(** websockets.py:252-272 [receive_text], [receive_bytes]. *)
Definition key (o : option str) : prog str := match o with Some t => PRet t | None => PRaise KeyError end.
Definition text_of (m : smsg) : option str := match m with SSend t _ => t | _ => None end.
Definition bytes_of (m : smsg) : option str := match m with SSend _ b => b | _ => None end.
Definition receive_text : prog str := bind receive (fun m => bind (raise_on_close m) (fun _ => key (text_of m))).
Definition receive_bytes : prog str := bind receive (fun m => bind (raise_on_close m) (fun _ => key (bytes_of m))).
(** websockets.py:216-228 [send_json], 274-293 [receive_json]. *)
Inductive mode := TextMode | BinaryMode.
Definition send_json (v : jvalue) (m : mode) : prog unit :=
  let text := write false v in
  match m with
  | TextMode => send (CReceive (Some text) None)
  | BinaryMode => match encode text with Some b => send (CReceive None (Some b)) | None => PRaise DecodeError end
  end.
Definition parsed (o : option jvalue) : prog jvalue := match o with Some v => PRet v | None => PRaise DecodeError end.
Definition receive_json (md : mode) : prog jvalue :=
  bind receive (fun m => bind (raise_on_close m) (fun _ =>
    match md with
    | TextMode => bind (key (text_of m)) (fun t => parsed (loads t))
    | BinaryMode => bind (key (bytes_of m)) (fun b => parsed (loads_bytes b))
    end)).

(** ** The session *)
Section Session.
Context {R : Type}.
(** Where the thread of the test is: in [__enter__] or the block (75-90), then, with what the block gave, in [__exit__]
    (107-119): about to send the disconnect, to ask for the end, to leave the portal, to empty the queue.  [Failing]: an
    exception of [__enter__], about to leave the portal (84-86). *)
Inductive phase :=
  | Entering (p : prog (option str * option (list (str * str)))) | Inside (p : prog R) | Failing (e : exn)
  | Closing (r : R + exn) | Notifying (r : R + exn) | Joining (r : R + exn) | Draining (r : R + exn) | Finished (r : R + exn).
(** [heard], [said]: what the application received and what the test sent so far; [got], [given]: what the test took and
    what the application put; [block]: how entering and the block ended; [raised]: the exception of the application. *)
Record config := {
  at_ : phase; app : asgi; inq : list cmsg; outq : list item; asked : bool; closing : bool; cancelled : bool;
  heard : list cmsg; said : list cmsg; got : list item; given : list item; block : option (R + exn); raised : option N;
}.
Definition start (a : asgi) : config :=
  {| at_ := Entering enter; app := a; inq := []; outq := []; asked := false; closing := false; cancelled := false;
     heard := []; said := []; got := []; given := []; block := None; raised := None |}.
Definition goto (p : phase) (c : config) : config :=
  {| at_ := p; app := app c; inq := inq c; outq := outq c; asked := asked c; closing := closing c; cancelled := cancelled c;
     heard := heard c; said := said c; got := got c; given := given c; block := block c; raised := raised c |}.
Definition ends (b : R + exn) (c : config) : config :=
  {| at_ := at_ c; app := app c; inq := inq c; outq := outq c; asked := asked c; closing := closing c; cancelled := cancelled c;
     heard := heard c; said := said c; got := got c; given := given c; block := Some b; raised := raised c |}.
Definition put_in (m : cmsg) (c : config) : config :=
  {| at_ := at_ c; app := app c; inq := inq c ++ [m]; outq := outq c; asked := asked c; closing := closing c; cancelled := cancelled c;
     heard := heard c; said := said c ++ [m]; got := got c; given := given c; block := block c; raised := raised c |}.
Definition take_out (x : item) (q : list item) (c : config) : config :=
  {| at_ := at_ c; app := app c; inq := inq c; outq := q; asked := asked c; closing := closing c; cancelled := cancelled c;
     heard := heard c; said := said c; got := got c ++ [x]; given := given c; block := block c; raised := raised c |}.
Definition ask (c : config) : config :=
  {| at_ := at_ c; app := app c; inq := inq c; outq := outq c; asked := true; closing := closing c; cancelled := cancelled c;
     heard := heard c; said := said c; got := got c; given := given c; block := block c; raised := raised c |}.
Definition set_app (a : asgi) (c : config) : config :=
  {| at_ := at_ c; app := a; inq := inq c; outq := outq c; asked := asked c; closing := closing c; cancelled := cancelled c;
     heard := heard c; said := said c; got := got c; given := given c; block := block c; raised := raised c |}.
Definition take_in (m : cmsg) (q : list cmsg) (c : config) : config :=
  {| at_ := at_ c; app := app c; inq := q; outq := outq c; asked := asked c; closing := closing c; cancelled := cancelled c;
     heard := heard c ++ [m]; said := said c; got := got c; given := given c; block := block c; raised := raised c |}.
Definition put_out (x : item) (c : config) : config :=
  {| at_ := at_ c; app := app c; inq := inq c; outq := outq c ++ [x]; asked := asked c; closing := closing c; cancelled := cancelled c;
     heard := heard c; said := said c; got := got c; given := given c ++ [x]; block := block c; raised := raised c |}.
Definition fail_app (n : N) (c : config) : config :=
  {| at_ := at_ c; app := ARet; inq := inq c; outq := outq c; asked := asked c; closing := closing c; cancelled := cancelled c;
     heard := heard c; said := said c; got := got c; given := given c; block := block c; raised := Some n |}.
Definition set_closing (c : config) : config :=
  {| at_ := at_ c; app := app c; inq := inq c; outq := outq c; asked := asked c; closing := true; cancelled := cancelled c;
     heard := heard c; said := said c; got := got c; given := given c; block := block c; raised := raised c |}.
Definition cancel (c : config) : config :=
  {| at_ := at_ c; app := ARet; inq := inq c; outq := outq c; asked := asked c; closing := closing c; cancelled := true;
     heard := heard c; said := said c; got := got c; given := given c; block := block c; raised := raised c |}.

Section Portal.
(** base.py:212-216: whether the session has a portal of its own, whose end waits for the application, or shares that of
    the client; and the block. *)
Variable own : bool.
Variable body : option str * option (list (str * str)) -> prog R.
Definition is_done (a : asgi) : bool := match a with ARet => true | _ => false end.
(** A turn of the thread of the test; [None]: it has to wait, or is at its end. *)
Definition client_step (c : config) : option config :=
  match at_ c with
  | Entering (PRet r) => Some (goto (Inside (body r)) c)
  | Entering (PRaise e) => Some (goto (Failing e) (ends (inr e) c))
  | Entering (PSend m k) => Some (goto (Entering k) (put_in m c))
  | Entering (PGet k) => match outq c with x :: q => Some (goto (Entering (k x)) (take_out x q c)) | [] => None end
  | Inside (PRet r) => Some (goto (Closing (inl r)) (ends (inl r) c))
  | Inside (PRaise e) => Some (goto (Closing (inr e)) (ends (inr e) c))
  | Inside (PSend m k) => Some (goto (Inside k) (put_in m c))
  | Inside (PGet k) => match outq c with x :: q => Some (goto (Inside (k x)) (take_out x q c)) | [] => None end
  | Failing e => if own && negb (is_done (app c)) then None else Some (goto (Finished (inr e)) c)
  | Closing r => Some (goto (Notifying r) (put_in (CDisconnect 1000 None) c))
  | Notifying r => Some (goto (Joining r) (ask c))
  | Joining r => if own && negb (is_done (app c)) then None else Some (goto (Draining r) c)
  | Draining r =>
      match outq c with
      | [] => Some (goto (Finished r) c)
      | inl m :: q => Some (goto (Draining r) (take_out (inl m) q c))
      | inr e :: q => Some (goto (Finished (inr e)) (take_out (inr e) q c))
      end
  | Finished _ => None
  end.
(** A turn of the application: websockets.py:121-140 [_run], 142-160 [_asgi_receive], [_asgi_send]. *)
Definition app_step (c : config) : option config :=
  match app c with
  | ARecv k => match inq c with m :: q => Some (set_app (k m) (take_in m q c)) | [] => None end
  | ASend m k => Some (set_app k (put_out (inl m) c))
  | AWait k => Some (set_app k c)
  | ARaise n => Some (fail_app n (put_out (inr (AppError n)) c))
  | ARet => None
  end.
(** websockets.py:101-105 [_notify_close] runs; websockets.py:137-140: the application is cancelled where it waits: in
    [_asgi_receive] that is while the queue is empty. *)
Definition notice_step (c : config) : option config := if asked c && negb (closing c) then Some (set_closing c) else None.
Definition cancel_step (c : config) : option config :=
  if closing c then
    match app c with
    | AWait _ => Some (cancel c)
    | ARecv _ => match inq c with [] => Some (cancel c) | _ :: _ => None end
    | _ => None
    end
  else None.
Inductive actor := Test | App | Notice | Cancel.
Definition turn (x : actor) (c : config) : option config :=
  match x with Test => client_step c | App => app_step c | Notice => notice_step c | Cancel => cancel_step c end.
(** A schedule: who is up; a turn of somebody who waits changes nothing. *)
Fixpoint run (l : list actor) (c : config) : config :=
  match l with [] => c | x :: r => run r (match turn x c with Some d => d | None => c end) end.
End Portal.
End Session.
Arguments phase : clear implicits.
Arguments config : clear implicits.

(** ** Opening the session *)
(** base.py:487-510 [_prepare_websocket_headers]: the headers of the request and what became of the caller's dictionary;
    [copies]: async_client.py:440-452 works on a copy. *)
Definition setdefault (k v : str) (d : dict str) : dict str := match dget k d with Some _ => d | None => dset k v d end.
Definition prepare (copies : bool) (subprotocols : option (list str)) (headers : dict str) : dict str * dict str :=
  let h := setdefault (u "sec-websocket-version") (u "13") (setdefault (u "sec-websocket-key") (u "testserver==") (setdefault (u "connection") (u "upgrade") headers)) in
  let h := match subprotocols with Some l => setdefault (u "sec-websocket-protocol") (join (u ", ") l) h | None => h end in
  (h, if copies then headers else h).
(** transport.py:222-226: the subprotocols of the scope. *)
Definition offered (header : option str) : list str :=
  match header with None => [] | Some h => map strip (split_char 44 h) end.
Definition connect (copies : bool) (subprotocols : option (list str)) (headers : dict str) : list str * dict str :=
  let (h, left) := prepare copies subprotocols headers in (offered (dget (u "sec-websocket-protocol") h), left).
(** A test that opens sessions one after the other with the same dictionary of headers. *)
Fixpoint connects (copies : bool) (l : list (option (list str))) (headers : dict str) : list (list str) :=
  match l with [] => [] | s :: r => let (o, h) := connect copies s headers in o :: connects copies r h end.

(** ** The lifespan of the client *)
Inductive lmsg := StartupComplete | StartupFailed | ShutdownComplete | ShutdownFailed | LOther.
(** What the application does on a lifespan event: the messages it sends, and how it goes on: it awaits the next event,
    returns or raises. *)
Inductive after := Waits | Returns | Fails (n : N).
(** base.py:609-621 [lifespan]: what it puts into the stream, [None] once the application is over. *)
Definition stream (l : list lmsg) (a : after) : list (option lmsg) := map Some l ++ match a with Waits => [] | _ => [None] end.
(** base.py:634-638, 660-664: the inner [receive], given how the task of the lifespan ended. *)
Inductive taken := Took (m : option lmsg) (rest : list (option lmsg)) | TaskRaised (n : N) | Blocked.
Definition take (q : list (option lmsg)) (a : after) : taken :=
  match q with
  | [] => Blocked
  | Some m :: r => Took (Some m) r
  | None :: r => match a with Fails n => TaskRaised n | _ => Took None r end
  end.
(** base.py:632-646 [wait_startup], 668-690 [wait_shutdown]: [Broken] is a TypeError or an AssertionError of the test
    client, [Forever] that it never ends. *)
Inductive waited := Ok | Raises (n : N) | Broken | Forever.
Definition wait (complete failed : lmsg -> bool) (q : list (option lmsg)) (a : after) : waited * list (option lmsg) :=
  match take q a with
  | TaskRaised n => (Raises n, [])
  | Blocked => (Forever, [])
  | Took None r => (Broken, r)
  | Took (Some m) r =>
      if complete m then (Ok, r)
      else if failed m then match take r a with TaskRaised n => (Raises n, []) | Blocked => (Forever, []) | Took _ r' => (Ok, r') end
      else (Broken, r)
  end.
Definition wait_startup : list (option lmsg) -> after -> waited * list (option lmsg) :=
  wait (fun m => match m with StartupComplete => true | _ => false end) (fun m => match m with StartupFailed => true | _ => false end).
Definition wait_shutdown : list (option lmsg) -> after -> waited * list (option lmsg) :=
  wait (fun m => match m with ShutdownComplete => true | _ => false end) (fun m => match m with ShutdownFailed => true | _ => false end).
(** base.py:512-549 [__enter__], 572-582 [__exit__]: the end of the portal waits for the application. *)
Definition lifetime (startup shutdown : list lmsg * after) : waited * option waited :=
  let (l1, a1) := startup in
  let (l2, a2) := shutdown in
  match wait_startup (stream l1 a1) a1 with
  | (Ok, q) =>
      let q' := q ++ match a1 with Waits => stream l2 a2 | _ => [] end in
      let task := match a1 with Waits => a2 | _ => a1 end in
      (Ok, Some (match fst (wait_shutdown q' task) with Ok => match task with Waits => Forever | _ => Ok end | w => w end))
  | (w, _) => (w, None)
  end.
