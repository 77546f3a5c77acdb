(** Model of the test client: lilya/testclient/_internal/transport.py, both transports, and the state that
    lilya/testclient/base.py keeps between requests.
    Simplified: an application is one task, so a wait for a message that nobody can send any more is [Hang]; values of
    headers are bytes or texts; bytes and texts are lists of numbers.  httpx is outside the repository: of its URLs the
    three properties used are defined here as its documentation has them. *)
From Verif Require Import PyStr Utf8.
Local Open Scope N_scope.

(** bytes or str. *)
Inductive datum := Bytes (b : str) | Text (t : str).
Inductive rmsg := RBody (b : str) | RDisconnect.
Inductive smsg :=
  | Start (status : N) (headers : option (list (datum * datum)))
  | Body (body : option datum) (more : option bool)
  | Debug (template context : N)
  | Unknown (type : str).
Inductive exn := AppError (n : N) | AssertionError | SpecViolation (reason : str) | TypeError | ValueError.

(** An application: what it does next, given what it was told; a send may raise, which it may catch. *)
Inductive asgi :=
  | Receive (k : rmsg -> asgi)
  | Send (m : smsg) (k : option exn -> asgi)
  | Return
  | Raise (e : exn).

(** io.BytesIO: the content and the position. *)
Definition io_write (b : str) (f : str * nat) : str * nat := (firstn (snd f) (fst f) ++ b ++ skipn (snd f + length b) (fst f), (snd f + length b)%nat).
Definition io_seek0 (f : str * nat) : str * nat := (fst f, 0%nat).
Definition io_read (f : str * nat) : str := skipn (snd f) (fst f).

(** What the closures of [_process_http_request] share. *)
Record state := {
  request_complete : bool;
  started : option (N * list (datum * datum));
  complete : bool;
  stream : str * nat;
  debug : option (N * N);
}.
Definition initial : state := {| request_complete := false; started := None; complete := false; stream := ([], 0%nat); debug := None |}.
Record client := { asynchronous : bool; raise_server : bool; conformance : bool; head : bool }.

(** transport.py:355-383, 733-755 [send]. *)
Definition send (c : client) (s : state) (m : smsg) : state * option exn :=
  match m with
  | Start st hs =>
      match started s with
      | Some _ => (s, Some AssertionError)
      | None => ({| request_complete := request_complete s; started := Some (st, match hs with Some l => l | None => [] end); complete := complete s; stream := stream s; debug := debug s |}, None)
      end
  | Body b more =>
      match started s with
      | None => (s, Some AssertionError)
      | Some _ =>
          if negb (asynchronous c) && complete s then (s, Some AssertionError) else
          let body := match b with Some d => d | None => Bytes [] end in
          match body with
          | Text t => if conformance c then (s, Some (SpecViolation (u "body"))) else if negb (head c) then (s, Some TypeError) else
                      let fin := match more with Some true => false | _ => true end in
                      ({| request_complete := request_complete s; started := started s; complete := complete s || fin; stream := if fin then io_seek0 (stream s) else stream s; debug := debug s |}, None)
          | Bytes b =>
              let f := if head c then stream s else io_write b (stream s) in
              let fin := match more with Some true => false | _ => true end in
              ({| request_complete := request_complete s; started := started s; complete := complete s || fin; stream := if fin then io_seek0 f else f; debug := debug s |}, None)
          end
      end
  | Debug t x => ({| request_complete := request_complete s; started := started s; complete := complete s; stream := stream s; debug := Some (t, x) |}, None)
  | Unknown _ => (s, None)
  end.
(** transport.py:321-353, 701-731 [receive]: httpx hands the whole body over as bytes.  [None]: waits. *)
Definition receive (body : str) (s : state) : option (rmsg * state) :=
  if request_complete s then if complete s then Some (RDisconnect, s) else None
  else Some (RBody body, {| request_complete := true; started := started s; complete := complete s; stream := stream s; debug := debug s |}).
Inductive ended := Returned | Raised (e : exn) | Waits.
Fixpoint run (c : client) (body : str) (p : asgi) (s : state) : state * ended :=
  match p with
  | Return => (s, Returned)
  | Raise e => (s, Raised e)
  | Receive k => match receive body s with Some (m, s') => run c body (k m) s' | None => (s, Waits) end
  | Send m k => let (s', e) := send c s m in run c body (k e) s'
  end.

Record response := { status : N; headers : list (datum * datum); content : str; info : option (N * N) }.
Inductive outcome := Response (r : response) | Error (e : exn) | Hang.
(** transport.py:402-419, 775-792. *)
Definition header_ok (h : datum * datum) : bool :=
  match h with (Bytes k, Bytes v) => negb (cmem 10 k) && negb (cmem 10 v) | _ => false end.
Definition finish (c : client) (st : N) (hs : list (datum * datum)) (content : str) (i : option (N * N)) : outcome :=
  if conformance c && negb (forallb header_ok hs) then Error (SpecViolation (u "header"))
  else Response {| status := st; headers := hs; content := content; info := i |}.
(** transport.py:385-425, 757-798. *)
Definition process (c : client) (body : str) (p : asgi) : outcome :=
  let (s, e) := run c body p initial in
  let rest :=
    match started s with
    | None =>
        if raise_server c || conformance c then Error (SpecViolation (u "TestClient did not receive any response."))
        else finish c 500 [] (if asynchronous c then u "Internal Server Error" else []) (debug s)
    | Some (st, hs) => finish c st hs (io_read (stream s)) (debug s)
    end in
  match e with
  | Waits => Hang
  | Raised e => if raise_server c then Error e else rest
  | Returned => rest
  end.

(** httpx.URL: the path as it is sent, and the query string. *)
Record url := { scheme : str; netloc : str; encoded_path : str; query : option str }.
Definition url_path (w : url) : str := unquote (encoded_path w).
Definition url_raw_path (w : url) : str := encoded_path w ++ match query w with Some q => u "?" ++ q | None => [] end.
Definition url_query (w : url) : str := match query w with Some q => q | None => [] end.

(** transport.py:140-159 [_parse_host_and_port]; [None]: an exception. *)
Definition default_port (scheme : str) : option Z :=
  if seqb scheme (u "http") || seqb scheme (u "ws") then Some 80%Z else if seqb scheme (u "https") || seqb scheme (u "wss") then Some 443%Z else None.
Definition parse_host_and_port (netloc scheme : str) : option (str * Z * Z) :=
  match default_port scheme with
  | None => None
  | Some d =>
      match split1 58 netloc with
      | Some (host, p) => match int_parse p with Some port => Some (host, port, d) | None => None end
      | None => Some (netloc, d, d)
      end
  end.
(** transport.py:161-190 [_build_headers]; httpx keeps the case of names and looks them up without it. *)
Definition build_headers (hs : list (str * str)) (host : str) (port default : Z) : list (str * str) :=
  (if existsb (fun h => seqb (lower (fst h)) (u "host")) hs then []
   else if (port =? default)%Z then [(u "host", host)] else [(u "host", host ++ u ":" ++ decz port)]) ++
  map (fun h => (lower (fst h), snd h)) hs.

(** The state a request is given: the client's state, shared by the lifespan. *)
Definition auth_key : str := u "__lilya_testclient_authenticated_user__".
Record scope {V : Type} := {
  s_method : str; s_path : str; s_raw_path : str; s_root_path : str; s_scheme : str; s_query : str; s_headers : list (str * str);
  s_server : str * Z; s_user : option V; s_state : dict V;
}.
Arguments scope : clear implicits.
Section Values.
Context {V : Type}.
(** transport.py:66-86 [_inject_authenticated_user]; [None] is Python's None. *)
Definition inject_user (app_state : dict (option V)) : option V * dict (option V) :=
  match dget auth_key app_state with
  | Some (Some w) => (Some w, match dget (u "user") app_state with Some _ => app_state | None => dset (u "user") (Some w) app_state end)
  | _ => (None, app_state)
  end.
(** transport.py:105-117, 246-289, 121-138. *)
Definition build_scope (root_path method : str) (w : url) (hs : list (str * str)) (app_state : dict (option V)) : option (scope (option V)) :=
  match parse_host_and_port (netloc w) (scheme w) with
  | None => None
  | Some (host, port, d) =>
      let (user, st) := inject_user app_state in
      Some {| s_method := method; s_path := unquote (url_path w); s_raw_path := url_raw_path w; s_root_path := root_path; s_scheme := scheme w;
              s_query := url_query w; s_headers := build_headers hs host port d; s_server := (host, port); s_user := option_map Some user; s_state := st |}
  end.

(** What a test does with a client: base.py:128-181 [authenticate], [logout], [authenticated], and requests.  A block may
    end with an exception of the test, here after [Fail]; the [finally] still runs. *)
Inductive op := Authenticate (w : option V) | Logout | Request | Fail | With (w : option V) (l : list op).
(** The state after it, the users that the requests found in their scope, whether an exception is on its way. *)
Fixpoint perform (o : op) (d : dict (option V)) : dict (option V) * list (option V) * bool :=
  match o with
  | Authenticate w => (dset auth_key w d, [], false)
  | Logout => (ddel auth_key d, [], false)
  | Request => (d, [fst (inject_user d)], false)
  | Fail => (d, [], true)
  | With w l =>
      let previous := match dget auth_key d with Some p => p | None => None end in
      let '(d', seen, failed) :=
        (fix all (l : list op) (d : dict (option V)) : dict (option V) * list (option V) * bool :=
           match l with
           | [] => (d, [], false)
           | o :: r => let '(d', seen, failed) := perform o d in
                       if failed : bool then (d', seen, true) else let '(d'', seen', failed') := all r d' in (d'', seen ++ seen', failed')
           end) l (dset auth_key w d) in
      (match previous with None => ddel auth_key d' | Some p => dset auth_key (Some p) d' end, seen, failed)
  end.
Fixpoint perform_all (l : list op) (d : dict (option V)) : dict (option V) * list (option V) * bool :=
  match l with
  | [] => (d, [], false)
  | o :: r => let '(d', seen, failed) := perform o d in
              if failed : bool then (d', seen, true) else let '(d'', seen', failed') := perform_all r d' in (d'', seen ++ seen', failed')
  end.

(** base.py:263-310 [request] and its cookies.  The jar holds the cookies of one site; [answer] are the cookies that the
    response sets, given those that were sent. *)
Definition request_cookies (jar : dict str) (given : option (dict str)) (answer : dict str -> dict str) : dict str * dict str :=
  match given with
  | None => (jar, dupdate jar (answer jar))
  | Some g =>
      let sent := dupdate jar g in
      let extracted := dupdate sent (answer sent) in
      let cleared := filter (fun _ => false) extracted in
      (sent, dupdate cleared jar)
  end.
Fixpoint session (jar : dict str) (l : list (option (dict str) * (dict str -> dict str))) : list (dict str) * dict str :=
  match l with
  | [] => ([], jar)
  | (g, a) :: r => let (sent, jar') := request_cookies jar g a in let (all, j) := session jar' r in (sent :: all, j)
  end.
End Values.
