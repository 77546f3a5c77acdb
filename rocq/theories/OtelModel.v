(** Model of [OpenTelemetryMiddleware] (lilya/contrib/opentelemetry/middleware.py).
    An application is the tree of its calls; the middleware turns one into another which also writes to the span.
    Simplified: of the scope the application can change the route and the path only; statuses are integers; the
    name of the span is the default one; what the tracer does with the span (its own record of an exception that
    leaves the [with] block) belongs to the library. *)
From Verif Require Import PyStr HeaderModel UrlModel.
Local Open Scope Z_scope.

(** ** Applications *)
(** An [Exception] with its class and text, and what is not one: a cancellation, a [SystemExit]. *)
Inductive exn := Exn (cls text : str) | Exit (cls : str).
Inductive rmsg := Body (b : str) (more : bool) | Disconnect.
Inductive smsg := Start (status : option Z) (h : headers) | Chunk (b : str) (more : bool) | Extra (type : str).
(** What is written to the span. *)
Inductive aval := AStr (s : str) | AInt (z : Z) | ADuration.
Inductive ev :=
  | Begin (name : str) (carrier : dict str) | Attr (k : str) (v : aval) | Recorded (e : exn) | SetStatus (error : bool) (text : option str).
Inductive prog :=
  | Done | Raise (e : exn)
  | Receive (k : rmsg -> prog)
  | Send (m : smsg) (k : option exn -> prog)
  | SetRoute (path : str) (p : prog)
  | SetPath (path : str) (p : prog)
  | Note (e : ev) (p : prog).

(** A server: what it answers to [receive] and [send] after any history of calls. *)
Inductive io := Received (m : rmsg) | Sent (m : smsg) (r : option exn).
Record server := { answer : list io -> rmsg; accept : list io -> smsg -> option exn }.
Record outcome := { calls : list io; notes : list ev; ended : option exn; left_route : option str; left_path : option str }.
Fixpoint run (v : server) (h : list io) (n : list ev) (route path : option str) (p : prog) : outcome :=
  match p with
  | Done => {| calls := h; notes := n; ended := None; left_route := route; left_path := path |}
  | Raise e => {| calls := h; notes := n; ended := Some e; left_route := route; left_path := path |}
  | Receive k => let m := answer v h in run v (h ++ [Received m]) n route path (k m)
  | Send m k => let r := accept v h m in run v (h ++ [Sent m r]) n route path (k r)
  | SetRoute r p => run v h n (Some r) path p
  | SetPath q p => run v h n route (Some q) p
  | Note e p => run v h (n ++ [e]) route path p
  end.
(** A request; [left_route] and [left_path] are what was put into the scope meanwhile. *)
Definition serve (v : server) (p : prog) : outcome := run v [] [] None None p.

(** ** The scope *)
(** [scope.get("server")]: the key may be missing, its value may be [None]. *)
Inductive where_ := Missing | Null | At (host : str) (port : option N).
Record oscope := {
  o_type : str; o_method : str; o_scheme : str; o_server : where_; o_client : option (str * N); o_path : str; o_query : str;
  o_headers : headers; o_route : option str }.
(** What [URL.build_from_scope] reads of it. *)
Definition url_scope (s : oscope) : scope :=
  {| s_type := o_type s; s_scheme := o_scheme s; s_server := match o_server s with At h p => Some (h, p) | _ => None end;
     s_path := o_path s; s_query := o_query s; s_headers := o_headers s |}.

(** ** The middleware *)
Fixpoint note_all (l : list ev) (p : prog) : prog := match l with [] => p | e :: r => Note e (note_all r p) end.
(** middleware.py:72-77: a dict over the items of the headers. *)
Definition carrier_of (h : headers) : dict str := fold_left (fun d e => dset (fst e) (snd e) d) h [].
(** middleware.py:93-121: the attributes written before the application runs. *)
Definition first_attributes (s : oscope) (x : url) : list ev :=
  [Attr (u "http.request.method") (AStr (o_method s));
   Attr (u "server.address") (AStr (match hostname (p_netloc (split x)) with Some h => h | None => [] end))]
  ++ match port (p_netloc (split x)) with
     | Some (Some n) => if N.eqb n 0 then [] else [Attr (u "server.port") (AInt (Z.of_N n))]
     | _ => []
     end
  ++ [Attr (u "url.path") (AStr (p_path (split x))); Attr (u "url.query") (AStr (p_query (split x)))]
  ++ match o_client s with
     | Some (h, p) => [Attr (u "client.address") (AStr h); Attr (u "client.port") (AInt (Z.of_N p))]
     | None => []
     end
  ++ match o_route s with
     | Some r => [Attr (u "lilya.route") (AStr r); Attr (u "http.route") (AStr r)]
     | None => [Attr (u "lilya.route") (AStr (o_path s))]
     end.
Definition TypeError : exn := Exn (u "TypeError") (u "'NoneType' object is not subscriptable").
Definition ValueError : exn := Exn (u "ValueError") [].
(** middleware.py:149-178: the [finally] block, then what was to happen: the return or the exception.  [error] tells
    whether an [Exception] was caught. *)
Definition finish (s : oscope) (route : option str) (path : str) (holder : Z) (error : bool) (after : prog) : prog :=
  note_all [Attr (u "http.server.duration_ms") ADuration; Attr (u "http.request.method") (AStr (o_method s))]
    (let rest address :=
       note_all ([Attr (u "server.address") (AStr address); Attr (u "url.path") (AStr path);
                  Attr (u "lilya.route") (AStr (match route with Some r => r | None => path end))]
                 ++ if error then [] else [SetStatus ((400 <=? holder) && (holder <? 600)) None])
         after in
     match o_server s with
     | Null => Raise TypeError
     | Missing => rest (u "testserver")
     | At h _ => rest h
     end).
(** middleware.py:123-147: the application with [send_wrapper]. *)
Fixpoint traced (s : oscope) (route : option str) (path : str) (holder : Z) (p : prog) : prog :=
  match p with
  | Done => finish s route path holder false Done
  | Raise (Exn c t) => note_all [Recorded (Exn c t); SetStatus true (Some t)] (finish s route path holder true (Raise (Exn c t)))
  | Raise (Exit c) => finish s route path holder false (Raise (Exit c))
  | Receive k => Receive (fun m => traced s route path holder (k m))
  | Send m k =>
      match m with
      | Start st _ =>
          let code := match st with Some z => z | None => 200 end in
          Note (Attr (u "http.response.status_code") (AInt code)) (Send m (fun r => traced s route path code (k r)))
      | _ => Send m (fun r => traced s route path holder (k r))
      end
  | SetRoute r p => SetRoute r (traced s (Some r) path holder p)
  | SetPath q p => SetPath q (traced s route q holder p)
  | Note e p => Note e (traced s route path holder p)
  end.
(** middleware.py:48-178 [__call__]; [None] of [build_from_scope] is an exception, a ValueError as a rule. *)
Definition call (ip_ok : str -> bool) (s : oscope) (p : prog) : prog :=
  if negb (seqb (o_type s) (u "http")) then p
  else
    Note (Begin (u "HTTP " ++ o_method s) (carrier_of (o_headers s)))
      (match build_from_scope ip_ok (url_scope s) with
       | None => Note (Attr (u "http.request.method") (AStr (o_method s))) (Raise ValueError)
       | Some x => note_all (first_attributes s x) (traced s (o_route s) (o_path s) 500 p)
       end).
