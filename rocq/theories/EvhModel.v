(** Model of the headers of an event stream: [EventStreamResponse.__init__] (lilya/responses.py:623-714). *)
From Verif Require Import PyStr Asgi HeaderModel.

(** responses.py:694-700. *)
Definition stream_defaults : dict str :=
  [(u "cache-control", u "no-cache"); (u "connection", u "keep-alive"); (u "content-type", u "text/event-stream");
   (u "x-accel-buffering", u "no"); (u "transfer-encoding", u "chunked")].
(** responses.py:694-714: the headers of the response with the status [st], for the headers [given] by the
    caller (an empty dict stands for None).  The body is empty, as [content=None] (responses.py:174-175). *)
Definition event_headers (st : Z) (charset : str) (media : option str) (given : dict str) : headers :=
  let d := ddel (u "content-length") (dupdate stream_defaults given) in
  hpop (u "content-length") (hset (u "content-type") (u "text/event-stream") (fst (make_headers st [] charset media d))).
(** responses.py:758-764: the lines of the start message. *)
Definition event_lines (order : list str -> list str) (st : Z) (charset : str) (media : option str) (given : dict str) : list (str * str) :=
  wire order (event_headers st charset media given).
