(** Model of how an event stream meets the end of its client: [EventStreamResponse.__call__] with the
    tasks [run_stream] and [_listen_for_disconnect] (lilya/responses.py:853-883 and 902-928).

    One action is the code of one task up to the next [await] that may suspend; a schedule is any list of
    actions.  The start and the last message, the pings and the timeouts are in SseConcModel.v and are left
    out here; [data_sender_callable] is left out. *)
From Verif Require Import PyStr.

Section Ssed.
(** What a message has beside its type. *)
Context {V : Type}.
Definition message : Type := (option str * V)%type.
(** Where the listener is: not begun, at [await receive()], in the handler, done. *)
Inductive lpc := LBegin | LWait | LHandle | LDone.
(** What is seen: an event is sent, the listener gets a message, the handler is called, the handler ends
    (with an exception: [false]), the tasks are cancelled. *)
Inductive seen := Sent (e : str) | Got (m : message) | Called (m : message) | Ended (ok : bool) | Cancelled.
(** [todo]: the events to come; [over]: the stream is in its grace window (912-914). *)
Record state := mkst { todo : list str; over : bool; active : bool; listener : lpc; cancelled : bool; log : list seen }.
(** What may happen next: a step of the stream, an exception of its iterator, the listener begins, a message
    comes, the handler ends. *)
Inductive action := AStream | AFail | ABegin | AReceive (m : message) | AEnd (ok : bool).

(** responses.py:916 and 880 [cancel_scope.cancel()]: the tasks end at the [await] where they are. *)
Definition cancel (s : state) : state :=
  mkst (todo s) (over s) (active s) LDone true (log s ++ [Cancelled]).
(** responses.py:909-916 [run_stream] with 761-820: the next event, or the end of the events, or the end of
    the grace window. *)
Definition stream_step (s : state) : state :=
  match todo s with
  | e :: r => mkst r (over s) (active s) (listener s) (cancelled s) (log s ++ [Sent e])
  | [] => if over s then cancel s else mkst [] true false (listener s) (cancelled s) (log s)
  end.
(** responses.py:868-872: the message is [http.disconnect]. *)
Definition is_disconnect (m : message) : bool :=
  match fst m with Some t => seqb t (u "http.disconnect") | None => false end.
(** responses.py:870-881: the listener takes the message [m]; [handler]: there is a
    [client_close_handler]. *)
Definition receive_step (handler : bool) (m : message) (s : state) : state :=
  let s1 := mkst (todo s) (over s) (active s) (listener s) (cancelled s) (log s ++ [Got m]) in
  if is_disconnect m then
    let s2 := mkst (todo s1) (over s1) false (listener s1) (cancelled s1) (log s1) in
    if handler then mkst (todo s2) (over s2) (active s2) LHandle (cancelled s2) (log s2 ++ [Called m])
    else cancel s2
  else mkst (todo s1) (over s1) (active s1) (if active s1 then LWait else LDone) (cancelled s1) (log s1).
(** One action; an action that is not possible changes nothing. *)
Definition step (handler : bool) (s : state) (a : action) : state :=
  if cancelled s then s else
  match a with
  | AStream => stream_step s
  | AFail => if over s then s else cancel (mkst [] true false (listener s) (cancelled s) (log s))
  | ABegin => match listener s with
              | LBegin => mkst (todo s) (over s) (active s) (if active s then LWait else LDone) (cancelled s) (log s)
              | _ => s
              end
  | AReceive m => match listener s with LWait => receive_step handler m s | _ => s end
  (* 874-880: an exception of the handler is logged, then the tasks are cancelled all the same *)
  | AEnd ok => match listener s with
               | LHandle => cancel (mkst (todo s) (over s) (active s) LDone (cancelled s) (log s ++ [Ended ok]))
               | _ => s
               end
  end.
(** A response with the events [evs] under a schedule. *)
Definition run (handler : bool) (evs : list str) (sched : list action) : list seen :=
  log (fold_left (step handler) sched (mkst evs false true LBegin false [])).
End Ssed.
Arguments message : clear implicits.
Arguments seen : clear implicits.
Arguments state : clear implicits.
Arguments action : clear implicits.
