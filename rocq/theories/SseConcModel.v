(** Interleaving model of the tasks of [EventStreamResponse.__call__] (responses.py:902-928).

    Each action is one atomic step: the code up to the next [await] that may suspend (a call of
    the server's [send] takes effect when it is called and may then suspend).
    Task order: [start_soon] runs the stream task first (918, 920), so the ping task cannot act
    before the stream task made its first step.  A client disconnect (868-880) cancels the task
    group: nothing is sent afterwards (the [finally] of 810-820 awaits a lock under
    cancellation, which raises). *)
From Verif Require Import PyStr Asgi.

(** Actions of the stream task. *)
Inductive saction := AcStart | AcBody (b : str) | AcFinal | AcInactive.

(** responses.py:744-820 [_stream_response] for encoded events [evs]; [timeout = Some k] when
    waiting for the event after the first [k] exceeds [send_timeout] (778-794, then the
    [finally] block), [None] when the iterator is exhausted. *)
Definition stream_prog (evs : list str) (timeout : option nat) : list saction :=
  match timeout with
  | None => AcStart :: map AcBody evs ++ [AcFinal; AcInactive]
  | Some k => AcStart :: map AcBody (firstn k evs) ++ [AcInactive; AcFinal; AcFinal; AcInactive]
  end.

(** Program counter of [_ping] (822-851): before the first ping, at the loop test, sleeping, done. *)
Inductive ping_pc := PFirst | PCheck | PSleep | PDone.

Record sse_state := mkSS {
  ss_prog : list saction; ss_ping : ping_pc; ss_active : bool; ss_stopped : bool; ss_trace : list amsg }.

Inductive task := TStream | TPing | TDisconnect.

Section Conc.
  Variable status : Z.
  Variable headers : list (str * str).
  (** The encoded ping event. *)
  Variable ping : str.

  Definition do_stream (a : saction) (s : sse_state) (rest : list saction) : sse_state :=
    match a with
    | AcStart => mkSS rest (ss_ping s) (ss_active s) false (ss_trace s ++ [AStart status headers])
    | AcBody b => mkSS rest (ss_ping s) (ss_active s) false (ss_trace s ++ [ABody b true])
    | AcFinal => mkSS rest (ss_ping s) (ss_active s) false (ss_trace s ++ [ABody [] false])
    | AcInactive => mkSS rest (ss_ping s) false false (ss_trace s)
    end.

  (** One step of [_ping]. *)
  Definition do_ping (s : sse_state) : sse_state :=
    match ss_ping s with
    | PFirst => mkSS (ss_prog s) PCheck (ss_active s) false (ss_trace s ++ [ABody ping true])
    | PCheck => mkSS (ss_prog s) (if ss_active s then PSleep else PDone) (ss_active s) false (ss_trace s)
    | PSleep => if ss_active s
                then mkSS (ss_prog s) PCheck (ss_active s) false (ss_trace s ++ [ABody ping true])
                else mkSS (ss_prog s) PDone (ss_active s) false (ss_trace s)
    | PDone => s
    end.

  Definition step (t : task) (s : sse_state) : sse_state :=
    if ss_stopped s then s
    else match t with
    | TStream => match ss_prog s with [] => s | a :: rest => do_stream a s rest end
    | TPing => match ss_prog s with AcStart :: _ => s | _ => do_ping s end
    | TDisconnect => mkSS (ss_prog s) (ss_ping s) false true (ss_trace s)
    end.

  Definition run (sched : list task) (s : sse_state) : sse_state := fold_left (fun s t => step t s) sched s.

  (** responses.py:832-833: a falsy interval disables the ping task. *)
  Definition init (evs : list str) (timeout : option nat) (interval : bool) : sse_state :=
    mkSS (stream_prog evs timeout) (if interval then PFirst else PDone) true false [].
End Conc.
