(** Model of the two tasks of a [StreamingResponse] (lilya/responses.py:537-579) step by step, with the iteration of
    synchronous content (lilya/concurrency.py:48-60), on an event loop that changes tasks only where one suspends. *)
From Verif Require Import PyStr Asgi StreamModel.
Open Scope nat_scope.

(** What the content gives when it is asked for its next item. *)
Inductive produced := Item (c : chunk) | Stop | Fail.
(** responses.py:527-530: asynchronous content is iterated as it is, other content by [iterate_in_threadpool]. *)
Inductive kind := SyncContent | AsyncContent.
Inductive task := TStream | TListen.
(** What the server gives to [receive]. *)
Inductive rmsg := MRequest | MDisconnect.

(** Where [stream] is (543-553): about to ask for the next item; about to send [b], holding [c] back; about to send
    the last message; after it; ended; raised; cancelled. *)
Inductive sphase :=
| PNext (last : option str)
| PSend (b c : str)
| PFinal (last : option str)
| PLast
| PDone
| PFailed
| PCut.
(** [wait_for_disconnect] (537-541): in [receive], returned, cancelled. *)
Inductive lphase := LWait | LSeen | LCut.

(** [running]: the task that has the loop, if any; [cancel]: the scope of the task group is cancelled; [started]: the
    stream's task has run (anyio does not cancel a task before); [pos]: the items taken from the content; [out]: the
    messages sent after the start of the response. *)
Record state := mk {
  s_phase : sphase; started : bool; pos : nat; l_phase : lphase; inbox : list rmsg;
  running : option task; cancel : bool; out : list amsg }.

(** 569-576: the stream is scheduled and the task of the call goes on into [receive]. *)
Definition start_state : state := mk (PNext None) false 0 LWait [] (Some TListen) false [].

(** A message arrives; a task does its next piece, up to its next await, and [susp] says whether this await suspends. *)
Inductive op := OArrive (m : rmsg) | ORun (t : task) (susp : bool).

Section Steps.
  Variable encode : str -> str.
  Variable k : kind.
  Variable content : nat -> produced.

  (** Whether the next [__anext__] has an await that can suspend.  concurrency.py:54: for synchronous content only the
      first does, as [to_thread.run_sync(worker)] makes the generator object; the items are then taken by the loop's own
      thread (55-57), and the end leaves the task group (53). *)
  Definition can_wait (n : nat) : bool :=
    match k with
    | AsyncContent => true
    | SyncContent => match n, content n with 0, _ => true | _, Stop => true | _, _ => false end
    end.

  (** responses.py:543-553, and 571-573 [wrap] at the end. *)
  Definition stream_piece (st : state) (susp : bool) : state :=
    let go ph n r c o := mk ph true n (l_phase st) (inbox st) r c o in
    let r := if susp then None else Some TStream in
    match s_phase st with
    | PNext last =>
        if susp && can_wait (pos st) then go (PNext last) (pos st) None (cancel st) (out st)
        else match content (pos st) with
             | Item c => match last with
                         | Some b => go (PSend b (chunk_bytes encode c)) (S (pos st)) (Some TStream) (cancel st) (out st)
                         | None => go (PNext (Some (chunk_bytes encode c))) (S (pos st)) (Some TStream) (cancel st) (out st)
                         end
             | Stop => go (PFinal last) (pos st) (Some TStream) (cancel st) (out st)
             | Fail => go PFailed (pos st) None true (out st)
             end
    | PSend b c => go (PNext (Some c)) (pos st) r (cancel st) (out st ++ [ABody b true])
    | PFinal last => go PLast (pos st) r (cancel st) (out st ++ [ABody (match last with Some b => b | None => [] end) false])
    | PLast => go PDone (pos st) None true (out st)
    | PDone | PFailed | PCut => st
    end.

  (** responses.py:537-541 and 571-573. *)
  Definition listen_piece (st : state) (susp : bool) : state :=
    let go ph i r c := mk (s_phase st) (started st) (pos st) ph i r c (out st) in
    match l_phase st, inbox st with
    | LWait, [] => go LWait [] None (cancel st)
    | LWait, MRequest :: i => go LWait i (if susp then None else Some TListen) (cancel st)
    | LWait, MDisconnect :: i => go LSeen i None true
    | _, _ => st
    end.

  Definition ended (ph : sphase) : bool := match ph with PDone | PFailed | PCut => true | _ => false end.

  (** A task runs when the loop is free or its own; one that was suspended in a cancelled scope is cancelled instead. *)
  Definition step (st : state) (o : op) : state :=
    match o with
    | OArrive m => mk (s_phase st) (started st) (pos st) (l_phase st) (inbox st ++ [m]) (running st) (cancel st) (out st)
    | ORun TStream susp =>
        match running st with
        | Some TListen => st
        | Some TStream => stream_piece st susp
        | None =>
            if ended (s_phase st) then st
            else if cancel st && started st then mk PCut true (pos st) (l_phase st) (inbox st) None true (out st)
            else stream_piece st susp
        end
    | ORun TListen susp =>
        match running st with
        | Some TStream => st
        | Some TListen => listen_piece st susp
        | None =>
            match l_phase st with
            | LWait => if cancel st then mk (s_phase st) (started st) (pos st) LCut (inbox st) None true (out st)
                       else listen_piece st susp
            | _ => st
            end
        end
    end.

  Definition run (ops : list op) (st : state) : state := fold_left step ops st.
End Steps.

(** Both tasks have ended, so that the task group is left. *)
Definition over (st : state) : bool :=
  ended (s_phase st) && match l_phase st with LWait => false | _ => true end.

(** responses.py:555-579: the effects of the call, when both tasks have ended: an exception of the stream comes out of
    the task group, a cancellation does not. *)
Definition effects (bg : bool) (code : Z) (h : list (str * str)) (st : state) : list sevent :=
  Sent (AStart code h) :: map Sent (out st) ++ [Cleanup] ++
  match s_phase st with PFailed => [Raised] | _ => if bg then [Background] else [] end.
