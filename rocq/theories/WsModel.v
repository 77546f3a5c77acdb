(** Model of [WebSocket] (lilya/websockets.py) used by any number of tasks, and of
    [WebSocketController] (lilya/controllers.py). *)
From Verif Require Import PyStr.

(** A key of a message: absent, None, or data. *)
Inductive field := Absent | Null | Data (s : str).
(** Messages from the server: connect, receive, disconnect, others. *)
Inductive wsmsg := MConnect | MReceive (text bytes : field) | MDisconnect (code : option N) (reason : str) | MOther (type : str).
(** Messages to the server: accept, send, close, others. *)
Inductive smsg := SAccept | SData (text bytes : field) | SClose (code : N) (reason : str) | SOther (type : str).

(** enums.py [WebSocketState]. *)
Inductive wstate := Connecting | Connected | Disconnected.
(** The calls of an endpoint. *)
Inductive call := Accept | Receive | ReceiveText | ReceiveBytes | Send (m : smsg) | Close (code : N) (reason : str).
(** A call that waits for a message of the server. *)
Inductive waiting := WAccept | WReceive (c : call).
(** Exceptions: WebSocketRuntimeError, AssertionError, KeyError, WebSocketDisconnect. *)
Inductive error := Runtime | Assertion | NoKey | Disconnect (code : option N) (reason : str).
Inductive result := Returns (f : field) | Message (m : wsmsg) | Done | Raises (e : error) | Waits (i : nat) | Nobody.
(** websockets.py:20-29: the state; with it the calls that wait, the messages sent so far and those that
    were taken from the server without exception. *)
Record ws := { client : wstate; application : wstate; pending : list (option waiting); sent : list smsg; taken : list wsmsg }.
Definition opened : ws := {| client := Connecting; application := Connecting; pending := []; sent := []; taken := [] |}.
Definition set_client (x : wstate) (w : ws) : ws := {| client := x; application := application w; pending := pending w; sent := sent w; taken := taken w |}.
Definition set_application (x : wstate) (w : ws) : ws := {| client := client w; application := x; pending := pending w; sent := sent w; taken := taken w |}.
Definition put (m : smsg) (w : ws) : ws := {| client := client w; application := application w; pending := pending w; sent := sent w ++ [m]; taken := taken w |}.
Definition take (m : wsmsg) (w : ws) : ws := {| client := client w; application := application w; pending := pending w; sent := sent w; taken := taken w ++ [m] |}.
Definition wait (x : waiting) (w : ws) : ws * result :=
  ({| client := client w; application := application w; pending := pending w ++ [Some x]; sent := sent w; taken := taken w |}, Waits (length (pending w))).
Fixpoint forget (i : nat) (l : list (option waiting)) : list (option waiting) :=
  match l, i with [], _ => [] | _ :: r, O => None :: r | x :: r, S j => x :: forget j r end.
Definition resumed (i : nat) (w : ws) : ws := {| client := client w; application := application w; pending := forget i (pending w); sent := sent w; taken := taken w |}.

(** websockets.py:76-108 [send]: up to the call of the server's send there is no await. *)
Definition send (m : smsg) (w : ws) : ws * result :=
  match application w with
  | Disconnected => (w, Raises Runtime)
  | Connecting => match m with
                  | SAccept => (put m (set_application Connected w), Done)
                  | SClose _ _ => (put m (set_application Disconnected w), Done)
                  | _ => (w, Raises Runtime)
                  end
  | Connected => match m with
                 | SData _ _ => (put m w, Done)
                 | SClose _ _ => (put m (set_application Disconnected w), Done)
                 | _ => (w, Raises Runtime)
                 end
  end.
(** websockets.py:53-71, the rest of [receive] when the message is there. *)
Definition received (m : wsmsg) (w : ws) : ws * (wsmsg + error) :=
  match client w with
  | Connecting => match m with MConnect => (take m (set_client Connected w), inl m) | _ => (w, inr Runtime) end
  | Connected => match m with
                 | MReceive _ _ => (take m w, inl m)
                 | MDisconnect _ _ => (take m (set_client Disconnected w), inl m)
                 | _ => (w, inr Runtime)
                 end
  | Disconnected => (take m w, inl m)
  end.
(** websockets.py:31-33 [raise_for_disconnect] and 131-143: what a call returns for a message. *)
Definition answer (c : call) (m : wsmsg) : result :=
  match c with
  | ReceiveText | ReceiveBytes =>
      match m with
      | MDisconnect code reason => Raises (Disconnect code reason)
      | MReceive t b => match (match c with ReceiveText => t | _ => b end) with Absent => Raises NoKey | f => Returns f end
      | _ => Raises NoKey
      end
  | _ => Message m
  end.
(** A call up to its first await of the server's receive (or to its end). *)
Definition begin (c : call) (w : ws) : ws * result :=
  match c with
  | Send m => send m w
  | Close code reason => send (SClose code reason) w
  | Accept => (* websockets.py:110-129 *)
      match client w with
      | Connecting => wait WAccept w
      | _ => send SAccept (set_client Connected w)
      end
  | Receive => match client w with Disconnected => (w, Raises Runtime) | _ => wait (WReceive c) w end
  | ReceiveText | ReceiveBytes =>
      match application w with
      | Connected => match client w with Disconnected => (w, Raises Runtime) | _ => wait (WReceive c) w end
      | _ => (w, Raises Runtime)
      end
  end.
(** The server gives a waiting call a message. *)
Definition resume (i : nat) (m : wsmsg) (w : ws) : ws * result :=
  match nth_error (pending w) i with
  | Some (Some x) =>
      let w := resumed i w in
      match x with
      | WAccept => match m with
                   | MConnect => send SAccept (take m (set_client Connected w))
                   | _ => (w, Raises Assertion)
                   end
      | WReceive c => let '(w, r) := received m w in (w, match r with inl m => answer c m | inr e => Raises e end)
      end
  | _ => (w, Nobody)
  end.
(** What can happen: a task makes a call, or the server answers a waiting one. *)
Inductive happening := Begin (c : call) | Resume (i : nat) (m : wsmsg).
Definition wstep (w : ws) (h : happening) : ws * result := match h with Begin c => begin c w | Resume i m => resume i m w end.
Definition wrun (w : ws) (hs : list happening) : ws := fold_left (fun w h => fst (wstep w h)) hs w.

(** One task alone: each call runs to its end; the server has a message for it if it asks. *)
Definition alone (w : ws) (x : call * wsmsg) : ws * result :=
  let '(w1, r) := begin (fst x) w in match r with Waits i => resume i (snd x) w1 | _ => (w1, r) end.
Definition run_alone (w : ws) (xs : list (call * wsmsg)) : ws := fold_left (fun w x => fst (alone w x)) xs w.

(** ** Controllers *)
Inductive encoding := AsText | AsBytes | AsJson | AsEither.
(** What a controller's hooks see, and what else happens. *)
Inductive cevent (V : Type) := OnConnect | OnReceive (v : V) | CloseFor (code : N) | OnDisconnect (code : N) | Escapes.
Arguments OnConnect {V}. Arguments OnReceive {V}. Arguments CloseFor {V}. Arguments OnDisconnect {V}. Arguments Escapes {V}.
Section Controller.
Context {V : Type} (raw : field -> V) (json : field -> option V).
(** controllers.py:334-407 [decode]: the data, or the code the websocket is closed with before the
    KeyError, or another exception. *)
Definition decode (e : encoding) (text bytes : field) : V + option N :=
  match e with
  | AsText => match text with Absent => inr (Some 1003%N) | f => inl (raw f) end
  | AsBytes => match bytes with Absent => inr (Some 1003%N) | f => inl (raw f) end
  | AsJson => let f := match text with Data _ => text | _ => bytes end in
              match f with Data _ => match json f with Some v => inl v | None => inr None end | _ => inr None end
  | AsEither => match text with
                | Data (_ :: _) => inl (raw text)
                | _ => match bytes with Absent => inr None | f => inl (raw f) end
                end
  end.
(** controllers.py:318-332, after [on_connect]: the messages that come; then the task is cancelled.
    [hook] says whether on_receive returns, given the data so far.  on_disconnect is taken to return. *)
Fixpoint serve_messages (hook : list V -> V -> bool) (e : encoding) (seen : list V) (ms : list wsmsg) : list (cevent V) :=
  match ms with
  | [] => [OnDisconnect 1000; Escapes]
  | MReceive t b :: r =>
      match decode e t b with
      | inl v => OnReceive v :: if hook seen v then serve_messages hook e (seen ++ [v]) r else [OnDisconnect 1011; Escapes]
      | inr (Some code) => [CloseFor code; OnDisconnect 1011; Escapes]
      | inr None => [OnDisconnect 1011; Escapes]
      end
  | MDisconnect code _ :: _ => [OnDisconnect (match code with Some c => if N.eqb c 0 then 1000%N else c | None => 1000%N end)]
  | _ :: _ => [OnDisconnect 1011; Escapes]
  end.
(** controllers.py:306-332 [handle_dispatch]; [connects]: on_connect returns, having accepted the
    connection. *)
Definition dispatch (connects : bool) (hook : list V -> V -> bool) (e : encoding) (ms : list wsmsg) : list (cevent V) :=
  OnConnect :: if connects then serve_messages hook e [] ms else [Escapes].
End Controller.
