(** What a websocket application does, as a test would describe it. *)
From Verif Require Import PyStr JsonModel WstModel.
Local Open Scope N_scope.

(** [acts a i o b]: given the messages [i], the application [a] sends the messages [o] and goes on as [b]; it may await
    other things on the way. *)
Inductive acts : asgi -> list cmsg -> list smsg -> asgi -> Prop :=
  | acts_nil a : acts a [] [] a
  | acts_wait a i o b : acts a i o b -> acts (AWait a) i o b
  | acts_send m a i o b : acts a i o b -> acts (ASend m a) i (m :: o) b
  | acts_recv k m i o b : acts (k m) i o b -> acts (ARecv k) (m :: i) o b.
(** It answers the connection: whether or not it receives the connect message first, [o] is what it sends. *)
Definition answers (a : asgi) (o : list smsg) (b : asgi) : Prop := exists i, (i = [] \/ i = [CConnect]) /\ acts a i o b.
(** An application that awaits nothing but messages. *)
CoInductive only_receives : asgi -> Prop :=
  | or_recv k : (forall m, only_receives (k m)) -> only_receives (ARecv k)
  | or_send m a : only_receives a -> only_receives (ASend m a)
  | or_ret : only_receives ARet
  | or_raise n : only_receives (ARaise n).

(** A denial response: its start, then bodies of which all but the last announce more. *)
Definition refusal (status : N) (headers : list (str * str)) (init : list str) (last : str) (flag : option bool) : list smsg :=
  SStart status headers :: map (fun b => SBody b (Some true)) init ++ [SBody last flag].

(** A test that calls [receive_text] [n] times. *)
Fixpoint receive_texts (n : nat) : prog (list str) :=
  match n with O => PRet [] | S m => bind receive_text (fun t => bind (receive_texts m) (fun r => PRet (t :: r))) end.

(** The two outcomes a schedule may have for what entering and the block give: not there yet, or [r]; and if it is not
    there yet, it can still come. *)
Definition always {R : Type} (own : bool) (body : option str * option (list (str * str)) -> prog R) (a : asgi) (r : R + exn) : Prop :=
  forall l, (forall r', block (run own body l (start a)) = Some r' -> r' = r) /\ exists l', block (run own body (l ++ l') (start a)) = Some r.

(** A websocket of lilya (JsonModel) that reads one JSON value and sends it back. *)
Definition frame_in (m : cmsg) : option frame :=
  match m with CReceive (Some t) None => Some (Text t) | CReceive None (Some b) => Some (Binary b) | _ => None end.
Definition frame_out (f : frame) : smsg := match f with Text t => SSend (Some t) None | Binary b => SSend None (Some b) end.
Definition is_text (m : mode) : bool := match m with TextMode => true | BinaryMode => false end.
Definition json_echo (m : mode) : asgi :=
  ARecv (fun _ => ASend (SAccept None (Some [])) (ARecv (fun x =>
    match frame_in x with
    | None => ARaise 1
    | Some f =>
        match JsonModel.receive_json (is_text m) f with
        | None => ARaise 2
        | Some v => match JsonModel.send_json (is_text m) v with Some g => ASend (frame_out g) ARet | None => ARaise 3 end
        end
    end))).

(** A name that can be offered as a subprotocol: not empty, no comma, no space around it. *)
Definition protocol_name (s : str) : Prop := s <> [] /\ ~ In 44 s /\ strip s = s.
