(** Model of lilya/requests.py: [Request.receive], [sniff], [stream], [body], [json] and
    [is_disconnected], for any number of Request objects on one scope. *)
From Verif Require Import PyStr.

(** http.request messages (with a "body" entry) and http.disconnect. *)
Inductive rmsg := MReq (body : str) (more : bool) | MDisc.

(** One Request object: requests.py:64-74. *)
Record req := {
  q_stored : option rmsg;        (** [_stored_receive_message] *)
  q_consumed : bool;             (** [_stream_consumed] *)
  q_body : option str;           (** [_body], [None] for [Empty] *)
  q_disc : bool                  (** [_is_disconnected] *)
}.
Definition new_req : req := {| q_stored := None; q_consumed := false; q_body := None; q_disc := false |}.

(** What the server still delivers (http.disconnect for ever after the end) and [scope["_body"]]. *)
Record chan := { ch_in : list rmsg; ch_scope_body : option str }.
Definition rstate : Type := (req * chan)%type.

Definition set_stored (q : req) x := {| q_stored := x; q_consumed := q_consumed q; q_body := q_body q; q_disc := q_disc q |}.
Definition set_consumed (q : req) x := {| q_stored := q_stored q; q_consumed := x; q_body := q_body q; q_disc := q_disc q |}.
Definition set_body (q : req) x := {| q_stored := q_stored q; q_consumed := q_consumed q; q_body := x; q_disc := q_disc q |}.
Definition set_disc (q : req) x := {| q_stored := q_stored q; q_consumed := q_consumed q; q_body := q_body q; q_disc := x |}.
Definition set_in (c : chan) x := {| ch_in := x; ch_scope_body := ch_scope_body c |}.
Definition set_scope_body (c : chan) x := {| ch_in := ch_in c; ch_scope_body := x |}.

(** The server's [receive]. *)
Definition chan_recv (c : chan) : rmsg * chan :=
  match ch_in c with [] => (MDisc, c) | m :: r => (m, set_in c r) end.

(** requests.py:110-121 [receive]. *)
Definition req_receive (st : rstate) : rmsg * rstate :=
  let '(q, c) := st in
  match q_stored q with
  | Some m => (m, (set_stored q None, c))
  | None => let '(m, c') := chan_recv c in (m, (q, c'))
  end.

(** requests.py:123-139 [sniff]. *)
Definition sniff (st : rstate) : (rmsg * bool) * rstate :=
  let '(m, (q, c)) := req_receive st in
  let q := set_stored q (Some m) in
  match m with
  | MReq (b :: bs) false =>
      ((m, true), (set_consumed (set_body q (Some (b :: bs))) true, set_scope_body c (Some (b :: bs))))
  | _ => ((m, false), (q, c))
  end.

(** How a stream ends. *)
Inductive send := SEnd | SDisconnect | SConsumed.

(** requests.py:193-204, the loop; [n] bounds the number of messages read. *)
Fixpoint stream_loop (n : nat) (st : rstate) : list str * send * rstate :=
  match n with
  | O => ([], SDisconnect, st)
  | S n' =>
      let '(m, (q, c)) := req_receive st in
      match m with
      | MDisc => ([], SDisconnect, (set_disc q true, c))
      | MReq b more =>
          let q := if more then q else set_consumed q true in
          let here := match b with [] => [] | _ => [b] end in
          if more then let '(ys, e, st') := stream_loop n' (q, c) in (here ++ ys, e, st')
          else (here ++ [[]], SEnd, (q, c))
      end
  end.

(** requests.py:184-210 [stream], read to its end: the chunks yielded and how it ends. *)
Definition stream (st : rstate) : list str * send * rstate :=
  let '(q, c) := st in
  match q_body q with
  | Some b => ([b; []], SEnd, st)
  | None => if q_consumed q then ([], SConsumed, st)
            else stream_loop (S (S (length (ch_in c)))) st
  end.

(** requests.py:212-225 [body]. *)
Definition body (st : rstate) : (str + send) * rstate :=
  let '(q, c) := st in
  match q_body q with
  | Some b => (inl b, st)
  | None =>
      match ch_scope_body c with
      | Some b => (inl b, (set_body q (Some b), c))
      | None =>
          let '(ys, e, (q', c')) := stream st in
          match e with
          | SEnd => let b := concat ys in (inl b, (set_body q' (Some b), set_scope_body c' (Some b)))
          | _ => (inr e, (q', c'))
          end
      end
  end.

(** requests.py:227-237 [json]: what is given to the decoder (its result is then remembered). *)
Definition json_text (st : rstate) : (str + send) * rstate :=
  let '(r, st') := body st in
  (match r with inl [] => inl (u "null") | r => r end, st').

(** requests.py:344-362 [is_disconnected].  The receive runs in a cancelled scope: it returns only
    what needs no waiting, [ready] telling whether the server has the next message at hand.
    A message received this way is dropped. *)
Definition is_disconnected (ready : bool) (st : rstate) : bool * rstate :=
  let '(q, c) := st in
  if q_disc q then (true, st)
  else
    match q_stored q, ready with
    | None, false => (false, st)
    | _, _ =>
        let '(m, (q', c')) := req_receive st in
        match m with
        | MDisc => (true, (set_disc q' true, c'))
        | _ => (false, (q', c'))
        end
    end.

(** ** Histories of one Request object *)
Inductive rop := OSniff | OBody | OStream | OJson.
Inductive rres :=
| RSniff (m : rmsg) (initialised : bool)
| RBody (r : str + send)
| RStream (chunks : list str) (e : send)
| RJson (r : str + send).
Definition rstep (st : rstate) (o : rop) : rres * rstate :=
  match o with
  | OSniff => let '((m, i), st') := sniff st in (RSniff m i, st')
  | OBody => let '(r, st') := body st in (RBody r, st')
  | OStream => let '(ys, e, st') := stream st in (RStream ys e, st')
  | OJson => let '(r, st') := json_text st in (RJson r, st')
  end.
Fixpoint rrun (st : rstate) (os : list rop) : list rres * rstate :=
  match os with
  | [] => ([], st)
  | o :: os' => let '(r, st1) := rstep st o in let '(rs, st2) := rrun st1 os' in (r :: rs, st2)
  end.

(** ** Several Request objects on one scope, numbered. *)
Definition world : Type := ((nat -> req) * chan)%type.
Definition wstep (w : world) (io : nat * rop) : rres * world :=
  let '(qs, c) := w in
  let '(r, (q', c')) := rstep (qs (fst io), c) (snd io) in
  (r, (fun j => if Nat.eqb j (fst io) then q' else qs j, c')).
Fixpoint wrun (w : world) (os : list (nat * rop)) : list rres * world :=
  match os with
  | [] => ([], w)
  | o :: os' => let '(r, w1) := wstep w o in let '(rs, w2) := wrun w1 os' in (r :: rs, w2)
  end.
