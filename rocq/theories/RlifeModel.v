(** Model of the life of a proxy relay: [startup], [shutdown] and [__call__]
    (lilya/contrib/proxy/relay.py:135-176, 178-216, 242). *)
From Verif Require Import PyStr.

(** The clients are numbered; [closing]: the calls of [shutdown] that await [aclose]. *)
Record relay := { client : option nat; made : nat; closed : list nat; closing : nat }.
Definition new_relay : relay := {| client := None; made := 0; closed := []; closing := 0 |}.
(** What happens to a relay: [startup]; [shutdown] up to its [await], and the rest of it. *)
Inductive event := Startup | ShutdownBegins | ShutdownEnds.
Definition step (r : relay) (e : event) : relay :=
  match e with
  (* relay.py:154-160 *)
  | Startup => match client r with
               | None => {| client := Some (made r); made := S (made r); closed := closed r; closing := closing r |}
               | Some _ => r
               end
  (* relay.py:174-175 *)
  | ShutdownBegins => match client r with
                      | None => r
                      | Some c => {| client := client r; made := made r; closed := closed r ++ [c]; closing := S (closing r) |}
                      end
  (* relay.py:176 *)
  | ShutdownEnds => match closing r with
                    | O => r
                    | S n => {| client := None; made := made r; closed := closed r; closing := n |}
                    end
  end.
Definition live (es : list event) : relay := fold_left step es new_relay.

(** What a request comes to. *)
Inductive outcome := Returns | NotStarted | Fails.
Section Call.
Context {M : Type}.
(** relay.py:205-216 [__call__] for a scope of type [kind]; [before] and [after] are the relay when the
    request comes and when its handler is done.  [http] and [websocket] are what the handlers send and
    whether they end without an exception (RelayModel.v, WsuModel.v); [not_found] is what [_send_text]
    sends with 404. *)
Definition call (before after : relay) (kind : str) (http websocket : list M * bool) (not_found : list M) : list M * outcome :=
  let ends (x : list M * bool) :=
    (fst x, if snd x then match client after with Some _ => Returns | None => NotStarted end else Fails) in
  if seqb kind (u "http") then
    (* relay.py:242 *)
    match client before with None => ([], NotStarted) | Some _ => ends http end
  else if seqb kind (u "websocket") then ends websocket
  else ends (not_found, true).
End Call.
