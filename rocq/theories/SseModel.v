(** Model of server-sent events: lilya/contrib/sse/channels.py [SSEMessage.to_wire] (33-62) and
    lilya/responses.py [EventStreamResponse._encode_event] (930-963).  Text is modelled before
    the final UTF-8 encoding. *)
From Verif Require Import PyStr.

(** Line boundaries of [str.splitlines] (CPython): LF VT FF CR FS GS RS NEL LS PS. *)
Definition is_linebreak (c : N) : bool :=
  ((10 <=? c) && (c <=? 13) || (28 <=? c) && (c <=? 30) || (c =? 133) || (c =? 8232) || (c =? 8233))%N.

(** [s.splitlines()]: cut at each boundary, CRLF being one; no empty last line. [w] is the
    current line. *)
Fixpoint splitlines_aux (w : str) (s : str) : list str :=
  match s with
  | [] => match w with [] => [] | _ => [w] end
  | c :: s' =>
      if is_linebreak c then
        w :: match s' with
             | d :: s'' => if ((c =? 13) && (d =? 10))%N then splitlines_aux [] s'' else splitlines_aux [] s'
             | [] => []
             end
      else splitlines_aux (w ++ [c]) s'
  end.
Definition splitlines (s : str) : list str := splitlines_aux [] s.

(** channels.py:28-31; [sm_data] is the text after the JSON serialisation of 53-55. *)
Record sse_message := mkSSE { sm_data : str; sm_event : option str; sm_id : option str; sm_retry : option Z }.

Definition nonempty_line (name : str) (v : option str) : list str :=
  match v with Some (c :: r) => [name ++ u ": " ++ (c :: r)] | _ => [] end.

(** channels.py:33-62 [to_wire]. *)
Definition to_wire (m : sse_message) : str :=
  let lines := nonempty_line (u "event") (sm_event m)
            ++ nonempty_line (u "id") (sm_id m)
            ++ (match sm_retry m with Some r => [u "retry: " ++ decz r] | None => [] end)
            ++ map (fun l => u "data: " ++ l)
                 (match splitlines (sm_data m) with [] => [[]] | ls => ls end) in
  concat (map (fun l => l ++ [10%N]) lines) ++ [10%N].

(** responses.py:930-963: the event dict restricted to its five known keys, values passed
    through [str()] (or the JSON serialiser for dict/list data).  The outer option of [ed_retry]
    is the presence of the key, the inner one its value ([None] or a number). *)
Record event_dict := mkED {
  ed_comment : option str; ed_id : option str; ed_event : option str; ed_data : option str;
  ed_retry : option (option Z) }.

Definition field_line (name : str) (v : option str) : list str :=
  match v with Some s => [name ++ u ": " ++ s] | None => [] end.

(** responses.py:941-963 [_encode_event]; [sep] is the separator, [retry] the default of the
    response object ([self.retry], 0 is falsy but then [event.get] may still be used). *)
Definition encode_event (sep : str) (retry : option Z) (e : event_dict) : str :=
  let lines := field_line [] (ed_comment e)
            ++ field_line (u "id") (ed_id e)
            ++ field_line (u "event") (ed_event e)
            ++ field_line (u "data") (ed_data e)
            ++ (match ed_retry e with
                | Some (Some r) => [u "retry: " ++ decz r]
                | Some None => []
                | None => match retry with
                          | Some r => if Z.eqb r 0 then [] else [u "retry: " ++ decz r]
                          | None => []
                          end
                end) in
  join sep lines ++ sep ++ sep.
