(** A conforming event-stream parser (WHATWG HTML, "9.2.6 Interpreting an event stream"),
    on decoded text.  Independent of the encoders. *)
From Verif Require Import PyStr Asgi.

(** Lines end with CRLF, LF or CR; text after the last line end is not a line. *)
Fixpoint es_lines (w : str) (s : str) : list str :=
  match s with
  | [] => []
  | c :: s' =>
      if (c =? 10)%N then w :: es_lines [] s'
      else if (c =? 13)%N then
        w :: match s' with
             | d :: s'' => if (d =? 10)%N then es_lines [] s'' else es_lines [] s'
             | [] => []
             end
      else es_lines (w ++ [c]) s'
  end.

(** Parser buffers: data (None = the empty buffer), event type, last event id, reconnection time. *)
Record es_state := mkES { es_data : option str; es_type : str; es_id : str; es_retry : option N }.

(** A dispatched event, with the last event id at that time. *)
Record sse_event := mkEv { ev_type : str; ev_data : str; ev_id : str }.

Definition all_digits (s : str) : bool := match s with [] => false | _ => forallb is_digit s end.

(** "Process the field". *)
Definition es_field (name value : str) (s : es_state) : es_state :=
  if seqb name (u "event") then mkES (es_data s) value (es_id s) (es_retry s)
  else if seqb name (u "data") then
    mkES (Some (match es_data s with None => value | Some d => d ++ [10%N] ++ value end))
         (es_type s) (es_id s) (es_retry s)
  else if seqb name (u "id") then
    if cmem 0 value then s else mkES (es_data s) (es_type s) value (es_retry s)
  else if seqb name (u "retry") then
    if all_digits value then mkES (es_data s) (es_type s) (es_id s) (Some (digits_val value)) else s
  else s.

(** Remove one leading space. *)
Definition drop_space (v : str) : str :=
  match v with c :: v' => if (c =? 32)%N then v' else v | [] => [] end.

(** One line: dispatch on a blank line, ignore comments, process fields. *)
Definition es_line (line : str) (s : es_state) : es_state * list sse_event :=
  match line with
  | [] =>
      match es_data s with
      | None => (mkES None [] (es_id s) (es_retry s), [])
      | Some d => (mkES None [] (es_id s) (es_retry s), [mkEv (es_type s) d (es_id s)])
      end
  | c :: _ =>
      if (c =? 58)%N then (s, [])
      else match split1 58 line with
           | Some (name, v) => (es_field name (drop_space v) s, [])
           | None => (es_field line [] s, [])
           end
  end.

Fixpoint es_run (lines : list str) (s : es_state) : es_state * list sse_event :=
  match lines with
  | [] => (s, [])
  | l :: rest =>
      let '(s1, e1) := es_line l s in
      let '(s2, e2) := es_run rest s1 in (s2, e1 ++ e2)
  end.

(** Parse a whole text from state [s]. *)
Definition es_parse (text : str) (s : es_state) : es_state * list sse_event := es_run (es_lines [] text) s.

Definition es_init : es_state := mkES None [] [] None.

(** Text without CR and LF. *)
Definition single_line (s : str) : Prop := ~ In 10%N s /\ ~ In 13%N s.

(** Text of an optional field. *)
Definition opt_text (v : option str) : str := match v with Some s => s | None => [] end.
(** The line separators a response may be configured with. *)
Definition is_sep (sep : str) : Prop := sep = [10%N] \/ sep = [13%N] \/ sep = [13%N; 10%N].

(** Line-ending normalisation: CRLF and CR become LF. *)
Fixpoint nl_normal (s : str) : str :=
  match s with
  | [] => []
  | c :: s' =>
      if (c =? 13)%N then 10%N :: match s' with d :: s'' => if (d =? 10)%N then nl_normal s'' else nl_normal s' | [] => [] end
      else c :: nl_normal s'
  end.

(** [with_pings ping evs ms]: the messages [ms] are the events [evs], in order, with any number
    of pings in between, all announcing more. *)
Inductive with_pings (ping : str) : list str -> list amsg -> Prop :=
| wp_nil : with_pings ping [] []
| wp_event e evs ms : with_pings ping evs ms -> with_pings ping (e :: evs) (ABody e true :: ms)
| wp_ping evs ms : with_pings ping evs ms -> with_pings ping evs (ABody ping true :: ms).
