(** Specification vocabulary for streamed responses. *)
From Verif Require Import PyStr Asgi StreamModel.

(** The messages among the effects of a call. *)
Definition sent (es : list sevent) : list amsg :=
  flat_map (fun e => match e with Sent m => [m] | _ => [] end) es.

(** A plain reader: lines separated by LF, cells by commas. *)
Definition csv_read (s : str) : list (list str) := map (split_char 44) (split_char 10 s).
