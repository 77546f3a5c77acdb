(** Model of the exception for ranges past the end (lilya/exceptions.py:142-161, raised at lilya/ranges.py:42); which
    ranges those are is in RangesModel, the answer to http exceptions in AbtModel. *)
From Coq Require Import ZArith.
From Verif Require Import PyStr Asgi HeaderModel JsonModel OutModel ExcModel AbtModel RangesModel.

(** exceptions.py:142-143: its class attributes. *)
Definition NotSatisfiable : cls := {| k_mro := [17; cHTTP; 3; cException]%nat; k_status := Some 416%Z; k_detail := None |}.
(** exceptions.py:145-161 [ContentRangeNotSatisfiable.__init__]; the text with a range is no f-string. *)
Definition not_satisfiable (range_def : option range) (size : Z) (unit : str) : option raised :=
  let detail := match range_def with
                | Some _ => u "Requested range ({range_def[0]}-{range_def[1]}) is not satisfiable."
                | None => u "Requested range is not satisfiable."
                end in
  construct NotSatisfiable [] None (JStr detail) (Some [(u "content-range", unit ++ u " */" ++ decz size)]) None.
(** ranges.py:34-43: what [_parse_range] raises, if it is this. *)
Definition refusal (rangedef : str) (max_value : Z) (unit : str) : option raised :=
  match parse_range rangedef max_value with
  | RangeNotSatisfiable r => not_satisfiable (Some r) (max_value + 1) unit
  | _ => None
  end.
