(** Model of lilya/ranges.py. *)
From Verif Require Import PyStr.
Open Scope Z_scope.

(** ranges.py:7-9 [Range]. *)
Record range := mkRange { r_start : Z; r_stop : Z }.

(** ranges.py:12-17 [ContentRanges]. *)
Record content_ranges := mkCR {
  cr_unit : str; cr_max : Z; cr_size : Z; cr_ranges : list range }.

(** ranges.py:20-31 [_parse_range_intern]; [None] is ValueError (raised by [int]). *)
Definition parse_range_intern (rangedef : str) (max_value : Z) : option range :=
  let rangedef := strip rangedef in
  if prefixb (u "-") rangedef then
    option_map (fun v => mkRange (max_value + v) max_value) (int_parse rangedef)
  else if suffixb (u "-") rangedef then
    option_map (fun v => mkRange v max_value) (int_parse (removelast rangedef))
  else
    (* rsplit("-", 1): splitted[0] and splitted[-1] coincide without "-" *)
    let '(a, b) := match rsplit1 45 rangedef with Some p => p | None => (rangedef, rangedef) end in
    match int_parse a, int_parse b with
    | Some x, Some y => Some (mkRange x y)
    | _, _ => None
    end.

(** Outcome of [_parse_range]: a value, ValueError, or ContentRangeNotSatisfiable
    (exceptions.py:142, an HTTPException, not a ValueError). *)
Inductive range_res := RangeVal (r : range) | RangeValueError | RangeNotSatisfiable (r : range).

(** ranges.py:34-43 [_parse_range]. *)
Definition parse_range (rangedef : str) (max_value : Z) : range_res :=
  match parse_range_intern rangedef max_value with
  | None => RangeValueError
  | Some rv =>
      if r_stop rv <? r_start rv then RangeValueError
      else if r_start rv <? 0 then RangeValueError
      else if (max_value <? r_start rv) || (max_value <? r_stop rv) then RangeNotSatisfiable rv
      else RangeVal rv
  end.

(** Outcome of [parse_range_value]: None, the 416 exception, or a value. *)
Inductive prv_res := PrvNone | PrvNotSatisfiable | PrvOk (c : content_ranges).

(** Outcome of the first loop: early return None, exception, or (size, ranges, last_range). *)
Inductive loop_res := LoopNone | LoopNotSatisfiable | LoopOk (size : Z) (ranges : list range) (last : option range).

Definition range_len (r : range) : Z := r_stop r - r_start r + 1.

Definition push_last (ranges : list range) (last : option range) : list range :=
  match last with Some l => ranges ++ [l] | None => ranges end.

(** ranges.py:101-103: the "not ascending" early return. *)
Definition asc_violation (enforce_asc : bool) (last : option range) (rv : range) : bool :=
  match last with
  | Some l => enforce_asc && (r_start rv <=? r_stop l)
  | None => false
  end.

(** ranges.py:104: the merge test (also 128-132). *)
Definition mergeable (merge_ranges : bool) (last : option range) (rv : range) : option range :=
  match last with
  | Some l => if merge_ranges && (r_stop l =? r_start rv - 1) then Some l else None
  | None => None
  end.

(** ranges.py:89-110, one element of [rest.split(",")] at a time; [count] is
    [range_object_count] (enumerate(..., start=1)). *)
Fixpoint prv_loop (enforce_asc merge_ranges : bool) (max_ranges : option Z) (max_value : Z)
    (count : Z) (defs : list str) (size : Z) (ranges : list range) (last : option range) : loop_res :=
  match defs with
  | [] => LoopOk size ranges last
  | rangedef :: rest =>
      if match max_ranges with Some m => m <? count | None => false end then LoopNone
      else match parse_range rangedef max_value with
           | RangeValueError => LoopNone
           | RangeNotSatisfiable _ => LoopNotSatisfiable
           | RangeVal rv =>
               let size := size + range_len rv in
               if asc_violation enforce_asc last rv then LoopNone
               else match mergeable merge_ranges last rv with
                    | Some l =>
                        prv_loop enforce_asc merge_ranges max_ranges max_value (count + 1) rest
                          size ranges (Some (mkRange (r_start l) (r_stop rv)))
                    | None =>
                        prv_loop enforce_asc merge_ranges max_ranges max_value (count + 1) rest
                          size (push_last ranges last) (Some rv)
                    end
           end
  end.

(** Tuple comparison and [list.sort()] on ranges (ranges.py:116), as insertion sort. *)
Definition range_leb (a b : range) : bool :=
  (r_start a <? r_start b) || ((r_start a =? r_start b) && (r_stop a <=? r_stop b)).
Fixpoint insert_range (r : range) (l : list range) : list range :=
  match l with
  | [] => [r]
  | x :: l' => if range_leb r x then r :: l else x :: insert_range r l'
  end.
Definition sort_ranges (l : list range) : list range := fold_right insert_range [] l.

(** ranges.py:122-139, the second loop used when [enforce_asc] is False. *)
Fixpoint norm_loop (merge_ranges : bool) (max_value : Z) (l : list range)
    (size : Z) (ranges : list range) (last : option range) : Z * list range * option range :=
  match l with
  | [] => (size, ranges, last)
  | rv0 :: rest =>
      let rv := match last with
                | Some la => if r_start rv0 <=? r_stop la
                             then mkRange (Z.min (r_stop la + 1) max_value) (r_stop rv0) else rv0
                | None => rv0
                end in
      if r_start rv <=? r_stop rv then
        match mergeable merge_ranges last rv with
        | Some la => norm_loop merge_ranges max_value rest size ranges
                       (Some (mkRange (r_start la) (r_stop rv)))
        | None => norm_loop merge_ranges max_value rest (size + range_len rv)
                    (push_last ranges last) (Some rv)
        end
      else norm_loop merge_ranges max_value rest size ranges last
  end.

(** ranges.py:46-142 [parse_range_value].  [header_value] is the decoded header
    ([None] and "" are both falsy); [max_values] the dict form. *)
Definition parse_range_value (header_value : option str) (max_values : dict Z)
    (enforce_asc : bool) (max_ranges : option Z) (merge_ranges : bool) : prv_res :=
  match header_value with
  | None | Some [] => PrvNone
  | Some hv =>
      let '(unit, rest) := match split1 61 hv with Some p => p | None => ([], hv) end in
      match dget unit max_values with
      | None => PrvNone
      | Some max_value =>
          match prv_loop enforce_asc merge_ranges max_ranges max_value 1 (split_char 44 rest) 0 [] None with
          | LoopNone => PrvNone
          | LoopNotSatisfiable => PrvNotSatisfiable
          | LoopOk size ranges last =>
              let ranges := push_last ranges last in
              if enforce_asc then PrvOk (mkCR unit max_value size ranges)
              else
                let '(size, ranges, last) := norm_loop merge_ranges max_value (sort_ranges ranges) 0 [] None in
                PrvOk (mkCR unit max_value size (push_last ranges last))
          end
      end
  end.

(** ranges.py:78-79: an int for [max_values] means the bytes unit. *)
Definition bytes_max (max_value : Z) : dict Z := [(u "bytes", max_value)].
