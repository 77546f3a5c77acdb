(** Model of lilya/responses.py streaming responses: [StreamingResponse] (509-587),
    [CSVResponse] (1373-1435), [NDJSONResponse] (1510-1572). *)
From Verif Require Import PyStr Asgi.

(** What a content iterator yields: [bytes] or [str] chunks. *)
Inductive chunk := CBytes (b : str) | CText (t : str).

(** How the iterator stops: exhausted, or an exception of the handler's code. *)
Inductive ending := Exhausted | Raises.

(** Effects of calling a response, in order. *)
Inductive sevent := Sent (m : amsg) | Cleanup | Background | Raised.

Section Stream.
  (** [str.encode(self.charset)]. *)
  Variable encode : str -> str.

  Definition chunk_bytes (c : chunk) : str := match c with CBytes b => b | CText t => encode t end.

  (** responses.py:543-553 [StreamingResponse.stream]; [last] is [last_chunk]. *)
  Fixpoint stream (last : option str) (chunks : list chunk) (e : ending) : list amsg :=
    match chunks with
    | c :: rest =>
        match last with
        | Some b => ABody b true :: stream (Some (chunk_bytes c)) rest e
        | None => stream (Some (chunk_bytes c)) rest e
        end
    | [] => match e with
            | Exhausted => [ABody (match last with Some b => b | None => [] end) false]
            | Raises => []
            end
    end.
End Stream.

(** responses.py:555-579 [__call__] around any body producer.  [msgs] is what [self.stream]
    sends when it is not cut, [e] how it ends.  The schedule of the two tasks (the stream and
    the disconnect listener) is summed up by [cut]: [Some k] when the disconnect is noticed
    after [k] body messages (cancelling the stream), [None] when the stream ends first. *)
Definition streaming_call (header_only has_background : bool) (st : Z) (h : list (str * str))
    (msgs : list amsg) (e : ending) (cut : option nat) : list sevent :=
  let start := Sent (AStart st h) in
  let bg := if has_background then [Background] else [] in
  if header_only then [start; Cleanup]
  else match cut with
       | Some k => start :: map Sent (firstn k msgs) ++ [Cleanup] ++ bg
       | None => start :: map Sent msgs ++ [Cleanup] ++ match e with Exhausted => bg | Raises => [Raised] end
       end.

(** responses.py:559-562, with the method as in the scope. *)
Definition is_header_only (m : option str) : bool :=
  match m with Some m => smem (upper m) [u "HEAD"; u "OPTIONS"] | None => false end.

(** ** NDJSON *)
Section NDJson.
  (** [json_encode(row)] as bytes. *)
  Variable row : Type.
  Variable dump : row -> str.

  (** responses.py:1534-1572 [NDJSONResponse.stream]. *)
  Fixpoint ndjson_stream (last : option str) (rows : list row) : list amsg :=
    match rows with
    | r :: rest =>
        match last with
        | Some b => ABody (b ++ [10%N]) true :: ndjson_stream (Some (dump r)) rest
        | None => ndjson_stream (Some (dump r)) rest
        end
    | [] => match last with
            | Some b => [ABody b false]
            | None => [ABody [] false]
            end
    end.
End NDJson.

(** ** CSV *)
(** A row: [Mapping[str, Any]] with the values already passed through [str()]. *)
Definition csv_row := dict str.

(** [row.get(h, '')]. *)
Definition cell (r : csv_row) (h : str) : str := match dget h r with Some v => v | None => [] end.
Definition csv_line (headers : list str) (r : csv_row) : str := join (u ",") (map (cell r) headers).

(** responses.py:1412-1435, the loop; [last] is [last_row]. *)
Fixpoint csv_rows (headers : list str) (last : csv_row) (rows : list csv_row) : list amsg :=
  match rows with
  | r :: rest => ABody (csv_line headers last ++ [10%N]) true :: csv_rows headers r rest
  | [] => [ABody (csv_line headers last) false]
  end.

(** How the content behaves when iterated a second time (1414 calls [__aiter__] again):
    an async generator continues, a re-iterable object starts over. *)
Inductive source := Generator | Reiterable.

(** responses.py:1397-1435 [CSVResponse.stream]. *)
Definition csv_stream (src : source) (rows : list csv_row) : list amsg :=
  match rows with
  | [] => [ABody [] false]
  | row1 :: rest =>
      let headers := dkeys row1 in
      ABody (join (u ",") headers ++ [10%N]) true ::
      csv_rows headers row1 (match src with Generator => rest | Reiterable => rows end)
  end.
