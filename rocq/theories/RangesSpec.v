(** Specification vocabulary for byte ranges (independent of the parser). *)
From Verif Require Import PyStr RangesModel.
Open Scope Z_scope.

(** Byte position [b] belongs to one of the (inclusive) ranges. *)
Definition covers (rs : list range) (b : Z) : Prop :=
  exists r, In r rs /\ r_start r <= b <= r_stop r.

(** Each range ends before the next ones start. *)
Inductive ascending : list range -> Prop :=
| asc_nil : ascending []
| asc_cons r rs : (forall r', In r' rs -> r_stop r < r_start r') -> ascending rs -> ascending (r :: rs).

(** As [ascending], and with at least one byte in between (nothing left to merge). *)
Inductive separated : list range -> Prop :=
| sep_nil : separated []
| sep_cons r rs : (forall r', In r' rs -> r_stop r + 1 < r_start r') -> separated rs -> separated (r :: rs).

(** Starts never decrease. *)
Inductive starts_sorted : list range -> Prop :=
| ss_nil : starts_sorted []
| ss_cons r rs : (forall x, In x rs -> r_start r <= r_start x) -> starts_sorted rs -> starts_sorted (r :: rs).

(** [n] is the number of byte positions in the union of [rs]. *)
Definition byte_count (rs : list range) (n : Z) : Prop :=
  exists l : list Z, NoDup l /\ (forall b, In b l <-> covers rs b) /\ Z.of_nat (length l) = n.

(** What a client can write between two commas (RFC 9110 section 14.1.2 byte-range-spec),
    and the bytes meant on a representation whose last position is [last]. *)
Inductive rspec := Closed (a b : N) | OpenFrom (a : N).
Definition render_rspec (r : rspec) : str :=
  match r with
  | Closed a b => dec a ++ u "-" ++ dec b
  | OpenFrom a => dec a ++ u "-"
  end.
Definition rspec_range (last : Z) (r : rspec) : range :=
  match r with
  | Closed a b => mkRange (Z.of_N a) (Z.of_N b)
  | OpenFrom a => mkRange (Z.of_N a) last
  end.
Definition render_header (rs : list rspec) : str := u "bytes=" ++ join (u ",") (map render_rspec rs).

(** A range that exists in a representation whose last position is [last]. *)
Definition satisfiable (last : Z) (r : range) : Prop :=
  0 <= r_start r /\ r_start r <= r_stop r /\ r_stop r <= last.

(** The bytes an arbitrary range text [t] asks for, with Python's [int()] syntax for
    numbers: "a-b", "a-", "-n" or the extension "a" (one byte). *)
Inductive denotes (last : Z) (t : str) : range -> Prop :=
| den_closed x y a b : strip t = x ++ 45%N :: y -> ~ In 45%N y ->
    int_parse x = Some a -> int_parse y = Some b -> denotes last t (mkRange a b)
| den_open x a : strip t = x ++ [45%N] -> int_parse x = Some a -> denotes last t (mkRange a last)
| den_single a : ~ In 45%N (strip t) -> int_parse (strip t) = Some a -> denotes last t (mkRange a a)
| den_suffix y n : strip t = 45%N :: y -> int_parse (strip t) = Some (- n) ->
    denotes last t (mkRange (last - n) last).
