(** Specification vocabulary for file responses. *)
From Verif Require Import PyStr RangesModel FileModel.
Open Scope Z_scope.

(** Bytes [a..b] (inclusive) of [f]. *)
Definition slice (f : str) (a b : Z) : str :=
  firstn (Z.to_nat (b - a + 1)) (skipn (Z.to_nat a) f).

(** The payload and finality of a body message. *)
Definition payload (m : file_msg) : str :=
  match m with MBody b _ => b | MZero b _ => b | _ => [] end.
Definition body_bytes (ms : list file_msg) : str := concat (map payload ms).

(** Every message but the last announces more, the last one does not, and all are body messages. *)
Inductive terminated : list file_msg -> Prop :=
| term_last m : (exists b, m = MBody b false \/ m = MZero b false) -> terminated [m]
| term_more m ms : (exists b, m = MBody b true \/ m = MZero b true) -> terminated ms -> terminated (m :: ms).

(** A response description whose stat result is true and which does not predefine the
    headers at stake. *)
Definition honest (fr : file_resp) : Prop :=
  fr_size fr = Z.of_nat (length (fr_content fr)) /\
  dget (u "content-length") (fr_headers fr) = None /\
  dget (u "content-range") (fr_headers fr) = None.

(** A response whose announced length is what is sent. *)
Definition length_ok (h : dict str) (ms : list file_msg) : Prop :=
  dget (u "content-length") h = Some (dec (N.of_nat (length (body_bytes ms)))).

(** The header block the code writes before each part of a multipart/byteranges body. *)
Definition part_header (bd media : str) (full : Z) (a b : Z) : str :=
  u "--" ++ bd ++ [10%N] ++ u "content-type: " ++ media ++ [10%N] ++
  u "content-range: bytes " ++ decz a ++ u "-" ++ decz b ++ u "/" ++ decz full ++ [10%N; 10%N].
