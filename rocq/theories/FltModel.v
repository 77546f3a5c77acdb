(** Model of binary64 floats as [FloatTransformer] uses them (lilya/_internal/_path_transformers.py:68-79):
    [float(text)] and [f"{value:0.20f}"], which CPython rounds correctly, half to even (Python/dtoa.c). *)
From Coq Require Import QArith Qround.
From Verif Require Import PyStr.
Open Scope Z_scope.

(** A float: [(-1)^neg * m * 2^e], infinity, or not a number.  Finite ones are kept with
    [2^52 <= m < 2^53] and [-1074 <= e <= 971], or [m < 2^52] and [e = -1074]. *)
Inductive flt := Fin (neg : bool) (m e : Z) | Inf (neg : bool) | NaN.
Definition pow2 (e : Z) : Q := Qpower 2 e.
(** A rational rounded to an integer, half to even. *)
Definition round (x : Q) : Z :=
  let f := Qfloor x in
  match Qcompare (x - inject_Z f) (1 # 2) with
  | Lt => f
  | Gt => f + 1
  | Eq => if Z.even f then f else f + 1
  end.
(** The exponent of the power of two below a positive rational. *)
Definition flog (x : Q) : Z :=
  let l := Z.log2 (Qnum x) - Z.log2 (Zpos (Qden x)) in
  if Qle_bool (pow2 l) x then l else l - 1.
(** The float nearest to a rational that is not negative. *)
Definition nearest (x : Q) : flt :=
  if Qnum x =? 0 then Fin false 0 (-1074) else
  let e := Z.max (-1074) (flog x - 52) in
  let m := round (x / pow2 e) in
  let (m, e) := if m =? 2 ^ 53 then (2 ^ 52, e + 1) else (m, e) in
  if 971 <? e then Inf false else Fin false m e.

(** The number that digits with at most one dot stand for. *)
Definition decimal (t : str) : Q :=
  match find (u ".") t with
  | None => inject_Z (Z.of_N (digits_val t))
  | Some k => Z.of_N (digits_val (firstn k t ++ skipn (S k) t)) # Z.to_pos (10 ^ Z.of_nat (length (skipn (S k) t)))
  end.
(** [float(t)] for a text of that form with a digit after the dot. *)
Definition read (t : str) : flt := nearest (decimal t).

(** [n] digits, the last ones of a number. *)
Fixpoint pad (n : nat) (k : N) : str :=
  match n with O => [] | S n' => pad n' (k / 10) ++ [48 + k mod 10]%N end.
(** [f"{v:0.20f}"] of a finite float. *)
Definition fixed20 (neg : bool) (m e : Z) : str :=
  let k := round (inject_Z m * pow2 e * inject_Z (10 ^ 20)) in
  (if neg then u "-" else []) ++ dec (Z.to_N (k / 10 ^ 20)) ++ u "." ++ pad 20 (Z.to_N (k mod 10 ^ 20)).
(** _path_transformers.py:74-79 [normalise]; [None] is an AssertionError.  A negative zero is not below zero. *)
Definition write (v : flt) : option str :=
  match v with
  | Fin neg m e =>
      if neg && negb (m =? 0) then None
      else Some (rstrip_by (N.eqb 46) (rstrip_by (N.eqb 48) (fixed20 neg m e)))
  | _ => None
  end.
