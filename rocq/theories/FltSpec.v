(** Specification for [FltModel]. *)
From Coq Require Import QArith.
From Verif Require Import PyStr.

(** The number a finite float stands for, without its sign. *)
Definition value (m e : Z) : Q := inject_Z m * Qpower 2 e.
(** The finite binary64 floats: 53 significant bits, and exponents from -1074 to 971. *)
Definition is_float (m e : Z) : Prop := (0 <= m < 2 ^ 53 /\ -1074 <= e <= 971 /\ (2 ^ 52 <= m \/ e = -1074))%Z.
(** Floats that 20 decimals tell apart from the others: from 2^-13 on, or with at most 20 decimals. *)
Definition told_apart (m e : Z) : Prop :=
  1 # 8192 <= value m e \/ exists k, value m e * inject_Z (10 ^ 20) == inject_Z k.
(** The number that the digits [i], a dot and the digits [f] stand for. *)
Definition stands_for (i f : str) (x : Q) : Prop :=
  x * inject_Z (10 ^ Z.of_nat (length f)) == inject_Z (Z.of_N (digits_val (i ++ f))).
(** At most half a unit in the last place off. *)
Definition rounded (x : Q) (m e : Z) : Prop := - Qpower 2 (e - 1) <= x - value m e <= Qpower 2 (e - 1).
