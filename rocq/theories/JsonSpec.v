(** JSON texts as RFC 8259 defines them, independent of the model of the reader and the writer. *)
From Verif Require Import PyStr Utf8 JsonModel.
Local Open Scope N_scope.

(** Section 2: insignificant whitespace. *)
Definition ws (w : str) : Prop := forall c, In c w -> In c [32; 9; 10; 13].

(** Section 7: a character and a way to write it. *)
Definition hex_digit (c v : N) : Prop := (48 <= c <= 57 /\ v = c - 48) \/ (65 <= c <= 70 /\ v = c - 55) \/ (97 <= c <= 102 /\ v = c - 87).
Definition four_hex (t : str) (v : N) : Prop :=
  exists a b c d w x y z, t = [a; b; c; d] /\ hex_digit a w /\ hex_digit b x /\ hex_digit c y /\ hex_digit d z /\ v = w * 4096 + x * 256 + y * 16 + z.
(** The grammar of the RFC, and with [lax] the one of Python's reader, which adds half surrogate pairs and three words. *)
Section Grammar.
Context (lax : bool).
Inductive writes : N -> str -> Prop :=
  | unescaped c : scalar c -> 32 <= c -> c <> 34 -> c <> 92 -> writes c [c]
  | escaped c e : In (c, e) [(34, 34); (92, 92); (47, 47); (8, 98); (12, 102); (10, 110); (13, 114); (9, 116)] -> writes c [92; e]
  | one_unit c t : scalar c -> four_hex t c -> writes c ([92; 117] ++ t)
  | two_units c t1 t2 h l : 55296 <= h < 56320 -> 56320 <= l < 57344 -> four_hex t1 h -> four_hex t2 l ->
      c = 65536 + (h - 55296) * 1024 + (l - 56320) -> writes c ([92; 117] ++ t1 ++ [92; 117] ++ t2)
  | half_raw c : lax = true -> ~ scalar c -> writes c [c]
  | half_unit c t : lax = true -> 55296 <= c < 57344 -> four_hex t c -> writes c ([92; 117] ++ t).
Inductive chars : str -> str -> Prop :=
  | no_chars : chars [] []
  | more_chars c t s r : writes c t -> chars s r -> chars (c :: s) (t ++ r).
Definition string (s t : str) : Prop := exists r, chars s r /\ t = [34] ++ r ++ [34].

(** Section 6: numbers. *)
Definition digit (c : N) : Prop := 48 <= c <= 57.
Definition int_part (t : str) : Prop := t = [48] \/ exists c r, t = c :: r /\ 49 <= c <= 57 /\ Forall digit r.
Definition frac_part (t : str) : Prop := exists r, t = 46 :: r /\ r <> [] /\ Forall digit r.
Definition exp_part (t : str) : Prop :=
  exists e sign r, t = [e] ++ sign ++ r /\ In e [101; 69] /\ In sign [[]; [43]; [45]] /\ r <> [] /\ Forall digit r.
Definition float_literal (t : str) : Prop :=
  exists sign i f e, t = sign ++ i ++ f ++ e /\ In sign [[]; [45]] /\ int_part i /\ (f = [] \/ frac_part f) /\ (e = [] \/ exp_part e) /\ f ++ e <> [].
Fixpoint decimal (acc : N) (t : str) : N := match t with [] => acc | c :: r => decimal (acc * 10 + (c - 48)) r end.

(** Sections 3 to 5: values.  Of several members with one name the last one counts. *)
Inductive denotes : jvalue -> str -> Prop :=
  | d_null : denotes JNull (u "null")
  | d_true : denotes (JBool true) (u "true")
  | d_false : denotes (JBool false) (u "false")
  | d_int i : int_part i -> denotes (JInt (Z.of_N (decimal 0 i))) i
  | d_negative i : int_part i -> denotes (JInt (- Z.of_N (decimal 0 i))) ([45] ++ i)
  | d_float t : float_literal t -> denotes (JFloat t) t
  | d_constant t : lax = true -> In t [u "NaN"; u "Infinity"; u "-Infinity"] -> denotes (JFloat t) t
  | d_string s t : string s t -> denotes (JStr s) t
  | d_no_array w : ws w -> denotes (JArr []) (u "[" ++ w ++ u "]")
  | d_array w l t : ws w -> items l t -> denotes (JArr l) (u "[" ++ w ++ t ++ u "]")
  | d_no_object w : ws w -> denotes (JObj []) (u "{" ++ w ++ u "}")
  | d_object w l t : ws w -> pairs l t -> denotes (JObj (dupdate [] l)) (u "{" ++ w ++ t ++ u "}")
with items : list jvalue -> str -> Prop :=
  | i_last v t w : denotes v t -> ws w -> items [v] (t ++ w)
  | i_more v t w1 w2 l r : denotes v t -> ws w1 -> ws w2 -> items l r -> items (v :: l) (t ++ w1 ++ u "," ++ w2 ++ r)
with pairs : list (str * jvalue) -> str -> Prop :=
  | p_last k kt v t w1 w2 w3 : string k kt -> denotes v t -> ws w1 -> ws w2 -> ws w3 -> pairs [(k, v)] (kt ++ w1 ++ u ":" ++ w2 ++ t ++ w3)
  | p_more k kt v t w1 w2 w3 w4 l r : string k kt -> denotes v t -> ws w1 -> ws w2 -> ws w3 -> ws w4 -> pairs l r ->
      pairs ((k, v) :: l) (kt ++ w1 ++ u ":" ++ w2 ++ t ++ w3 ++ u "," ++ w4 ++ r).
(** A JSON text for a value. *)
Definition json (v : jvalue) (s : str) : Prop := exists w1 t w2, ws w1 /\ ws w2 /\ denotes v t /\ s = w1 ++ t ++ w2.
End Grammar.

(** How Python's values are represented: texts by code points, floats by their literals, dicts with distinct keys. *)
Definition points (s : str) : Prop := forall c, In c s -> c < 1114112.
Fixpoint proper (v : jvalue) : Prop :=
  match v with
  | JFloat t => float_literal t \/ In t [u "NaN"; u "Infinity"; u "-Infinity"]
  | JStr s => points s
  | JArr l => fold_right and True (map proper l)
  | JObj l => NoDup (map fst l) /\ fold_right and True (map (fun e => points (fst e) /\ proper (snd e)) l)
  | _ => True
  end.
(** The values that have a JSON text: no text in them has half a surrogate pair, and their floats are numbers. *)
Definition unicode (s : str) : Prop := forall c, In c s -> ~ 55296 <= c <= 57343.
Fixpoint presentable (v : jvalue) : Prop :=
  match v with
  | JNull | JBool _ | JInt _ => True
  | JFloat t => ~ In t [u "NaN"; u "Infinity"; u "-Infinity"]
  | JStr s => unicode s
  | JArr l => fold_right and True (map presentable l)
  | JObj l => fold_right and True (map (fun e => unicode (fst e) /\ presentable (snd e)) l)
  end.
