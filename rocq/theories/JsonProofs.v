(** Proofs about JSON. *)
From Coq Require Import ZArith Lia ZifyN ZifyBool.
From Verif Require Import PyStr PyStrFacts Utf8 JsonModel JsonSpec.
Ltac Zify.zify_post_hook ::= Z.div_mod_to_equations.
Local Open Scope N_scope.

(** ** Strings *)
Lemma hexval_digit c v : hex_digit c v -> hexval c = Some v.
Proof.
  unfold hex_digit, hexval, between. intros [[A ->]|[[A ->]|[A ->]]];
    repeat match goal with |- context [if ?b then _ else _] => destruct b eqn:? end; try reflexivity; f_equal; lia.
Qed.
Lemma hex4_four t v : four_hex t v -> exists a b c d, t = [a; b; c; d] /\ hex4 a b c d = Some v.
Proof.
  intros (a & b & c & d & w & x & y & z & -> & A & B & C & D & ->). exists a, b, c, d. split; [reflexivity|]. unfold hex4.
  rewrite (hexval_digit _ _ A), (hexval_digit _ _ B), (hexval_digit _ _ C), (hexval_digit _ _ D). f_equal. lia.
Qed.
Lemma scan_writes c t rest : writes false c t -> scan_string (t ++ rest) = add c (scan_string rest).
Proof.
  intros W. destruct W as [c SC L N1 N2 | c e I | c t SC F | c t1 t2 h l H L F1 F2 -> | c LX | c t LX]; try discriminate LX.
  - cbn [app scan_string]. destruct (N.eqb_spec c 34); [contradiction|]. destruct (N.ltb_spec c 32); [lia|]. destruct (N.eqb_spec c 92); [contradiction | reflexivity].
  - cbn [In] in I. repeat (destruct I as [I|I]; [injection I as <- <-; reflexivity|]). destruct I.
  - destruct (hex4_four _ _ F) as (a1 & a2 & a3 & a4 & -> & E). cbn [app scan_string N.eqb Pos.eqb N.ltb N.compare Pos.compare Pos.compare_cont]. rewrite E.
    assert (X : high c = false) by (unfold high, between; unfold scalar in SC; lia). rewrite X. reflexivity.
  - destruct (hex4_four _ _ F1) as (a1 & a2 & a3 & a4 & -> & E1). destruct (hex4_four _ _ F2) as (b1 & b2 & b3 & b4 & -> & E2).
    cbn [app scan_string N.eqb Pos.eqb N.ltb N.compare Pos.compare Pos.compare_cont andb]. rewrite E1, E2.
    assert (X : high h = true) by (unfold high, between; lia). assert (Y : low l = true) by (unfold low, between; lia). rewrite X, Y. reflexivity.
Qed.
Lemma scan_chars s r rest : chars false s r -> scan_string (r ++ 34 :: rest) = Some (s, rest).
Proof.
  intros C. induction C as [|c t s r W C IH]; [reflexivity|]. rewrite <- app_assoc, (scan_writes c t _ W), IH. reflexivity.
Qed.

(** ** Whitespace *)
Lemma ws_is w : ws w <-> forallb is_ws w = true.
Proof.
  unfold ws. rewrite forallb_forall. split; intros H c I; specialize (H c I).
  - unfold is_ws. cbn [In] in H. lia.
  - unfold is_ws in H. cbn [In]. lia.
Qed.
Lemma skip_ws w r : ws w -> skip (w ++ r) = skip r.
Proof. intros W. apply lstrip_by_app, ws_is, W. Qed.
Definition solid (s : str) : Prop := match s with c :: _ => is_ws c = false | [] => True end.
Lemma skip_solid s : solid s -> skip s = s.
Proof. intros H. apply lstrip_by_id. destruct s; [exact I | exact H]. Qed.
Lemma skip_split s : exists w, ws w /\ s = w ++ skip s.
Proof.
  destruct (lstrip_by_decomp is_ws s) as (w & E & F & _). exists w. split; [apply ws_is; exact F | exact E].
Qed.

(** ** Numbers *)
Definition no_digit (s : str) : Prop := match s with c :: _ => is_digit c = false | [] => True end.
(** What may follow a value. *)
Definition stops (s : str) : Prop := match s with c :: _ => is_digit c = false /\ c <> 46 /\ c <> 101 /\ c <> 69 | [] => True end.
Lemma digit_is c : digit c <-> is_digit c = true.
Proof. unfold digit, is_digit. lia. Qed.
Lemma digits_app d r : Forall digit d -> no_digit r -> digits (d ++ r) = (d, r).
Proof.
  intros F S. induction F as [|c d D F IH]; cbn [app digits].
  - destruct r as [|c r]; [reflexivity|]. cbn [digits]. cbn [no_digit] in S. now rewrite S.
  - apply digit_is in D. rewrite D, IH. reflexivity.
Qed.
Lemma stops_no_digit s : stops s -> no_digit s.
Proof. destruct s; [easy|]. intros [H _]. exact H. Qed.
Lemma fraction_none s : (forall c r, s = c :: r -> c <> 46) -> fraction s = ([], s).
Proof. destruct s as [|c r]; [reflexivity|]. intros H. cbn. destruct (N.eqb_spec c 46); [destruct (H c r eq_refl); assumption | reflexivity]. Qed.
Lemma exponent_none s : (forall c r, s = c :: r -> c <> 101 /\ c <> 69) -> exponent s = ([], s).
Proof.
  destruct s as [|c r]; [reflexivity|]. intros H. destruct (H c r eq_refl) as [A B]. cbn.
  destruct (N.eqb_spec c 101); [contradiction|]. destruct (N.eqb_spec c 69); [contradiction | reflexivity].
Qed.
Lemma whole_app i r : int_part i -> no_digit r -> whole (i ++ r) = Some (i, r).
Proof.
  intros [-> | (c & d & -> & C & F)] S; [reflexivity|]. unfold whole. cbn [app].
  destruct (N.eqb_spec c 48); [lia|]. assert (D : is_digit c = true) by (unfold is_digit; lia). rewrite D.
  change (c :: d ++ r) with ((c :: d) ++ r). rewrite digits_app; [reflexivity| |exact S]. constructor; [unfold digit; lia | exact F].
Qed.
Lemma fraction_app f r : frac_part f -> no_digit r -> fraction (f ++ r) = (f, r).
Proof.
  intros (d & -> & NE & F) S. cbn [app fraction N.eqb Pos.eqb]. rewrite digits_app by assumption. destruct d; [contradiction | reflexivity].
Qed.
Lemma exponent_app e r : exp_part e -> no_digit r -> exponent (e ++ r) = (e, r).
Proof.
  intros (c & sign & d & -> & C & SI & NE & F) S.
  assert (E : (c =? 101) || (c =? 69) = true) by (cbn [In] in C; lia).
  cbn [app exponent]. rewrite E. cbn [In] in SI. destruct SI as [<-|[<-|[<-|[]]]].
  - cbn [app]. destruct d as [|g d]; [contradiction|]. cbn [app].
    assert (G : (g =? 43) || (g =? 45) = false) by (inversion F; unfold digit in *; lia). rewrite G.
    change (g :: d ++ r) with ((g :: d) ++ r). rewrite digits_app by assumption. reflexivity.
  - cbn [app N.eqb Pos.eqb orb]. rewrite digits_app by assumption. destruct d; [contradiction | reflexivity].
  - cbn [app N.eqb Pos.eqb orb]. rewrite digits_app by assumption. destruct d; [contradiction | reflexivity].
Qed.
Lemma int_head i : int_part i -> exists c r, i = c :: r /\ is_digit c = true.
Proof. intros [-> | (c & d & -> & C & _)]; [exists 48, []; now split | exists c, d; split; [reflexivity | unfold is_digit; lia]]. Qed.
Lemma sign_cut sign i r : In sign [[]; [45]] -> int_part i ->
  (match sign ++ i ++ r with c :: r' => if c =? 45 then ([45], r') else ([], sign ++ i ++ r) | [] => ([], []) end) = (sign, i ++ r).
Proof.
  intros I P. destruct (int_head i P) as (c & d & -> & C). cbn [In] in I. destruct I as [<-|[<-|[]]]; cbn [app].
  - destruct (N.eqb_spec c 45); [subst; discriminate C | reflexivity].
  - reflexivity.
Qed.
Lemma number_int sign i r : In sign [[]; [45]] -> int_part i -> stops r ->
  number (sign ++ i ++ r) = Some (JInt (match sign with [] => Z.of_N (digits_val i) | _ => - Z.of_N (digits_val i) end), r).
Proof.
  intros I P S. unfold number. rewrite sign_cut by assumption. rewrite whole_app by (auto using stops_no_digit).
  rewrite fraction_none, exponent_none; [reflexivity| |]; intros c t ->; cbn [stops] in S; tauto.
Qed.
Lemma number_float t r : float_literal t -> stops r -> number (t ++ r) = Some (JFloat t, r).
Proof.
  intros (sign & i & f & e & -> & I & P & F & E & NE) S. unfold number. rewrite <- !app_assoc. rewrite sign_cut by assumption.
  assert (EH : no_digit (e ++ r) /\ forall c t, e ++ r = c :: t -> c <> 46).
  { destruct E as [-> | (c & sg & d & -> & C & _)].
    - split; [apply stops_no_digit, S|]. intros c t X. cbn [app] in X. subst r. cbn [stops] in S. tauto.
    - cbn [app]. cbn [In] in C. split; [cbn; unfold is_digit; lia|]. intros c' t [= <- _]. lia. }
  assert (FH : no_digit (f ++ e ++ r)).
  { destruct F as [-> | (d & -> & _)]; [apply EH | reflexivity]. }
  rewrite whole_app by assumption.
  assert (X : fraction (f ++ e ++ r) = (f, e ++ r)).
  { destruct F as [-> | F]; [apply fraction_none; apply EH | apply fraction_app; [exact F | apply EH]]. }
  rewrite X. assert (Y : exponent (e ++ r) = (e, r)).
  { destruct E as [-> | E]; [apply exponent_none; intros c t ->; cbn [stops] in S; tauto | apply exponent_app; [exact E | apply stops_no_digit, S]]. }
  rewrite Y. destruct f as [|? ?]; [destruct e as [|? ?]; [contradiction NE; reflexivity|]|]; reflexivity.
Qed.
Lemma decimal_val t : forall a, decimal a t = fold_left (fun acc c => acc * 10 + (c - 48)) t a.
Proof. induction t as [|c t IH]; intros a; [reflexivity | apply IH]. Qed.

(** ** Values *)
Scheme denotes_mut := Induction for denotes Sort Prop with items_mut := Induction for items Sort Prop with pairs_mut := Induction for pairs Sort Prop.
Combined Scheme json_mut from denotes_mut, items_mut, pairs_mut.
Definition begins (s : str) : Prop :=
  match s with c :: _ => is_ws c = false /\ c <> 93 /\ c <> 125 /\ c <> 44 /\ c <> 58 | [] => False end.
Lemma digit_begins c r : is_digit c = true -> begins (c :: r).
Proof. unfold is_digit, begins, is_ws. lia. Qed.
Lemma denotes_begins v t : denotes false v t -> begins t.
Proof.
  destruct 1 as [| | |i P|i P|t (sign & i & f & e & -> & I & P & _)|t LX|s t (r & _ & ->)| | | | ]; try discriminate LX; try (cbn; repeat split; (discriminate || reflexivity)).
  - destruct (int_head i P) as (c & d & -> & C). now apply digit_begins.
  - destruct (int_head i P) as (c & d & -> & C). cbn [In] in I. destruct I as [<-|[<-|[]]]; cbn [app]; [now apply digit_begins | cbn; repeat split; (discriminate || reflexivity)].
Qed.
Lemma begins_solid t r : begins t -> solid (t ++ r).
Proof. destruct t; [easy|]. intros [H _]. exact H. Qed.
Lemma begins_head t r d : begins t -> In d [93; 125] -> (head (t ++ r) =? d) = false.
Proof. destruct t as [|c t]; [easy|]. intros (_ & A & B & _) I. cbn [app head]. cbn [In] in I. lia. Qed.
Lemma word_digit w v c r : is_digit c = true \/ c = 45 -> match w with x :: _ => is_digit x = false /\ x <> 45 | [] => False end -> word w v (c :: r) = None.
Proof.
  intros C W. destruct w as [|x w]; [easy|]. unfold word. cbn [prefixb]. destruct (N.eqb_spec x c) as [->|]; [|reflexivity].
  destruct W as [W1 W2]. destruct C; congruence.
Qed.
Lemma value_number n s v r : (exists c s', s = c :: s' /\ (is_digit c = true \/ c = 45)) -> number s = Some (v, r) -> value (S n) s = Some (v, r).
Proof.
  intros (c & s' & -> & C) E. cbn [value].
  assert (X : (c =? 34) = false /\ (c =? 123) = false /\ (c =? 91) = false) by (unfold is_digit in C; lia). destruct X as (-> & -> & ->).
  rewrite !word_digit by (assumption || (split; [reflexivity | discriminate])). cbn [either]. rewrite E. reflexivity.
Qed.
Lemma stops_ws w c r : ws w -> In c [44; 93; 125] -> stops (w ++ c :: r).
Proof.
  intros W I. destruct w as [|x w]; cbn [app stops].
  - cbn [In] in I. unfold is_digit. lia.
  - specialize (W x (or_introl eq_refl)). cbn [In] in W. unfold is_digit. lia.
Qed.
Lemma items_begins l t : items false l t -> begins t.
Proof. destruct 1 as [v t w D _|v t w1 w2 l r D _ _ _]; apply denotes_begins in D; (destruct t; [easy | exact D]). Qed.
Lemma pairs_begins l t : pairs false l t -> exists r, t = 34 :: r.
Proof. destruct 1 as [k kt v t w1 w2 w3 (r & _ & ->)|k kt v t w1 w2 w3 w4 l r0 (r & _ & ->)]; eexists; reflexivity. Qed.
Lemma head_ws w c r : ws w -> solid (c :: r) -> skip (w ++ c :: r) = c :: r.
Proof. intros W S. rewrite skip_ws by exact W. now apply skip_solid. Qed.

Lemma read_all :
  (forall v t, denotes false v t -> forall n rest, stops rest -> (length t <= n)%nat -> value n (t ++ rest) = Some (v, rest)) /\
  (forall l t, items false l t -> forall n rest, (length t < n)%nat -> elements n (t ++ 93 :: rest) = Some (l, rest)) /\
  (forall l t, pairs false l t -> forall n rest, (length t < n)%nat -> members n (t ++ 125 :: rest) = Some (l, rest)).
Proof.
  apply json_mut.
  - intros [|n] rest _ L; [cbn in L; lia | reflexivity].
  - intros [|n] rest _ L; [cbn in L; lia | reflexivity].
  - intros [|n] rest _ L; [cbn in L; lia | reflexivity].
  - intros i P n rest S L. destruct (int_head i P) as (c & d & E & C). destruct n as [|n]; [subst i; cbn in L; lia|].
    apply value_number; [exists c, (d ++ rest); subst i; auto|].
    assert (X := number_int [] i rest (or_introl eq_refl) P S). cbn [app] in X. rewrite X, decimal_val. reflexivity.
  - intros i P n rest S L. destruct n as [|n]; [cbn in L; lia|].
    apply value_number; [exists 45, (i ++ rest); auto|].
    assert (X := number_int [45] i rest (or_intror (or_introl eq_refl)) P S). rewrite <- app_assoc, X, decimal_val. reflexivity.
  - intros t F n rest S L. destruct n as [|n]; [destruct t; [|cbn in L; lia]|].
    + destruct F as (sg & i & f & e & E & _ & P & _). destruct (int_head i P) as (c & d & -> & C). destruct sg; discriminate E.
    + apply value_number; [|now apply number_float]. destruct F as (sg & i & f & e & -> & I & P & _). destruct (int_head i P) as (c & d & -> & C).
      cbn [In] in I. destruct I as [<-|[<-|[]]]; eexists; eexists; (split; [reflexivity | auto]).
  - intros t LX. discriminate LX.
  - intros s t (r & C & ->) n rest _ L. destruct n as [|n]; [cbn in L; lia|]. cbn [app value N.eqb Pos.eqb].
    rewrite <- app_assoc. cbn [app]. rewrite (scan_chars s r rest C). reflexivity.
  - intros w W n rest _ L. destruct n as [|n]; [cbn in L; lia|]. change ((u "[" ++ w ++ u "]") ++ rest) with (91 :: (w ++ u "]") ++ rest).
    cbn [value N.eqb Pos.eqb]. rewrite <- app_assoc. change (u "]" ++ rest) with (93 :: rest). rewrite head_ws by (auto; reflexivity). reflexivity.
  - intros w l t W IT IH n rest _ L. destruct n as [|n]; [cbn in L; lia|].
    change ((u "[" ++ w ++ t ++ u "]") ++ rest) with (91 :: (w ++ t ++ u "]") ++ rest). cbn [value N.eqb Pos.eqb].
    rewrite <- !app_assoc. change (u "]" ++ rest) with (93 :: rest). rewrite skip_ws by exact W.
    pose proof (items_begins l t IT) as B. rewrite skip_solid by (apply begins_solid, B). rewrite (begins_head t _ 93 B) by (cbn; auto).
    rewrite IH; [reflexivity|]. rewrite !app_length in L. cbn [length u] in L. change (length (u "[")) with 1%nat in L. change (length (u "]")) with 1%nat in L. lia.
  - intros w W n rest _ L. destruct n as [|n]; [cbn in L; lia|]. change ((u "{" ++ w ++ u "}") ++ rest) with (123 :: (w ++ u "}") ++ rest).
    cbn [value N.eqb Pos.eqb]. rewrite <- app_assoc. change (u "}" ++ rest) with (125 :: rest). rewrite head_ws by (auto; reflexivity). reflexivity.
  - intros w l t W IT IH n rest _ L. destruct n as [|n]; [cbn in L; lia|].
    change ((u "{" ++ w ++ t ++ u "}") ++ rest) with (123 :: (w ++ t ++ u "}") ++ rest). cbn [value N.eqb Pos.eqb].
    rewrite <- !app_assoc. change (u "}" ++ rest) with (125 :: rest). rewrite skip_ws by exact W.
    destruct (pairs_begins l t IT) as (t' & E). rewrite skip_solid by (subst t; reflexivity).
    assert (B : (head (t ++ 125 :: rest) =? 125) = false) by (subst t; reflexivity). rewrite B.
    rewrite IH; [reflexivity|]. rewrite !app_length in L. change (length (u "{")) with 1%nat in L. change (length (u "}")) with 1%nat in L. lia.
  - intros v t w D IH W n rest L. destruct n as [|n]; [lia|]. cbn [elements]. rewrite app_length in L. rewrite <- app_assoc.
    rewrite IH; [|apply stops_ws; [exact W | cbn; auto] | lia]. cbv zeta. rewrite head_ws by (auto; reflexivity). reflexivity.
  - intros v t w1 w2 l r D IH W1 W2 IT IH2 n rest L. destruct n as [|n]; [lia|]. cbn [elements]. rewrite !app_length in L. change (length (u ",")) with 1%nat in L.
    rewrite <- !app_assoc. change (u "," ++ w2 ++ r ++ 93 :: rest) with (44 :: w2 ++ r ++ 93 :: rest).
    rewrite IH; [|apply stops_ws; [exact W1 | cbn; auto] | lia]. cbv zeta. rewrite head_ws by (auto; reflexivity). cbn [head tl N.eqb Pos.eqb].
    rewrite skip_ws by exact W2. rewrite skip_solid by (apply begins_solid, (items_begins l r IT)). rewrite IH2 by lia. reflexivity.
  - intros k kt v t w1 w2 w3 (kr & KC & ->) D IH W1 W2 W3 n rest L. destruct n as [|n]; [lia|].
    rewrite !app_length in L. change (length (u ":")) with 1%nat in L. rewrite <- !app_assoc.
    cbn [app members head tl N.eqb Pos.eqb]. change (u ":" ++ w2 ++ t ++ w3 ++ 125 :: rest) with (58 :: w2 ++ t ++ w3 ++ 125 :: rest).
    rewrite (scan_chars k kr _ KC). rewrite head_ws by (auto; reflexivity). cbn [head tl N.eqb Pos.eqb].
    rewrite skip_ws by exact W2. rewrite skip_solid by (apply begins_solid, (denotes_begins v t D)).
    rewrite IH; [|apply stops_ws; [exact W3 | cbn; auto] | lia]. cbv zeta. rewrite head_ws by (auto; reflexivity). reflexivity.
  - intros k kt v t w1 w2 w3 w4 l r (kr & KC & ->) D IH W1 W2 W3 W4 IT IH2 n rest L. destruct n as [|n]; [lia|].
    rewrite !app_length in L. change (length (u ":")) with 1%nat in L. change (length (u ",")) with 1%nat in L. rewrite <- !app_assoc.
    cbn [app members head tl N.eqb Pos.eqb]. change (u ":" ++ w2 ++ t ++ w3 ++ u "," ++ w4 ++ r ++ 125 :: rest) with (58 :: w2 ++ t ++ w3 ++ 44 :: w4 ++ r ++ 125 :: rest).
    rewrite (scan_chars k kr _ KC). rewrite head_ws by (auto; reflexivity). cbn [head tl N.eqb Pos.eqb].
    rewrite skip_ws by exact W2. rewrite skip_solid by (apply begins_solid, (denotes_begins v t D)).
    rewrite IH; [|apply stops_ws; [exact W3 | cbn; auto] | lia]. cbv zeta. rewrite head_ws by (auto; reflexivity). cbn [head tl N.eqb Pos.eqb].
    destruct (pairs_begins l r IT) as (r' & E). rewrite skip_ws by exact W4. rewrite skip_solid by (subst r; reflexivity). rewrite IH2 by lia. reflexivity.
Qed.
Lemma loads_json v s : json false v s -> loads s = Some v.
Proof.
  intros (w1 & t & w2 & W1 & W2 & D & ->). unfold loads. rewrite skip_ws by exact W1.
  rewrite skip_solid by (apply begins_solid, (denotes_begins v t D)).
  destruct read_all as (R & _). rewrite (R v t D).
  - rewrite <- (app_nil_r w2), skip_ws by exact W2. reflexivity.
  - destruct w2 as [|c w2]; [exact I|]. specialize (W2 c (or_introl eq_refl)). cbn [In] in W2. cbn [stops]. unfold is_digit. lia.
  - rewrite !app_length. lia.
Qed.

(** ** What is read is in the grammar of the reader *)
Lemma hexval_inv c v : hexval c = Some v -> hex_digit c v.
Proof.
  unfold hexval, between, hex_digit. repeat match goal with |- context [if ?b then _ else _] => destruct b eqn:? end; intros [= <-]; lia.
Qed.
Lemma hex4_inv a b c d v : hex4 a b c d = Some v -> four_hex [a; b; c; d] v /\ v < 65536.
Proof.
  unfold hex4. destruct (hexval a) as [w|] eqn:A, (hexval b) as [x|] eqn:B, (hexval c) as [y|] eqn:C, (hexval d) as [z|] eqn:D; try discriminate. intros [= <-].
  apply hexval_inv in A, B, C, D. split.
  - exists a, b, c, d, w, x, y, z. refine (conj eq_refl (conj A (conj B (conj C (conj D _))))). lia.
  - unfold hex_digit in *. lia.
Qed.
Lemma unescape_inv e x : unescape e = Some x -> In (x, e) [(34, 34); (92, 92); (47, 47); (8, 98); (12, 102); (10, 110); (13, 114); (9, 116)].
Proof.
  unfold unescape. repeat match goal with |- context [if ?b then _ else _] => destruct b eqn:? end; intros [= <-];
    repeat match goal with H : (_ =? _) = true |- _ => apply N.eqb_eq in H; subst end; cbn; auto 10.
Qed.
Lemma unit_writes a1 a2 a3 a4 h : hex4 a1 a2 a3 a4 = Some h -> writes true h [92; 117; a1; a2; a3; a4].
Proof.
  intros E. destruct (hex4_inv _ _ _ _ _ E) as [F L]. change [92; 117; a1; a2; a3; a4] with ([92; 117] ++ [a1; a2; a3; a4]).
  destruct (N.ltb_spec h 55296); [apply one_unit; [unfold scalar; lia | exact F]|].
  destruct (N.ltb_spec h 57344); [apply half_unit; [reflexivity | lia | exact F] | apply one_unit; [unfold scalar; lia | exact F]].
Qed.
Lemma add_some c o s r : add c o = Some (s, r) -> exists s', o = Some (s', r) /\ s = c :: s'.
Proof. destruct o as [[s' r']|]; [|discriminate]. intros [= <- <-]. exists s'. auto. Qed.
Definition scanned (s x r : str) : Prop := exists t, chars true x t /\ s = t ++ 34 :: r.
Lemma scanned_add c t s x r : writes true c t -> scanned s x r -> scanned (t ++ s) (c :: x) r.
Proof. intros W (t' & C & ->). exists (t ++ t'). split; [now constructor | apply app_assoc]. Qed.
Lemma scan_sound m : forall s x r, (length s <= m)%nat -> scan_string s = Some (x, r) -> scanned s x r.
Proof.
  induction m as [|m IH]; intros s x r L; destruct s as [|c s]; cbn [length] in L; try lia; try discriminate.
  cbn [scan_string]. destruct (N.eqb_spec c 34) as [->|N34].
  { intros [= <- <-]. exists []. split; [constructor | reflexivity]. }
  destruct (N.ltb_spec c 32) as [|L32]; [discriminate|].
  destruct (N.eqb_spec c 92) as [->|N92].
  2:{ intros E. apply add_some in E. destruct E as (s' & E & ->). apply (scanned_add c [c]); [|apply IH; [lia | exact E]].
      assert (DS : scalar c \/ ~ scalar c) by (unfold scalar; lia). destruct DS; [now apply unescaped | now apply half_raw]. }
  destruct s as [|e r1]; [discriminate|]. destruct (N.eqb_spec e 117) as [->|N117].
  2:{ destruct (unescape e) as [y|] eqn:U; [|discriminate]. intros E. apply add_some in E. destruct E as (s' & E & ->).
      apply (scanned_add y [92; e]); [apply escaped, unescape_inv, U | apply IH; [cbn [length] in L; lia | exact E]]. }
  destruct r1 as [|a1 [|a2 [|a3 [|a4 r2]]]]; try discriminate. destruct (hex4 a1 a2 a3 a4) as [h|] eqn:H; [|discriminate]. cbn [length] in L.
  assert (ONE : add h (scan_string r2) = Some (x, r) -> scanned (92 :: 117 :: a1 :: a2 :: a3 :: a4 :: r2) x r).
  { intros E. apply add_some in E. destruct E as (s' & E & ->). apply (scanned_add h [92; 117; a1; a2; a3; a4]); [apply unit_writes, H | apply IH; [lia | exact E]]. }
  destruct (high h) eqn:HI; [|exact ONE]. destruct r2 as [|b1 [|b2 r3]]; try exact ONE.
  destruct ((b1 =? 92) && (b2 =? 117)) eqn:B; [|exact ONE]. apply andb_true_iff in B. destruct B as [B1 B2]. apply N.eqb_eq in B1, B2. subst b1 b2.
  destruct r3 as [|c1 [|c2 [|c3 [|c4 r4]]]]; try discriminate. destruct (hex4 c1 c2 c3 c4) as [l|] eqn:HL; [|discriminate].
  destruct (low l) eqn:LO; [|exact ONE]. intros E. apply add_some in E. destruct E as (s' & E & ->).
  apply (scanned_add _ [92; 117; a1; a2; a3; a4; 92; 117; c1; c2; c3; c4]); [|apply IH; [cbn [length] in L; lia | exact E]].
  destruct (hex4_inv _ _ _ _ _ H) as [F1 _]. destruct (hex4_inv _ _ _ _ _ HL) as [F2 _].
  apply (two_units true _ [a1; a2; a3; a4] [c1; c2; c3; c4] h l); [unfold high, between in HI; lia | unfold low, between in LO; lia | exact F1 | exact F2 | reflexivity].
Qed.
Lemma string_sound s x r : scan_string s = Some (x, r) -> exists t, string true x t /\ 34 :: s = t ++ r.
Proof.
  intros E. destruct (scan_sound (length s) s x r (le_n _) E) as (t & C & ->). exists ([34] ++ t ++ [34]).
  split; [exists t; auto|]. cbn [app]. now rewrite <- app_assoc.
Qed.
Lemma digits_inv s : forall d t, digits s = (d, t) -> Forall digit d /\ s = d ++ t.
Proof.
  induction s as [|c s IH]; intros d t; cbn [digits]; [intros [= <- <-]; auto|].
  destruct (is_digit c) eqn:D; [|intros [= <- <-]; auto]. destruct (digits s) as [d' t'] eqn:E. intros [= <- <-].
  destruct (IH d' t' eq_refl) as [F ->]. split; [constructor; [now apply digit_is | exact F] | reflexivity].
Qed.
Lemma fraction_inv s f t : fraction s = (f, t) -> s = f ++ t /\ (f = [] \/ frac_part f).
Proof.
  destruct s as [|c s]; cbn [fraction]; [intros [= <- <-]; auto|]. destruct (N.eqb_spec c 46) as [->|]; [|intros [= <- <-]; auto].
  destruct (digits s) as [[|c d] t'] eqn:E; [intros [= <- <-]; auto|]. intros [= <- <-]. destruct (digits_inv _ _ _ E) as [F ->].
  split; [reflexivity|]. right. exists (c :: d). repeat split; [discriminate | exact F].
Qed.
Lemma exponent_inv s e t : exponent s = (e, t) -> s = e ++ t /\ (e = [] \/ exp_part e).
Proof.
  destruct s as [|c s]; cbn [exponent]; [intros [= <- <-]; auto|]. destruct ((c =? 101) || (c =? 69)) eqn:C; [|intros [= <- <-]; auto].
  assert (CI : In c [101; 69]) by (cbn; lia). destruct s as [|g s]; [intros [= <- <-]; auto|].
  destruct ((g =? 43) || (g =? 45)) eqn:G.
  - destruct (digits s) as [[|x d] t'] eqn:E; [intros [= <- <-]; auto|]. intros [= <- <-]. destruct (digits_inv _ _ _ E) as [F ->].
    split; [reflexivity|]. right. exists c, [g], (x :: d). refine (conj eq_refl (conj CI (conj _ (conj _ F)))); [|discriminate].
    assert (X : g = 43 \/ g = 45) by lia. destruct X as [-> | ->]; cbn; auto.
  - destruct (digits (g :: s)) as [[|x d] t'] eqn:E; [intros [= <- <-]; auto|]. intros [= <- <-]. destruct (digits_inv _ _ _ E) as [F X].
    split; [cbn [app] in *; now f_equal|]. right. exists c, [], (x :: d). refine (conj eq_refl (conj CI (conj _ (conj _ F)))); [cbn; auto | discriminate].
Qed.
Lemma whole_inv s i t : whole s = Some (i, t) -> s = i ++ t /\ int_part i.
Proof.
  destruct s as [|c s]; [discriminate|]. unfold whole. destruct (N.eqb_spec c 48) as [->|N48]; [intros [= <- <-]; split; [reflexivity | left; reflexivity]|].
  destruct (is_digit c) eqn:D; [|discriminate]. intros E0. assert (E : digits (c :: s) = (i, t)) by congruence. clear E0. destruct (digits_inv _ _ _ E) as [F X]. split; [exact X|]. right.
  cbn [digits] in E. rewrite D in E. destruct (digits s) as [d' t']. injection E as <- <-. inversion F; subst. exists c, d'. split; [reflexivity|].
  unfold is_digit in D. split; [lia | assumption].
Qed.
Lemma number_sound s v r : number s = Some (v, r) -> exists t, denotes true v t /\ s = t ++ r.
Proof.
  unfold number.
  assert (X : exists sign s', In sign [[]; [45]] /\ s = sign ++ s' /\ match s with c :: r0 => if c =? 45 then ([45], r0) else ([], s) | [] => ([], []) end = (sign, s')).
  { destruct s as [|c s]; [exists [], []; cbn; auto|].
    destruct (N.eqb_spec c 45) as [->|]; [exists [45], s | exists [], (c :: s)]; (split; [cbn; auto | split; reflexivity]). }
  destruct X as (sign & s' & SI & -> & ->). destruct (whole s') as [[i r1]|] eqn:W; [|discriminate].
  destruct (fraction r1) as [f r2] eqn:F. destruct (exponent r2) as [e r3] eqn:E. intros [= <- <-].
  destruct (whole_inv _ _ _ W) as [-> WI]. destruct (fraction_inv _ _ _ F) as [-> FI]. destruct (exponent_inv _ _ _ E) as [-> EI].
  exists (sign ++ i ++ f ++ e). split; [|now rewrite <- !app_assoc].
  assert (FL : f ++ e <> [] -> float_literal (sign ++ i ++ f ++ e)) by (intros NE; exists sign, i, f, e; auto 8).
  destruct f as [|f0 f]; [destruct e as [|e0 e]|]; [|apply d_float, FL; discriminate | apply d_float, FL; discriminate].
  rewrite !app_nil_r. cbn [In] in SI. destruct SI as [<-|[<-|[]]].
  - replace (digits_val i) with (decimal 0 i) by apply decimal_val. now apply d_int.
  - replace (digits_val i) with (decimal 0 i) by apply decimal_val. now apply d_negative.
Qed.
Lemma word_inv w v s x r : word w v s = Some (x, r) -> x = v /\ s = w ++ r.
Proof.
  unfold word. destruct (prefixb w s) eqn:P; [|discriminate]. intros [= <- <-]. apply prefixb_iff in P. destruct P as (t & ->).
  split; [reflexivity|]. now rewrite skipn_app, skipn_all, Nat.sub_diag.
Qed.
Lemma head_cut s c : (head s =? c) = true -> c <> 0 -> s = c :: tl s.
Proof. destruct s as [|d s]; cbn [head tl]; intros E N; apply N.eqb_eq in E; [congruence | now subst]. Qed.
Lemma sound_all n :
  (forall s v r, value n s = Some (v, r) -> exists t, denotes true v t /\ s = t ++ r) /\
  (forall s l r, elements n s = Some (l, r) -> exists t, items true l t /\ s = t ++ 93 :: r) /\
  (forall s l r, members n s = Some (l, r) -> exists t, pairs true l t /\ s = t ++ 125 :: r).
Proof.
  induction n as [|n (IV & IE & IM)]; [repeat split; discriminate|]. refine (conj _ (conj _ _)).
  - intros [|c s] v r; [discriminate|]. cbn [value]. destruct (N.eqb_spec c 34) as [->|N34].
    { destruct (scan_string s) as [[x t]|] eqn:E; [|discriminate]. intros [= <- <-]. destruct (string_sound _ _ _ E) as (t' & ST & X). exists t'. split; [now apply d_string | exact X]. }
    destruct (skip_split s) as (w & W & SW). destruct (N.eqb_spec c 123) as [->|N123].
    { destruct (head (skip s) =? 125) eqn:H.
      - intros [= <- <-]. apply head_cut in H; [|discriminate]. exists (u "{" ++ w ++ u "}"). split; [now apply d_no_object|].
        rewrite SW at 1. rewrite H. change (u "{" ++ w ++ u "}") with (123 :: w ++ [125]). cbn [app]. now rewrite <- app_assoc.
      - destruct (members n (skip s)) as [[l t]|] eqn:E; [|discriminate]. intros [= <- <-]. destruct (IM _ _ _ E) as (t' & P & X).
        exists (u "{" ++ w ++ t' ++ u "}"). split; [now apply d_object|]. rewrite SW at 1. rewrite X. change (u "{" ++ w ++ t' ++ u "}") with (123 :: w ++ t' ++ [125]).
        cbn [app]. now rewrite <- !app_assoc. }
    destruct (N.eqb_spec c 91) as [->|N91].
    { destruct (head (skip s) =? 93) eqn:H.
      - intros [= <- <-]. apply head_cut in H; [|discriminate]. exists (u "[" ++ w ++ u "]"). split; [now apply d_no_array|].
        rewrite SW at 1. rewrite H. change (u "[" ++ w ++ u "]") with (91 :: w ++ [93]). cbn [app]. now rewrite <- app_assoc.
      - destruct (elements n (skip s)) as [[l t]|] eqn:E; [|discriminate]. intros [= <- <-]. destruct (IE _ _ _ E) as (t' & P & X).
        exists (u "[" ++ w ++ t' ++ u "]"). split; [now apply d_array|]. rewrite SW at 1. rewrite X. change (u "[" ++ w ++ t' ++ u "]") with (91 :: w ++ t' ++ [93]).
        cbn [app]. now rewrite <- !app_assoc. }
    clear SW W w N34 N123 N91 IV IE IM. set (z := c :: s). clearbody z.
    assert (CUT : forall w x o, (word w x z = Some (v, r) -> exists t, denotes true v t /\ z = t ++ r) -> (o = Some (v, r) -> exists t, denotes true v t /\ z = t ++ r) ->
                  either (word w x z) o = Some (v, r) -> exists t, denotes true v t /\ z = t ++ r).
    { intros w x o A B. destruct (word w x z) as [p|]; [exact A | exact B]. }
    assert (FIX : forall w x, denotes true x w -> word w x z = Some (v, r) -> exists t, denotes true v t /\ z = t ++ r).
    { intros w x D E. apply word_inv in E. destruct E as [-> ->]. exists w. auto. }
    apply CUT; [apply FIX, d_null|]. apply CUT; [apply FIX, d_true|]. apply CUT; [apply FIX, d_false|].
    intros E. destruct (number z) as [p|] eqn:NU; [cbn [either] in E; rewrite E in NU; now apply number_sound|]. cbn [either] in E. revert E.
    apply CUT; [apply FIX, d_constant; cbn; auto|]. apply CUT; [apply FIX, d_constant; cbn; auto|]. apply FIX, d_constant; cbn; auto.
  - intros s l r. cbn [elements]. destruct (value n s) as [[v r1]|] eqn:E; [|discriminate]. destruct (IV _ _ _ E) as (t & D & ->). cbv zeta.
    destruct (skip_split r1) as (w & W & SW). destruct (head (skip r1) =? 93) eqn:H.
    + intros [= <- <-]. apply head_cut in H; [|discriminate]. exists (t ++ w). split; [now apply i_last|]. rewrite SW at 1. rewrite H. now rewrite <- app_assoc.
    + destruct (head (skip r1) =? 44) eqn:C; [|discriminate]. apply head_cut in C; [|discriminate].
      destruct (elements n (skip (tl (skip r1)))) as [[l' t']|] eqn:E2; [|discriminate]. intros [= <- <-]. destruct (IE _ _ _ E2) as (t2 & IT & X).
      destruct (skip_split (tl (skip r1))) as (w2 & W2 & SW2). exists (t ++ w ++ u "," ++ w2 ++ t2). split; [now apply i_more|].
      rewrite SW at 1. rewrite C, SW2, X. rewrite <- !app_assoc. reflexivity.
  - intros s l r. cbn [members]. destruct (head s =? 34) eqn:Q; [|discriminate]. apply head_cut in Q; [|discriminate].
    destruct (scan_string (tl s)) as [[k r1]|] eqn:K; [|discriminate]. destruct (string_sound _ _ _ K) as (kt & KS & X). rewrite <- Q in X.
    destruct (skip_split r1) as (w1 & W1 & SW1). destruct (head (skip r1) =? 58) eqn:C; [|discriminate]. apply head_cut in C; [|discriminate].
    destruct (skip_split (tl (skip r1))) as (w2 & W2 & SW2).
    destruct (value n (skip (tl (skip r1)))) as [[v r2]|] eqn:E; [|discriminate]. destruct (IV _ _ _ E) as (t & D & X2). cbv zeta.
    destruct (skip_split r2) as (w3 & W3 & SW3). destruct (head (skip r2) =? 125) eqn:H.
    + intros [= <- <-]. apply head_cut in H; [|discriminate]. exists (kt ++ w1 ++ u ":" ++ w2 ++ t ++ w3). split; [now apply p_last|].
      rewrite X. rewrite SW1 at 1. rewrite C, SW2, X2. rewrite SW3 at 1. rewrite H. rewrite <- !app_assoc. reflexivity.
    + destruct (head (skip r2) =? 44) eqn:CO; [|discriminate]. apply head_cut in CO; [|discriminate].
      destruct (members n (skip (tl (skip r2)))) as [[l' t']|] eqn:E2; [|discriminate]. intros [= <- <-]. destruct (IM _ _ _ E2) as (t2 & IT & X3).
      destruct (skip_split (tl (skip r2))) as (w4 & W4 & SW4). exists (kt ++ w1 ++ u ":" ++ w2 ++ t ++ w3 ++ u "," ++ w4 ++ t2). split; [now apply p_more|].
      rewrite X. rewrite SW1 at 1. rewrite C, SW2, X2. rewrite SW3 at 1. rewrite CO, SW4, X3. rewrite <- !app_assoc. reflexivity.
Qed.
Lemma loads_sound s v : loads s = Some v -> json true v s.
Proof.
  unfold loads. destruct (value (length s) (skip s)) as [[v' r]|] eqn:E; [|discriminate]. destruct (skip r) eqn:S; [|discriminate]. intros [= <-].
  destruct (sound_all (length s)) as (IV & _). destruct (IV _ _ _ E) as (t & D & X).
  destruct (skip_split s) as (w1 & W1 & S1). destruct (skip_split r) as (w2 & W2 & S2). exists w1, t, w2.
  refine (conj W1 (conj W2 (conj D _))). rewrite S1, X, S2, S, app_nil_r. reflexivity.
Qed.

(** ** The writer *)
Lemma dec_head f : forall n acc, n <> 0 -> (N.to_nat (N.log2 n) < f)%nat -> exists c r, dec_aux f n acc = c :: r /\ 49 <= c <= 57.
Proof.
  induction f as [|f IH]; intros n acc N0 L; [lia|]. cbn [dec_aux]. destruct (N.eqb_spec (n / 10) 0) as [Z|Z].
  - exists (48 + n mod 10), acc. split; [reflexivity|]. lia.
  - apply IH; [exact Z|]. assert (X : N.log2 (n / 10) < N.log2 n).
    { assert (A : 2 * (n / 10) <= n) by lia. apply N.log2_le_mono in A. rewrite N.log2_double in A by lia. lia. }
    lia.
Qed.
Lemma dec_int n : int_part (dec n).
Proof.
  destruct (N.eq_dec n 0) as [->|N0]; [left; reflexivity|]. right. unfold dec. destruct (dec_head (S (N.to_nat (N.log2 n))) n [] N0 ltac:(lia)) as (c & r & E & C).
  exists c, r. split; [exact E|]. split; [exact C|]. pose proof (dec_digits n) as D. unfold dec in D. rewrite E in D. cbn [forallb] in D. apply andb_true_iff in D.
  apply Forall_forall. intros x I. apply digit_is. destruct D as [_ D]. rewrite forallb_forall in D. now apply D.
Qed.
Lemma decz_denotes z : denotes false (JInt z) (decz z).
Proof.
  assert (V : forall n, decimal 0 (dec n) = n) by (intros n; rewrite decimal_val; apply dec_val). unfold decz.
  destruct z as [|p|p].
  - pose proof (d_int false (dec 0) (dec_int _)) as D. rewrite V in D. exact D.
  - pose proof (d_int false (dec (N.pos p)) (dec_int _)) as D. rewrite V in D. exact D.
  - pose proof (d_negative false (dec (N.pos p)) (dec_int _)) as D. rewrite V in D. exact D.
Qed.
Lemma hexlow_digit v : v < 16 -> hex_digit (hexlow v) v.
Proof. unfold hexlow, hex_digit. destruct (N.ltb_spec v 10); lia. Qed.
Lemma u_escape_four c : c < 65536 -> exists t, u_escape c = [92; 117] ++ t /\ four_hex t c.
Proof.
  intros L. eexists. split; [reflexivity|]. do 4 eexists. exists (c / 4096), (c / 256 mod 16), (c / 16 mod 16), (c mod 16).
  refine (conj eq_refl (conj (hexlow_digit _ _) (conj (hexlow_digit _ _) (conj (hexlow_digit _ _) (conj (hexlow_digit _ _) _))))); lia.
Qed.
Lemma write_char_writes a c : scalar c -> writes false c (write_char a c).
Proof.
  intros SC. unfold write_char. destruct (short_escape c) as [e|] eqn:E.
  - apply escaped. unfold short_escape in E.
    repeat match type of E with context [if ?b then _ else _] => destruct b eqn:? end; injection E as <- || discriminate E;
      match goal with H : (_ =? _) = true |- _ => apply N.eqb_eq in H; subst end; cbn; auto 10.
  - assert (P : c <> 34 /\ c <> 92) by (unfold short_escape in E; destruct (N.eqb_spec c 34); [discriminate|]; destruct (N.eqb_spec c 92); [discriminate | auto]).
    destruct (N.ltb_spec c 32) as [L|L].
    + destruct (u_escape_four c ltac:(lia)) as (t & -> & F). now apply one_unit.
    + destruct (a && (126 <? c)); [|apply unescaped; tauto]. destruct (N.ltb_spec c 65536) as [L6|L6].
      * destruct (u_escape_four c L6) as (t & -> & F). now apply one_unit.
      * set (h := 55296 + (c - 65536) / 1024 mod 1024). set (l := 56320 + (c - 65536) mod 1024).
        assert (HL : 55296 <= h < 56320 /\ 56320 <= l < 57344 /\ c = 65536 + (h - 55296) * 1024 + (l - 56320)) by (unfold h, l; unfold scalar in SC; lia).
        destruct HL as (H1 & H2 & H3). clearbody h l.
        destruct (u_escape_four h ltac:(lia)) as (t1 & -> & F1). destruct (u_escape_four l ltac:(lia)) as (t2 & -> & F2).
        rewrite <- app_assoc. now apply (two_units false c t1 t2 h l).
Qed.
Lemma write_string_string a s : Forall scalar s -> string false s (write_string a s).
Proof.
  intros F. exists (flat_map (write_char a) s). split; [|reflexivity].
  induction F as [|c s SC F IH]; [constructor|]. cbn [flat_map]. constructor; [now apply write_char_writes | exact IH].
Qed.
Lemma jvalue_ind' (P : jvalue -> Prop) :
  P JNull -> (forall b, P (JBool b)) -> (forall z, P (JInt z)) -> (forall t, P (JFloat t)) -> (forall s, P (JStr s)) ->
  (forall l, Forall P l -> P (JArr l)) -> (forall l, Forall (fun e => P (snd e)) l -> P (JObj l)) -> forall v, P v.
Proof.
  intros H1 H2 H3 H4 H5 H6 H7. fix IH 1. intros [|b|z|t|s|l|l].
  - apply H1.
  - apply H2.
  - apply H3.
  - apply H4.
  - apply H5.
  - apply H6. induction l as [|v l IHl]; constructor; [apply IH | exact IHl].
  - apply H7. induction l as [|e l IHl]; constructor; [apply IH | exact IHl].
Qed.
Lemma no_ws : ws [].
Proof. intros c []. Qed.
Lemma write_items a l : Forall (fun v => denotes false v (write a v)) l -> l <> [] -> items false l (join (u ",") (map (write a) l)).
Proof.
  intros F. induction F as [|v l D F IH]; [contradiction|]. intros _. destruct l as [|w l].
  - cbn [map join]. rewrite <- (app_nil_r (write a v)). apply i_last; [exact D | apply no_ws].
  - change (join (u ",") (map (write a) (v :: w :: l))) with (write a v ++ [] ++ u "," ++ [] ++ join (u ",") (map (write a) (w :: l))).
    apply i_more; [exact D | apply no_ws | apply no_ws | apply IH; discriminate].
Qed.
Lemma write_pairs a l : Forall (fun e => Forall scalar (fst e) /\ denotes false (snd e) (write a (snd e))) l -> l <> [] ->
  pairs false l (join (u ",") (map (fun e => write_string a (fst e) ++ u ":" ++ write a (snd e)) l)).
Proof.
  intros F. induction F as [|[k v] l [SC D] F IH]; [contradiction|]. intros _. cbn [fst snd] in *. destruct l as [|w l].
  - cbn [map join fst snd]. rewrite <- (app_nil_r (write a v)). apply (p_last false k (write_string a k) v (write a v) [] [] []); auto using no_ws, write_string_string.
  - change (join (u ",") (map (fun e => write_string a (fst e) ++ u ":" ++ write a (snd e)) ((k, v) :: w :: l)))
      with ((write_string a k ++ u ":" ++ write a v) ++ u "," ++ join (u ",") (map (fun e => write_string a (fst e) ++ u ":" ++ write a (snd e)) (w :: l))).
    rewrite <- !app_assoc. apply (p_more false k (write_string a k) v (write a v) [] [] [] [] (w :: l)); auto using no_ws, write_string_string.
    apply IH. discriminate.
Qed.
Lemma fold_and {A} (P : A -> Prop) l : fold_right and True (map P l) <-> Forall P l.
Proof.
  induction l as [|a l IH]; cbn [map fold_right]; [split; auto|]. rewrite IH. split; [intros [A1 B]; now constructor | intros H; inversion H; auto].
Qed.
Lemma dset_new {V} (d : dict V) k v : ~ In k (map fst d) -> dset k v d = d ++ [(k, v)].
Proof.
  induction d as [|[k' w] d IH]; cbn [map fst In dset app]; intros N; [reflexivity|].
  assert (E : seqb k k' = false) by (apply seqb_neq; intros <-; tauto). rewrite E, IH by tauto. reflexivity.
Qed.
Lemma dupdate_distinct {V} (l : dict V) : forall d, NoDup (map fst (d ++ l)) -> dupdate d l = d ++ l.
Proof.
  induction l as [|[k v] l IH]; intros d N; [now rewrite app_nil_r|]. unfold dupdate in *. cbn [fold_left fst snd].
  assert (NI : ~ In k (map fst d)).
  { rewrite map_app in N. cbn [map fst] in N. apply NoDup_remove_2 in N. rewrite in_app_iff in N. tauto. }
  rewrite dset_new by exact NI. rewrite IH; rewrite <- app_assoc; [reflexivity | exact N].
Qed.
Fixpoint writable (v : jvalue) : Prop :=
  match v with
  | JNull | JBool _ | JInt _ => True
  | JFloat t => float_literal t
  | JStr s => Forall scalar s
  | JArr l => fold_right and True (map writable l)
  | JObj l => NoDup (map fst l) /\ fold_right and True (map (fun e => Forall scalar (fst e) /\ writable (snd e)) l)
  end.
Lemma write_denotes a v : writable v -> denotes false v (write a v).
Proof.
  induction v as [|b|z|t|s|l IH|l IH] using jvalue_ind'; cbn [writable write].
  - intros _. apply d_null.
  - intros _. destruct b; [apply d_true | apply d_false].
  - intros _. apply decz_denotes.
  - apply d_float.
  - intros F. apply d_string, write_string_string, F.
  - intros F. apply fold_and in F. assert (D : Forall (fun v => denotes false v (write a v)) l).
    { rewrite Forall_forall in *. intros v I. apply IH; auto. }
    destruct l as [|v l]; [apply (d_no_array false [] no_ws)|].
    apply (d_array false [] (v :: l) _ no_ws), write_items; [exact D | discriminate].
  - intros [N F]. apply fold_and in F. assert (D : Forall (fun e => Forall scalar (fst e) /\ denotes false (snd e) (write a (snd e))) l).
    { rewrite Forall_forall in *. intros e I. split; [apply F, I | apply IH; [exact I | apply F, I]]. }
    destruct l as [|e l]; [apply (d_no_object false [] no_ws)|].
    assert (E : dupdate [] (e :: l) = e :: l) by (apply (dupdate_distinct (e :: l) []); exact N).
    rewrite <- E at 1. apply (d_object false [] (e :: l) _ no_ws), write_pairs; [exact D | discriminate].
Qed.
Lemma write_json v : writable v -> json false v (write false v).
Proof. intros W. exists [], (write false v), []. rewrite app_nil_r. refine (conj no_ws (conj no_ws (conj (write_denotes false v W) eq_refl))). Qed.

(** ** What the texts are made of *)
Lemma write_scalar v : writable v -> Forall scalar (write false v) /\ Forall (fun c => 32 <= c) (write false v).
Proof.
  set (good := fun c => scalar c /\ 32 <= c).
  assert (G : writable v -> Forall good (write false v)).
  { assert (LT : forall l, forallb (fun c => (32 <=? c) && (c <? 128)) l = true -> Forall good l).
    { intros l H. rewrite forallb_forall in H. apply Forall_forall. intros c I. specialize (H c I). unfold good, scalar. lia. }
    assert (DG : forall c, digit c -> good c) by (intros c D; unfold digit in D; unfold good, scalar; lia).
    assert (IG : forall i, int_part i -> Forall good i).
    { intros i [-> | (c & r & -> & C & F)]; [constructor; [unfold good, scalar; lia | constructor]|]. constructor; [unfold good, scalar; lia|]. rewrite Forall_forall in *. auto. }
    assert (HX : forall x, x < 16 -> good (hexlow x)) by (intros x L; unfold good, scalar, hexlow; destruct (N.ltb_spec x 10); lia).
    assert (SG : forall s, Forall scalar s -> Forall good (write_string false s)).
    { intros s F. unfold write_string. constructor; [unfold good, scalar; lia|]. apply Forall_app. split; [|constructor; [unfold good, scalar; lia | constructor]].
      induction F as [|c s SC F IH]; [constructor|]. cbn [flat_map]. apply Forall_app. split; [|exact IH]. unfold write_char.
      destruct (short_escape c) as [e|] eqn:E.
      - constructor; [unfold good, scalar; lia|]. constructor; [|constructor]. unfold short_escape in E.
        repeat match type of E with context [if ?b then _ else _] => destruct b end; injection E as <- || discriminate E; unfold good, scalar; lia.
      - destruct (N.ltb_spec c 32) as [L|L].
        + unfold u_escape. repeat (constructor; [first [apply HX; lia | unfold good, scalar; lia]|]). constructor.
        + cbn [andb]. constructor; [|constructor]. split; [exact SC | exact L]. }
    assert (JG : forall ts, Forall (Forall good) ts -> Forall good (join (u ",") ts)).
    { intros ts F. induction F as [|t ts T F IH]; [constructor|]. destruct ts as [|t' ts]; [exact T|].
      change (join (u ",") (t :: t' :: ts)) with (t ++ u "," ++ join (u ",") (t' :: ts)). apply Forall_app. split; [exact T|]. apply Forall_app. split; [|exact IH].
      apply LT. reflexivity. }
    induction v as [|b|z|t|s|l IH|l IH] using jvalue_ind'; cbn [writable write].
    - intros _. apply LT. reflexivity.
    - intros _. destruct b; apply LT; reflexivity.
    - intros _. unfold decz. destruct z; [| |constructor; [unfold good, scalar; lia|]]; apply IG, dec_int.
    - intros (sign & i & f & e & -> & SI & P & F & E & _). repeat (apply Forall_app; split); [|apply IG, P| |].
      + cbn [In] in SI. destruct SI as [<-|[<-|[]]]; repeat constructor; unfold scalar; lia.
      + destruct F as [-> | (r & -> & _ & FD)]; [constructor|]. constructor; [unfold good, scalar; lia|]. rewrite Forall_forall in *. auto.
      + destruct E as [-> | (c & sg & r & -> & C & SGN & _ & FD)]; [constructor|]. cbn [In] in C, SGN. constructor; [unfold good, scalar; lia|].
        apply Forall_app. split; [destruct SGN as [<-|[<-|[<-|[]]]]; repeat constructor; unfold scalar; lia|]. rewrite Forall_forall in *. auto.
    - apply SG.
    - intros F. apply fold_and in F. apply Forall_app. split; [apply LT; reflexivity|]. apply Forall_app. split; [|apply LT; reflexivity].
      apply JG. rewrite Forall_forall in *. intros t I. apply in_map_iff in I. destruct I as (v & <- & I). apply IH; auto.
    - intros [_ F]. apply fold_and in F. apply Forall_app. split; [apply LT; reflexivity|]. apply Forall_app. split; [|apply LT; reflexivity].
      apply JG. rewrite Forall_forall in *. intros t I. apply in_map_iff in I. destruct I as (e & <- & I). apply Forall_app. split; [apply SG, F, I|].
      apply Forall_app. split; [apply LT; reflexivity|]. apply IH; [exact I | apply F, I]. }
  intros W. specialize (G W). split; (eapply Forall_impl; [|exact G]); unfold good; tauto.
Qed.

(** ** The values with a text *)
Lemma text_scalar s : points s -> unicode s -> Forall scalar s.
Proof. intros P U. apply Forall_forall. intros c I. specialize (P c I). specialize (U c I). unfold scalar. lia. Qed.
Lemma presentable_writable v : proper v -> presentable v -> writable v /\ finite v = true.
Proof.
  induction v as [|b|z|t|s|l IH|l IH] using jvalue_ind'; cbn [proper presentable writable finite]; auto.
  - intros [F|F] N; [|contradiction]. split; [exact F|]. apply negb_true_iff. apply smem_not_In. exact N.
  - intros P U. split; [now apply text_scalar | reflexivity].
  - intros P U. apply fold_and in P, U. rewrite fold_and, forallb_forall. rewrite Forall_forall in *. split; intros v I; apply IH; auto.
  - intros [N P] U. apply fold_and in P, U. rewrite fold_and, forallb_forall. rewrite Forall_forall in *. refine (conj (conj N _) _).
    + intros e I. destruct (P e I), (U e I). split; [now apply text_scalar | now apply IH].
    + intros e I. destruct (P e I), (U e I). now apply IH.
Qed.
Lemma surrogate_raw c s : 55296 <= c <= 57343 -> In c s -> In c (write_string false s).
Proof.
  intros L I. right. apply in_app_iff. left. apply in_flat_map. exists c. split; [exact I|]. unfold write_char, short_escape.
  repeat match goal with |- context [if ?a =? ?b then _ else _] => destruct (N.eqb_spec a b); [lia|] end. destruct (N.ltb_spec c 32); [lia|]. left. reflexivity.
Qed.
Lemma in_join c sep t ts : In t ts -> In c t -> In c (join sep ts).
Proof.
  induction ts as [|x ts IH]; [easy|]. intros [->|I] C.
  - destruct ts; cbn [join]; [exact C | apply in_app_iff; auto].
  - destruct ts as [|y ts]; [easy|]. change (join sep (x :: y :: ts)) with (x ++ sep ++ join sep (y :: ts)). rewrite !in_app_iff. right. right. now apply IH.
Qed.
Lemma written_presentable v : finite v = true -> unicode (write false v) -> presentable v.
Proof.
  assert (ST : forall s, unicode (write_string false s) -> unicode s) by (intros s U c I L; apply (U c); [now apply surrogate_raw | exact L]).
  induction v as [|b|z|t|s|l IH|l IH] using jvalue_ind'; cbn [presentable finite write]; auto.
  - intros F _. apply negb_true_iff, smem_not_In in F. exact F.
  - intros F U. rewrite fold_and. rewrite forallb_forall in F. rewrite Forall_forall in *. intros v I. apply IH; auto. intros c C. apply U.
    rewrite !in_app_iff. right. left. apply (in_join c (u ",") (write false v)); [now apply in_map | exact C].
  - intros F U. rewrite fold_and. rewrite forallb_forall in F. rewrite Forall_forall in *. intros e I.
    assert (SUB : forall c, In c (write_string false (fst e) ++ u ":" ++ write false (snd e)) -> ~ 55296 <= c <= 57343).
    { intros c C. apply U. rewrite !in_app_iff. right. left. eapply in_join; [|exact C]. apply in_map_iff. exists e. auto. }
    split; [apply ST | apply IH; auto]; intros c C; apply SUB; rewrite !in_app_iff; auto.
Qed.
Lemma encode_some t b : encode t = Some b <-> unicode t /\ b = utf8_enc t.
Proof.
  unfold encode. destruct (forallb _ t) eqn:E.
  - rewrite forallb_forall in E. split; [intros [= <-]; split; [intros c I; specialize (E c I); lia | reflexivity] | intros [_ ->]; reflexivity].
  - split; [discriminate|]. intros [U _]. exfalso. assert (X : forallb (fun c => (c <? 55296) || (57343 <? c)) t = true); [|congruence].
    apply forallb_forall. intros c I. specialize (U c I). lia.
Qed.
Lemma scalar_unicode t : Forall scalar t -> unicode t.
Proof. intros F c I. rewrite Forall_forall in F. specialize (F c I). unfold scalar in F. lia. Qed.
Lemma body_some v b : proper v -> json_body v = Some b <-> presentable v /\ b = utf8_enc (write false v).
Proof.
  intros P. unfold json_body, dumps. split.
  - destruct (finite v) eqn:F; [|discriminate]. intros E. apply encode_some in E. destruct E as [U ->]. split; [now apply written_presentable | reflexivity].
  - intros [PR ->]. destruct (presentable_writable v P PR) as [W ->]. apply encode_some. split; [apply scalar_unicode, write_scalar, W | reflexivity].
Qed.
Lemma strict_enc t : Forall scalar t -> utf8_strict (utf8_enc t) = Some t.
Proof.
  intros F. unfold utf8_strict. rewrite dec_enc by (rewrite Forall_forall in F; exact F). now rewrite seqb_refl.
Qed.
Lemma strict_inv b t : utf8_strict b = Some t -> utf8_enc t = b /\ t = utf8_dec b.
Proof. unfold utf8_strict. destruct (seqb _ b) eqn:E; [|discriminate]. intros [= <-]. apply seqb_eq in E. auto. Qed.
