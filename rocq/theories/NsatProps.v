(** C390-C391: the answer to a range past the end. *)
From Coq Require Import ZArith Lia.
From Verif Require RangesProofs.
From Verif Require Import PyStr PyStrFacts Utf8 Asgi HeaderModel HeaderSpec JsonModel OutModel ExcModel AbtModel AbtProps RangesModel NsatModel.

(** * C390: a range past the end is answered with 416 and the size *)
(** The range from [a] to [b] of something of [size] (positive) units: refused exactly if it ends past the end. *)
Theorem C390_which : forall a b size unit, (0 < size)%Z ->
  (refusal (dec a ++ u "-" ++ dec b) (size - 1) unit <> None <-> (a <= b)%N /\ (size <= Z.of_N b)%Z).
Proof.
  intros a b size unit P. unfold refusal, parse_range.
  assert (I : parse_range_intern (dec a ++ u "-" ++ dec b) (size - 1) = Some (mkRange (Z.of_N a) (Z.of_N b))) by (apply (RangesProofs.parse_range_intern_closed)). rewrite I. cbn [r_start r_stop].
  destruct (Z.ltb_spec (Z.of_N b) (Z.of_N a)) as [L|L]; [split; [congruence | lia]|]. destruct (Z.ltb_spec (Z.of_N a) 0) as [N|_]; [lia|].
  destruct (Z.ltb_spec (size - 1) (Z.of_N a)) as [A|A]; cbn [orb]; [split; [intros _; lia | discriminate]|].
  destruct (Z.ltb_spec (size - 1) (Z.of_N b)) as [B|B]; [split; [intros _; lia | discriminate] | split; [congruence | lia]].
Qed.
Print Assumptions C390_which.
(** The answer names the size of the whole, from which a client learns what it may ask for. *)
Theorem C390_answer : forall order rangedef size unit x, set_order order -> refusal rangedef (size - 1) unit = Some x ->
  exists h b, default_response order x = Some [AStart 416 h; ABody b false] /\ In (u "content-range", unit ++ u " */" ++ decz size) h.
Proof.
  intros order rangedef size unit x O E. unfold refusal in E. destruct (parse_range rangedef (size - 1)) as [| |r]; try discriminate E.
  unfold not_satisfiable, construct in E. cbn [falsy k_detail k_status NotSatisfiable] in E. cbn in E. injection E as <-.
  unfold default_response. cbn [x_response x_status x_detail x_headers]. change (416 =? 204)%Z with false. change (416 =? 304)%Z with false. cbn [orb].
  destruct (body_of false (CValue (JStr (u "Requested range ({range_def[0]}-{range_def[1]}) is not satisfiable.")))) as [b|] eqn:B; [|vm_compute in B; discriminate B].
  replace (body_of false _) with (Some b) by (symmetry; exact B).
  eexists _, b. split; [reflexivity|]. apply wire_has; [exact O|]. apply made_has; [discriminate | discriminate|]. cbn [given]. replace (size - 1 + 1)%Z with size by lia. left. reflexivity.
Qed.
Print Assumptions C390_answer.
Example C390_case : let x := refusal (u "5-12") (10 - 1) (u "bytes") in
  option_map (default_response (fun l => l)) x = Some (Some [AStart 416 [(u "content-range", u "bytes */10"); (u "content-length", u "67"); (u "content-type", u "text/plain; charset=utf-8")];
    ABody (u "Requested range ({range_def[0]}-{range_def[1]}) is not satisfiable.") false]).
Proof. vm_compute. reflexivity. Qed.

(** * C391: the answer names the range *)
Definition C391_statement : Prop := forall a b size unit x, (0 < size)%Z -> refusal (dec a ++ u "-" ++ dec b) (size - 1) unit = Some x ->
  x_detail x = JStr (u "Requested range (" ++ dec a ++ u "-" ++ dec b ++ u ") is not satisfiable.").
Theorem C391_refuted : ~ C391_statement.
Proof. intros H. specialize (H 5%N 12%N 10%Z (u "bytes") _ eq_refl eq_refl). vm_compute in H. discriminate H. Qed.
Print Assumptions C391_refuted.
(** Every range gets the same text. *)
Theorem C391_partial : forall rangedef size unit x, refusal rangedef (size - 1) unit = Some x ->
  x_detail x = JStr (u "Requested range ({range_def[0]}-{range_def[1]}) is not satisfiable.").
Proof.
  intros rangedef size unit x E. unfold refusal in E. destruct (parse_range rangedef (size - 1)) as [| |r]; try discriminate E.
  unfold not_satisfiable, construct in E. cbn in E. injection E as <-. reflexivity.
Qed.
Print Assumptions C391_partial.
Example C391_case : exists x, refusal (u "5-12") (10 - 1) (u "bytes") = Some x.
Proof. eexists. vm_compute. reflexivity. Qed.
