(** Base64 as Python does it: [base64.b64encode], [urlsafe_b64encode] (RFC 4648), and [binascii.a2b_base64]
    without strict mode, which [base64.b64decode] calls: characters outside the alphabet are passed
    over, and padding ends the text once a group is complete. *)
From Coq Require Import ZArith Lia ZifyN ZifyBool.
From Verif Require Import PyStr PyStrFacts.
Ltac Zify.zify_post_hook ::= Z.div_mod_to_equations.
Local Open Scope N_scope.

(** The alphabets: [x], [y] are the characters for 62 and 63. *)
Definition enc6 (x y v : N) : N :=
  if v <? 26 then 65 + v else if v <? 52 then 71 + v else if v <? 62 then v - 4 else if v =? 62 then x else y.
Definition dec6 (x y c : N) : option N :=
  if (65 <=? c) && (c <=? 90) then Some (c - 65)
  else if (97 <=? c) && (c <=? 122) then Some (c - 71)
  else if (48 <=? c) && (c <=? 57) then Some (c + 4)
  else if c =? x then Some 62 else if c =? y then Some 63 else None.

(** RFC 4648, section 4. *)
Fixpoint b64encode_with (x y : N) (s : str) : str :=
  match s with
  | [] => []
  | [a] => [enc6 x y (a / 4); enc6 x y (a mod 4 * 16); 61; 61]
  | [a; b] => [enc6 x y (a / 4); enc6 x y (a mod 4 * 16 + b / 16); enc6 x y (b mod 16 * 4); 61]
  | a :: b :: c :: r =>
      enc6 x y (a / 4) :: enc6 x y (a mod 4 * 16 + b / 16) :: enc6 x y (b mod 16 * 4 + c / 64) :: enc6 x y (c mod 64)
      :: b64encode_with x y r
  end.
(** CPython's Modules/binascii.c [binascii_a2b_base64_impl], strict_mode false: the position within the group,
    the bits left over, the number of padding characters. *)
Fixpoint a2b (x y : N) (s : str) (pos left pads : N) : option str :=
  match s with
  | [] => if pos =? 0 then Some [] else None
  | c :: r =>
      if c =? 61 then
        if 2 <=? pos then if 4 <=? pos + (pads + 1) then Some [] else a2b x y r pos left (pads + 1)
        else a2b x y r pos left pads
      else
        match dec6 x y c with
        | None => a2b x y r pos left pads
        | Some v =>
            if pos =? 0 then a2b x y r 1 v 0
            else if pos =? 1 then option_map (cons (left * 4 + v / 16)) (a2b x y r 2 (v mod 16) 0)
            else if pos =? 2 then option_map (cons (left * 16 + v / 4)) (a2b x y r 3 (v mod 4) 0)
            else option_map (cons (left * 64 + v)) (a2b x y r 0 0 0)
        end
  end.
Definition b64encode : str -> str := b64encode_with 43 47.
Definition b64decode (s : str) : option str := a2b 43 47 s 0 0 0.
Definition urlsafe_b64encode : str -> str := b64encode_with 45 95.
(** [urlsafe_b64decode] translates its two characters, so that it reads the usual ones too. *)
Definition untranslate (c : N) : N := if c =? 45 then 43 else if c =? 95 then 47 else c.
Definition urlsafe_b64decode (s : str) : option str := b64decode (map untranslate s).

(** itsdangerous/encoding.py [base64_encode], [base64_decode], [int_to_bytes], [bytes_to_int]: padding is left
    out and put back; numbers in big endian without leading zeros. *)
Definition base64_encode (s : str) : str := rstrip_by (fun c => c =? 61) (urlsafe_b64encode s).
Definition base64_decode (s : str) : option str :=
  urlsafe_b64decode (s ++ repeat 61 (N.to_nat ((4 - N.of_nat (length s) mod 4) mod 4))).
Fixpoint big_endian (fuel : nat) (n : N) : str :=
  match fuel with O => [] | S f => if n =? 0 then [] else big_endian f (n / 256) ++ [n mod 256] end.
Definition int_to_bytes (n : N) : str := big_endian (N.size_nat n) n.
Definition bytes_to_int (s : str) : N := fold_left (fun a b => a * 256 + b) s 0.

Definition bytes (s : str) : Prop := forall c, In c s -> c < 256.
(** Usable alphabets. *)
Definition alphabet (x y : N) : Prop := (x = 43 /\ y = 47) \/ (x = 45 /\ y = 95).

Lemma dec_enc x y v : alphabet x y -> v < 64 -> dec6 x y (enc6 x y v) = Some v /\ enc6 x y v <> 61.
Proof.
  intros A V. assert (F : forallb (fun v => match dec6 x y (enc6 x y v) with Some w => N.eqb v w | None => false end && negb (N.eqb (enc6 x y v) 61))
    (map N.of_nat (seq 0 64)) = true) by (destruct A as [[-> ->]|[-> ->]]; vm_compute; reflexivity).
  rewrite forallb_forall in F. specialize (F v). cbv beta in F.
  assert (I : In v (map N.of_nat (seq 0 64))) by (apply in_map_iff; exists (N.to_nat v); split; [lia | apply in_seq; lia]).
  specialize (F I). apply andb_prop in F. destruct F as [F G]. apply Bool.negb_true_iff, N.eqb_neq in G.
  destruct (dec6 x y (enc6 x y v)); [|discriminate]. apply N.eqb_eq in F. subst. auto.
Qed.
Lemma a2b_char x y v r pos left pads : alphabet x y -> v < 64 ->
  a2b x y (enc6 x y v :: r) pos left pads =
    if pos =? 0 then a2b x y r 1 v 0
    else if pos =? 1 then option_map (cons (left * 4 + v / 16)) (a2b x y r 2 (v mod 16) 0)
    else if pos =? 2 then option_map (cons (left * 16 + v / 4)) (a2b x y r 3 (v mod 4) 0)
    else option_map (cons (left * 64 + v)) (a2b x y r 0 0 0).
Proof. intros A V. cbn [a2b]. destruct (dec_enc x y v A V) as [D E]. apply N.eqb_neq in E. now rewrite E, D. Qed.
Lemma triples (P : str -> Prop) : P [] -> (forall a, P [a]) -> (forall a b, P [a; b]) -> (forall a b c r, P r -> P (a :: b :: c :: r)) -> forall s, P s.
Proof.
  intros H0 H1 H2 H3. fix F 1. destruct s as [|a [|b [|c r]]]; [exact H0 | apply H1 | apply H2 | apply H3, F].
Qed.
Lemma pad2 x y l : a2b x y [61; 61] 2 l 0 = Some []. Proof. reflexivity. Qed.
Lemma pad1 x y l : a2b x y [61] 3 l 0 = Some []. Proof. reflexivity. Qed.
(** Decoding gives back what was encoded, whatever follows padding. *)
Theorem b64_round_trip x y s : alphabet x y -> bytes s -> a2b x y (b64encode_with x y s) 0 0 0 = Some s.
Proof.
  intros A. revert s. apply (triples (fun s => bytes s -> a2b x y (b64encode_with x y s) 0 0 0 = Some s)); [intros B | intros a B | intros a b B | intros a b c r IH B].
  - reflexivity.
  - assert (a < 256) by (apply B; now left). cbn [b64encode_with].
    rewrite a2b_char by (auto; lia). cbn [N.eqb]. rewrite a2b_char by (auto; lia). cbn [N.eqb Pos.eqb].
    rewrite pad2. cbn [option_map]. do 2 f_equal. lia.
  - assert (a < 256 /\ b < 256) by (split; apply B; cbn; auto). cbn [b64encode_with].
    rewrite a2b_char by (auto; lia). cbn [N.eqb]. rewrite a2b_char by (auto; lia). cbn [N.eqb Pos.eqb].
    rewrite a2b_char by (auto; lia). cbn [N.eqb Pos.eqb].
    rewrite pad1. cbn [option_map]. f_equal. f_equal; [lia | f_equal; lia].
  - assert (a < 256 /\ b < 256 /\ c < 256) by (repeat split; apply B; cbn; auto). cbn [b64encode_with].
    rewrite a2b_char by (auto; lia). cbn [N.eqb]. rewrite a2b_char by (auto; lia). cbn [N.eqb Pos.eqb].
    rewrite a2b_char by (auto; lia). cbn [N.eqb Pos.eqb]. rewrite a2b_char by (auto; lia). cbn [N.eqb Pos.eqb].
    rewrite IH by (intros d I; apply B; cbn; auto). cbn [option_map]. f_equal. f_equal; [lia | f_equal; [lia | f_equal; lia]].
Qed.
(** The characters of a text. *)
Lemma enc6_char x y v : v < 64 -> let c := enc6 x y v in
  (65 <= c <= 90) \/ (97 <= c <= 122) \/ (48 <= c <= 57) \/ c = x \/ c = y.
Proof.
  intros V. unfold enc6. destruct (v <? 26) eqn:E1; [apply N.ltb_lt in E1; lia|]. apply N.ltb_ge in E1.
  destruct (v <? 52) eqn:E2; [apply N.ltb_lt in E2; lia|]. apply N.ltb_ge in E2.
  destruct (v <? 62) eqn:E3; [apply N.ltb_lt in E3; lia|]. destruct (v =? 62); auto.
Qed.
Theorem b64_chars x y s : bytes s -> forall c, In c (b64encode_with x y s) ->
  (65 <= c <= 90) \/ (97 <= c <= 122) \/ (48 <= c <= 57) \/ c = x \/ c = y \/ c = 61.
Proof.
  assert (E : forall v, v < 64 -> forall c, enc6 x y v = c -> (65 <= c <= 90) \/ (97 <= c <= 122) \/ (48 <= c <= 57) \/ c = x \/ c = y \/ c = 61).
  { intros v V c <-. pose proof (enc6_char x y v V) as X. cbv zeta in X. tauto. }
  revert s. apply (triples (fun s => bytes s -> forall c, In c (b64encode_with x y s) -> (65 <= c <= 90) \/ (97 <= c <= 122) \/ (48 <= c <= 57) \/ c = x \/ c = y \/ c = 61));
    [intros B d | intros a B d | intros a b B d | intros a b c r IH B d]; cbn [b64encode_with In].
  - easy.
  - assert (a < 256) by (apply B; now left). intros [X|[X|[X|[X|[]]]]]; try (now subst; auto 8); (eapply E; [|exact X]; lia).
  - assert (a < 256 /\ b < 256) by (split; apply B; cbn; auto). intros [X|[X|[X|[X|[]]]]]; try (now subst; auto 8); (eapply E; [|exact X]; lia).
  - assert (a < 256 /\ b < 256 /\ c < 256) by (repeat split; apply B; cbn; auto).
    intros [X|[X|[X|[X|X]]]]; try (eapply E; [|exact X]; lia). apply IH; auto. intros e I. apply B. cbn. auto.
Qed.
(** What is decoded is made of bytes. *)
Lemma dec6_bound x y c v : dec6 x y c = Some v -> v < 64.
Proof.
  unfold dec6. destruct ((65 <=? c) && (c <=? 90)) eqn:E1; [intros [= <-]; lia|].
  destruct ((97 <=? c) && (c <=? 122)) eqn:E2; [intros [= <-]; lia|]. destruct ((48 <=? c) && (c <=? 57)) eqn:E3; [intros [= <-]; lia|].
  destruct (c =? x); [intros [= <-]; lia|]. destruct (c =? y); [intros [= <-]; lia | discriminate].
Qed.
Theorem b64_bytes x y s : forall pos left pads t, a2b x y s pos left pads = Some t ->
  (pos = 0 \/ (pos = 1 /\ left < 64) \/ (pos = 2 /\ left < 16) \/ (pos = 3 /\ left < 4)) -> bytes t.
Proof.
  induction s as [|c r IH]; cbn; intros pos left pads t H P.
  - destruct (pos =? 0); [injection H as <-; intros ? [] | discriminate].
  - destruct (c =? 61).
    + destruct (2 <=? pos); [destruct (4 <=? _); [injection H as <-; intros ? [] | eauto] | eauto].
    + destruct (dec6 x y c) as [v|] eqn:D; [|eauto]. apply dec6_bound in D.
      assert (Step : forall b p' l', b < 256 -> (p' = 0 \/ (p' = 1 /\ l' < 64) \/ (p' = 2 /\ l' < 16) \/ (p' = 3 /\ l' < 4)) ->
        option_map (cons b) (a2b x y r p' l' 0) = Some t -> bytes t).
      { intros b p' l' B Q E. destruct (a2b x y r p' l' 0) as [t'|] eqn:R; [|discriminate]. injection E as <-.
        intros d [<-|I]; [exact B | exact (IH _ _ _ _ R Q d I)]. }
      destruct (pos =? 0) eqn:P0; [eapply IH; [exact H | lia]|].
      destruct (pos =? 1) eqn:P1; [apply (Step _ _ _) in H; auto; lia|].
      destruct (pos =? 2) eqn:P2; [apply (Step _ _ _) in H; auto; lia|]. apply (Step _ _ _) in H; auto. lia.
Qed.

(** ** The codings of itsdangerous *)
Lemma enc6_untranslate v : v < 64 -> untranslate (enc6 45 95 v) = enc6 43 47 v.
Proof.
  intros V. unfold enc6. destruct (v <? 26) eqn:E1; [apply N.ltb_lt in E1; unfold untranslate; destruct (65 + v =? 45) eqn:A, (65 + v =? 95) eqn:B; lia|].
  destruct (v <? 52) eqn:E2; [unfold untranslate; destruct (71 + v =? 45) eqn:A, (71 + v =? 95) eqn:B; lia|].
  destruct (v <? 62) eqn:E3; [unfold untranslate; destruct (v - 4 =? 45) eqn:A, (v - 4 =? 95) eqn:B; lia|]. destruct (v =? 62); reflexivity.
Qed.
Lemma untranslate_encode : forall s, bytes s -> map untranslate (urlsafe_b64encode s) = b64encode s.
Proof.
  unfold urlsafe_b64encode, b64encode.
  apply (triples (fun s => bytes s -> map untranslate (b64encode_with 45 95 s) = b64encode_with 43 47 s)); [intros B | intros a B | intros a b B | intros a b c r IH B];
    cbn [b64encode_with map].
  - reflexivity.
  - assert (a < 256) by (apply B; now left). rewrite !enc6_untranslate by lia. reflexivity.
  - assert (a < 256 /\ b < 256) by (split; apply B; cbn; auto). rewrite !enc6_untranslate by lia. reflexivity.
  - assert (a < 256 /\ b < 256 /\ c < 256) by (repeat split; apply B; cbn; auto). rewrite !enc6_untranslate by lia.
    rewrite IH by (intros d I; apply B; cbn; auto). reflexivity.
Qed.
(** The text without its padding. *)
Fixpoint core (x y : N) (s : str) : str :=
  match s with
  | [] => []
  | [a] => [enc6 x y (a / 4); enc6 x y (a mod 4 * 16)]
  | [a; b] => [enc6 x y (a / 4); enc6 x y (a mod 4 * 16 + b / 16); enc6 x y (b mod 16 * 4)]
  | a :: b :: c :: r =>
      enc6 x y (a / 4) :: enc6 x y (a mod 4 * 16 + b / 16) :: enc6 x y (b mod 16 * 4 + c / 64) :: enc6 x y (c mod 64) :: core x y r
  end.
Lemma core_pad x y : forall s,
  b64encode_with x y s = core x y s ++ repeat 61 (N.to_nat ((4 - N.of_nat (length (core x y s)) mod 4) mod 4)).
Proof.
  apply (triples (fun s => b64encode_with x y s = core x y s ++ repeat 61 (N.to_nat ((4 - N.of_nat (length (core x y s)) mod 4) mod 4))));
    [reflexivity | reflexivity | reflexivity | intros a b c r IH].
  cbn [b64encode_with core app]. do 4 f_equal. rewrite IH at 1. do 3 f_equal. cbn [length]. lia.
Qed.
Lemma core_no_pad x y : alphabet x y -> forall s, bytes s -> forall c, In c (core x y s) -> c <> 61.
Proof.
  intros A. assert (E : forall v, v < 64 -> forall c, enc6 x y v = c -> c <> 61) by (intros v V c <-; apply dec_enc; assumption).
  apply (triples (fun s => bytes s -> forall c, In c (core x y s) -> c <> 61));
    [intros B d | intros a B d | intros a b B d | intros a b c r IH B d]; cbn [core In].
  - easy.
  - assert (a < 256) by (apply B; now left). intros [X|[X|[]]]; (eapply E; [|exact X]; lia).
  - assert (a < 256 /\ b < 256) by (split; apply B; cbn; auto). intros [X|[X|[X|[]]]]; (eapply E; [|exact X]; lia).
  - assert (a < 256 /\ b < 256 /\ c < 256) by (repeat split; apply B; cbn; auto).
    intros [X|[X|[X|[X|X]]]]; try (eapply E; [|exact X]; lia). apply IH; auto. intros e I. apply B. cbn. auto.
Qed.
Lemma encode_core s : bytes s -> base64_encode s = core 45 95 s.
Proof.
  intros B. unfold base64_encode, urlsafe_b64encode. rewrite core_pad, rstrip_by_app.
  - pose proof (core_no_pad 45 95 (or_intror (conj eq_refl eq_refl)) s B) as F.
    unfold rstrip_by. rewrite lstrip_by_id; [apply rev_involutive|]. destruct (rev (core 45 95 s)) as [|c l] eqn:R; [exact I|].
    apply N.eqb_neq, F. apply in_rev. rewrite R. now left.
  - apply forallb_forall. intros c I. apply repeat_spec in I. subst c. reflexivity.
Qed.
Theorem itsdangerous_round_trip s : bytes s -> base64_decode (base64_encode s) = Some s.
Proof.
  intros B. rewrite encode_core by exact B. unfold base64_decode, urlsafe_b64decode. rewrite <- core_pad.
  change (b64encode_with 45 95) with urlsafe_b64encode. rewrite untranslate_encode by exact B.
  apply b64_round_trip; [left; split; reflexivity | exact B].
Qed.
Theorem itsdangerous_chars s : bytes s -> forall c, In c (base64_encode s) ->
  (65 <= c <= 90) \/ (97 <= c <= 122) \/ (48 <= c <= 57) \/ c = 45 \/ c = 95.
Proof.
  intros B c I. rewrite encode_core in I by exact B.
  pose proof (core_no_pad 45 95 (or_intror (conj eq_refl eq_refl)) s B c I) as F.
  assert (J : In c (b64encode_with 45 95 s)) by (rewrite core_pad; apply in_or_app; now left).
  apply (b64_chars _ _ _ B) in J. tauto.
Qed.

(** Numbers. *)
Lemma big_endian_value f : forall n, n < 256 ^ N.of_nat f -> bytes_to_int (big_endian f n) = n.
Proof.
  induction f as [|f IH]; intros n L; [cbn in *; lia|]. cbn [big_endian]. destruct (n =? 0) eqn:E; [apply N.eqb_eq in E; subst; reflexivity|].
  unfold bytes_to_int. rewrite fold_left_app. cbn [fold_left]. fold (bytes_to_int (big_endian f (n / 256))). rewrite IH; [lia|].
  replace (N.of_nat (S f)) with (N.succ (N.of_nat f)) in L by lia. rewrite N.pow_succ_r' in L.
  apply N.div_lt_upper_bound; lia.
Qed.
Lemma big_endian_bytes f : forall n, bytes (big_endian f n).
Proof.
  induction f as [|f IH]; intros n c; cbn [big_endian]; [intros []|]. destruct (n =? 0); [intros []|].
  intros I. apply in_app_or in I as [I|[<-|[]]]; [exact (IH _ _ I) | lia].
Qed.
Lemma int_bytes n : bytes (int_to_bytes n).
Proof. apply big_endian_bytes. Qed.
Theorem int_round_trip n : bytes_to_int (int_to_bytes n) = n.
Proof.
  apply big_endian_value. destruct n as [|p]; [reflexivity|].
  apply N.lt_le_trans with (2 ^ N.of_nat (N.size_nat (N.pos p))).
  - assert (X : N.of_nat (N.size_nat (N.pos p)) = N.size (N.pos p)) by (cbn [N.size_nat N.size]; clear; induction p as [p IH|p IH|]; cbn; lia).
    rewrite X. apply N.size_gt.
  - apply N.pow_le_mono_l. lia.
Qed.
Example b64_case : b64encode (u "user:pass") = u "dXNlcjpwYXNz" /\ b64decode (u "dXNlcjp") = None /\ b64decode (u "dXN!lcg==junk") = Some (u "user")
  /\ base64_encode [251; 255; 0; 7] = u "-_8ABw" /\ base64_decode (u "-_8ABw") = Some [251; 255; 0; 7] /\ int_to_bytes 1700000000 = [101; 83; 241; 0].
Proof. repeat split; vm_compute; reflexivity. Qed.
