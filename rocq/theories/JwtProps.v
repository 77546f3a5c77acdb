(** C208-C213: tokens. *)
From Verif Require Import PyStr PyStrFacts PathIncProofs JwtModel.
Local Open Scope Z_scope.

(** The promise of the library: what was signed is verified with the same key when the algorithm is allowed. *)
Definition trusted (sign : dict value -> str -> str -> option str) (verify : str -> str -> list str -> option (dict value)) : Prop :=
  forall p key a allowed text, In a allowed -> sign p key a = Some text -> verify text key allowed = Some p.
(** Two tokens that say the same: the same moments, the same texts. *)
Definition says_same (local : Z -> Z) (a b : token) : Prop :=
  timestamp local (t_exp a) = timestamp local (t_exp b) /\ timestamp local (t_iat a) = timestamp local (t_iat b) /\
  t_sub a = t_sub b /\ t_iss a = t_iss b /\ t_aud a = t_aud b /\ t_jti a = t_jti b.

Lemma million_pos : 0 < million. Proof. reflexivity. Qed.
Lemma floor_le x : x / million * million <= x < x / million * million + million.
Proof. unfold million. lia. Qed.
Lemma make_inv local now data t : make local now data = Some t ->
  (exists v d, dget (u "exp") data = Some v /\ read_date v = Some d /\ t_exp t = convert_time d /\ now / million * million <= timestamp local (t_exp t)) /\
  (t_iat t = convert_time (utc now) \/ exists v d, dget (u "iat") data = Some v /\ read_date v = Some d /\ t_iat t = convert_time d) /\
  timestamp local (t_iat t) <= now / million * million /\
  read_sub (dget (u "sub") data) = Some (t_sub t) /\ read_text (dget (u "iss") data) = Some (t_iss t) /\ read_text (dget (u "aud") data) = Some (t_aud t) /\ read_text (dget (u "jti") data) = Some (t_jti t).
Proof.
  unfold make, validate_exp, validate_iat. replace (timestamp local (convert_time (utc now))) with (now / million * million) by (unfold timestamp, convert_time, utc, million; cbn; lia).
  destruct (dget (u "exp") data) as [v|]; [|discriminate]. destruct (read_date v) as [d|] eqn:R; [|discriminate].
  destruct (timestamp local (convert_time d) >=? now / million * million) eqn:G; [|discriminate].
  assert (I : forall i, match dget (u "iat") data with Some v => match read_date v with Some d => if timestamp local (convert_time d) <=? now / million * million then Some (convert_time d) else None | None => None end | None => Some (convert_time (utc now)) end = Some i ->
    (i = convert_time (utc now) \/ exists v d, dget (u "iat") data = Some v /\ read_date v = Some d /\ i = convert_time d) /\ timestamp local i <= now / million * million).
  { intros i. destruct (dget (u "iat") data) as [w|].
    - destruct (read_date w) as [d'|] eqn:R'; [|discriminate]. destruct (timestamp local (convert_time d') <=? now / million * million) eqn:L; [|discriminate]. intros [= <-]. split; [right; eauto | lia].
    - intros [= <-]. split; [now left|]. unfold timestamp, convert_time, utc, million. cbn. lia. }
  match goal with |- context [match ?x with Some i => match read_sub _ with _ => _ end | None => None end] => destruct x as [i|]; [|discriminate] end.
  destruct (I i eq_refl) as (I1 & I2).
  destruct (read_sub (dget (u "sub") data)) as [s|]; [|discriminate]. destruct (read_text (dget (u "iss") data)) as [x1|]; [|discriminate].
  destruct (read_text (dget (u "aud") data)) as [x2|]; [|discriminate]. destruct (read_text (dget (u "jti") data)) as [x3|]; [|discriminate].
  intros E. assert (X : t = {| t_exp := convert_time d; t_iat := i; t_sub := s; t_iss := x1; t_aud := x2; t_jti := x3 |}) by congruence. subst t. cbn [t_exp t_iat t_sub t_iss t_aud t_jti].
  refine (conj (ex_intro _ v (ex_intro _ d (conj eq_refl (conj R (conj eq_refl _))))) (conj I1 (conj I2 (conj eq_refl (conj eq_refl (conj eq_refl eq_refl)))))). lia.
Qed.
(** The claims of a token as they are signed. *)
Lemma signed_claims t : map number_claim (payload t []) =
  [(u "exp", VInt (seconds (t_exp t))); (u "iat", VInt (seconds (t_iat t)))]
  ++ some_claim (u "sub") (t_sub t) ++ some_claim (u "iss") (t_iss t) ++ some_claim (u "aud") (t_aud t) ++ some_claim (u "jti") (t_jti t).
Proof. unfold payload, model_dump. destruct (t_sub t), (t_iss t), (t_aud t), (t_jti t); reflexivity. Qed.
Lemma get_signed t : let p := map number_claim (payload t []) in
  dget (u "exp") p = Some (VInt (seconds (t_exp t))) /\ dget (u "iat") p = Some (VInt (seconds (t_iat t))) /\
  dget (u "sub") p = option_map VStr (t_sub t) /\ dget (u "iss") p = option_map VStr (t_iss t) /\ dget (u "aud") p = option_map VStr (t_aud t) /\ dget (u "jti") p = option_map VStr (t_jti t).
Proof. cbv zeta. rewrite signed_claims. destruct (t_sub t), (t_iss t), (t_aud t), (t_jti t); refine (conj eq_refl (conj eq_refl (conj eq_refl (conj eq_refl (conj eq_refl eq_refl))))). Qed.
Definition whole (d : dt) : Prop := wall d mod million = 0.
Lemma whole_convert d : whole (convert_time d).
Proof. unfold whole, convert_time. cbn. apply Z.mod_mul. discriminate. Qed.
Lemma aware_seconds local d : whole d -> off d <> None -> seconds d * million = timestamp local d.
Proof. unfold whole, seconds, timestamp. destruct (off d) as [o|]; [|congruence]. intros W _. unfold million in *. lia. Qed.
Lemma text_back o : read_text (option_map VStr o) = Some o. Proof. destruct o; reflexivity. Qed.
Lemma sub_back o : o <> Some [] -> read_sub (option_map VStr o) = Some o. Proof. destruct o as [[|c s]|]; [congruence | reflexivity | reflexivity]. Qed.
Lemma sub_filled o s : read_sub o = Some s -> s <> Some [].
Proof.
  destruct o as [[|z|[|c x]|d|x]|]; cbn [read_sub]; try congruence; try (intros [= <-]; discriminate).
  destruct (1 <=? z); [|discriminate]. intros [= <-] [= E]. pose proof (int_parse_decz z) as P. rewrite E in P. discriminate P.
Qed.
Lemma decode_signed verify local now1 now2 leeway t text key algs :
  verify text key algs = Some (map number_claim (payload t [])) -> t_sub t <> Some [] ->
  let date z := {| wall := if Z.abs z <=? watershed then z * million else z * 1000; off := Some 0 |} in
  decode verify local now1 now2 leeway text key algs =
  if negb (seconds (t_iat t) * million >? now1 + leeway) && negb (seconds (t_exp t) * million <=? now1 - leeway) then
    match validate_exp local now2 (date (seconds (t_exp t))), validate_iat local now2 (date (seconds (t_iat t))) with
    | Some e, Some i => Some {| t_exp := e; t_iat := i; t_sub := t_sub t; t_iss := t_iss t; t_aud := t_aud t; t_jti := t_jti t |}
    | _, _ => None
    end
  else None.
Proof.
  intros V S0 date. unfold decode. rewrite V. destruct (get_signed t) as (G1 & G2 & G3 & G4 & G5 & G6). unfold in_time, make. rewrite G1, G2, G3, G4, G5, G6. cbn [claim_int read_date].
  rewrite !text_back, sub_back by exact S0. reflexivity.
Qed.

(** * C208: a token comes back *)
Theorem C208_round_trip : forall sign verify local now0 data t key algorithm algorithms text now1 now2,
  trusted sign verify -> make local now0 data = Some t ->
  off (t_exp t) <> None -> off (t_iat t) <> None -> Z.abs (seconds (t_exp t)) <= 20000000000 -> Z.abs (seconds (t_iat t)) <= 20000000000 ->
  encode sign t key algorithm [] = Some text -> In algorithm algorithms ->
  now0 <= now1 -> now1 <= now2 -> now2 < timestamp local (t_exp t) ->
  exists t', decode verify local now1 now2 0 text key algorithms = Some t' /\ says_same local t' t.
Proof.
  intros sign verify local now0 data t key a algs text now1 now2 TR M OE OI BE BI E IN L01 L12 LE. destruct (make_inv _ _ _ _ M) as ((v & d & G & R & XE & _) & I1 & I2 & S0 & _).
  pose proof (TR _ _ _ algs _ IN E) as V. apply (decode_signed verify local now1 now2 0 t) in V; [|exact (sub_filled _ _ S0)]. cbv zeta in V.
  assert (WE : whole (t_exp t)) by (rewrite XE; apply whole_convert). assert (WI : whole (t_iat t)) by (destruct I1 as [-> |(w & d' & _ & _ & ->)]; apply whole_convert).
  pose proof (aware_seconds local _ WE OE) as SE. pose proof (aware_seconds local _ WI OI) as SI. pose proof (floor_le now0) as F0. pose proof (floor_le now2) as F2. pose proof million_pos as MP.
  replace (negb (seconds (t_iat t) * million >? now1 + 0)) with true in V by lia. replace (negb (seconds (t_exp t) * million <=? now1 - 0)) with true in V by lia. cbn [andb] in V.
  fold watershed in BE, BI. replace (Z.abs (seconds (t_exp t)) <=? watershed) with true in V by (unfold watershed in *; lia). replace (Z.abs (seconds (t_iat t)) <=? watershed) with true in V by (unfold watershed in *; lia).
  assert (C : forall z, convert_time {| wall := z * million; off := Some 0 |} = {| wall := z * million; off := Some 0 |}) by (intros z; unfold convert_time; cbn; rewrite Z.div_mul by discriminate; reflexivity).
  unfold validate_exp, validate_iat in V. rewrite !C in V. unfold timestamp in V. cbn [off wall convert_time utc] in V. rewrite !Z.mul_0_l, !Z.sub_0_r in V.
  replace (seconds (t_exp t) * million >=? now2 / million * million) with true in V by lia.
  replace (seconds (t_iat t) * million <=? now2 / million * million) with true in V; cycle 1.
  { symmetry. apply Z.leb_le. transitivity (now0 / million * million); [lia|]. apply Z.mul_le_mono_nonneg_r; [lia|]. apply Z.div_le_mono; lia. }
  eexists. split; [exact V|]. unfold says_same. cbn [t_exp t_iat t_sub t_iss t_aud t_jti]. rewrite <- SE, <- SI. unfold timestamp. cbn [off wall]. repeat split; lia.
Qed.
Print Assumptions C208_round_trip.
(** A library that keeps one claim set for the key and algorithm it knows, and a token of it. *)
Definition claims : dict value := [(u "exp", VInt 2000000000); (u "iat", VInt 1700000000); (u "sub", VStr (u "42"))].
Definition veq (a b : value) : bool := match a, b with VInt x, VInt y => x =? y | VStr x, VStr y => seqb x y | _, _ => false end.
Definition is_claims (p : dict value) : bool := Nat.eqb (length p) 3 && forallb (fun e => match dget (fst e) p with Some v => veq (snd e) v | None => false end) claims && seqb (concat (map fst p)) (concat (map fst claims)).
Definition a_token : token := {| t_exp := {| wall := 2000007200000000; off := Some 7200 |}; t_iat := {| wall := 1700000000000000; off := Some 0 |}; t_sub := Some (u "42"); t_iss := None; t_aud := None; t_jti := None |}.
Example C208_case : let data := [(u "exp", VDate {| wall := 2000007200000123; off := Some 7200 |}); (u "iat", VInt 1700000000); (u "sub", VInt 42)] in
  make (fun x => x) 1700000000500000 data = Some a_token /\ seconds (t_exp a_token) = 2000000000 /\ map number_claim (payload a_token []) = claims /\
  make (fun x => x) 1800000000000000 claims = Some {| t_exp := {| wall := 2000000000000000; off := Some 0 |}; t_iat := {| wall := 1700000000000000; off := Some 0 |}; t_sub := Some (u "42"); t_iss := None; t_aud := None; t_jti := None |}.
Proof. vm_compute. auto. Qed.

(** * C209: every token does *)
Definition C209_statement : Prop := forall sign verify local now0 data t key algorithm algorithms text now1 now2,
  trusted sign verify -> make local now0 data = Some t -> encode sign t key algorithm [] = Some text -> In algorithm algorithms ->
  now0 <= now1 -> now1 <= now2 -> now2 < timestamp local (t_exp t) ->
  exists t', decode verify local now1 now2 0 text key algorithms = Some t' /\ says_same local t' t.
(** A library for the refutations: it signs one payload. *)
Definition value_eq (a b : value) : {a = b} + {a <> b}.
Proof. decide equality; try apply Z.eq_dec; try (apply list_eq_dec, N.eq_dec). destruct d, d0. decide equality; [decide equality|]; apply Z.eq_dec. Defined.
Definition payload_eq (a b : dict value) : {a = b} + {a <> b}.
Proof. apply list_eq_dec. decide equality; [apply value_eq | apply list_eq_dec, N.eq_dec]. Defined.
Definition signs_one (p : dict value) (q : dict value) (key a : str) : option str := if payload_eq q p then Some [] else None.
Lemma one_trusted p : trusted (signs_one p) (fun _ _ _ => Some p).
Proof. intros q key a allowed text _. unfold signs_one. destruct (payload_eq q p) as [->|]; [reflexivity | discriminate]. Qed.
Lemma signs_it p key a : signs_one p p key a = Some [].
Proof. unfold signs_one. destruct (payload_eq p p); [reflexivity | congruence]. Qed.
(** A naive date, two hours east of Greenwich: the token lives two hours longer. *)
Definition hour : Z := 3600000000.
Definition east (w : Z) : Z := w - 2 * hour.
Definition naive_token : token := {| t_exp := {| wall := 2000 * hour; off := None |}; t_iat := {| wall := 1000 * hour; off := Some 0 |}; t_sub := None; t_iss := None; t_aud := None; t_jti := None |}.
Theorem C209_naive_refuted : ~ C209_statement.
Proof.
  intros H. set (p := map number_claim (payload naive_token [])).
  destruct (H (signs_one p) (fun _ _ _ => Some p) east (1000 * hour) [(u "exp", VDate {| wall := 2000 * hour; off := None |})] naive_token [] [] [[]] [] (1001 * hour) (1001 * hour)) as (t' & E & S1 & _).
  - apply one_trusted.
  - vm_compute. reflexivity.
  - apply signs_it.
  - now left.
  - vm_compute. discriminate.
  - vm_compute. discriminate.
  - vm_compute. reflexivity.
  - vm_compute in E. injection E as <-. vm_compute in S1. discriminate S1.
Qed.
Print Assumptions C209_naive_refuted.
(** The last day of the calendar: refused, since the number is read as milliseconds. *)
Definition last_day : Z := 253402214400 * million.
Definition eternal : token := {| t_exp := {| wall := last_day; off := Some 0 |}; t_iat := {| wall := 1000 * hour; off := Some 0 |}; t_sub := None; t_iss := None; t_aud := None; t_jti := None |}.
Theorem C209_eternal_refuted : ~ C209_statement.
Proof.
  intros H. set (p := map number_claim (payload eternal [])). set (now := 1700000000 * million).
  destruct (H (signs_one p) (fun _ _ _ => Some p) (fun x => x) (1000 * hour) [(u "exp", VDate {| wall := last_day; off := Some 0 |})] eternal [] [] [[]] [] now now) as (t' & E & _).
  - apply one_trusted.
  - vm_compute. reflexivity.
  - apply signs_it.
  - now left.
  - vm_compute. discriminate.
  - apply Z.le_refl.
  - vm_compute. reflexivity.
  - vm_compute in E. discriminate E.
Qed.
Print Assumptions C209_eternal_refuted.
(** What comes back, if anything: a naive date is taken for one in UTC, a number beyond 2e10 for milliseconds. *)
Theorem C209_exact_partial : forall sign verify local now0 data t key algorithm algorithms text now1 now2 leeway t',
  trusted sign verify -> make local now0 data = Some t -> encode sign t key algorithm [] = Some text -> In algorithm algorithms ->
  decode verify local now1 now2 leeway text key algorithms = Some t' ->
  off (t_exp t') = Some 0 /\ off (t_iat t') = Some 0 /\
  (Z.abs (seconds (t_exp t)) <= 20000000000 -> wall (t_exp t') = match off (t_exp t) with Some o => wall (t_exp t) - o * 1000000 | None => wall (t_exp t) end) /\
  (20000000000 < Z.abs (seconds (t_exp t)) -> wall (t_exp t') <= seconds (t_exp t) * 1000) /\
  t_sub t' = t_sub t /\ t_iss t' = t_iss t /\ t_aud t' = t_aud t /\ t_jti t' = t_jti t.
Proof.
  intros sign verify local now0 data t key a algs text now1 now2 leeway t' TR M E IN DE. destruct (make_inv _ _ _ _ M) as ((v & d & G & R & XE & _) & I1 & I2 & S0 & _).
  pose proof (TR _ _ _ algs _ IN E) as V. rewrite (decode_signed verify local now1 now2 leeway t _ _ _ V (sub_filled _ _ S0)) in DE.
  destruct (_ && _); [|discriminate]. unfold validate_exp, validate_iat in DE. destruct (_ >=? _); [|discriminate]. destruct (_ <=? timestamp _ _); [|discriminate].
  assert (X : t' = {| t_exp := convert_time {| wall := if Z.abs (seconds (t_exp t)) <=? watershed then seconds (t_exp t) * million else seconds (t_exp t) * 1000; off := Some 0 |};
    t_iat := convert_time {| wall := if Z.abs (seconds (t_iat t)) <=? watershed then seconds (t_iat t) * million else seconds (t_iat t) * 1000; off := Some 0 |};
    t_sub := t_sub t; t_iss := t_iss t; t_aud := t_aud t; t_jti := t_jti t |}) by congruence. clear DE. subst t'. unfold convert_time. cbn [t_exp t_iat t_sub t_iss t_aud t_jti off wall].
  refine (conj eq_refl (conj eq_refl (conj _ (conj _ (conj eq_refl (conj eq_refl (conj eq_refl eq_refl))))))).
  - intros B. fold watershed in B. replace (Z.abs (seconds (t_exp t)) <=? watershed) with true by lia. rewrite Z.div_mul by discriminate. assert (W : whole (t_exp t)) by (rewrite XE; apply whole_convert).
    unfold whole, seconds in *. unfold million in *. destruct (off (t_exp t)); lia.
  - intros B. fold watershed in B. replace (Z.abs (seconds (t_exp t)) <=? watershed) with false by lia. apply (proj1 (floor_le _)).
Qed.
Print Assumptions C209_exact_partial.
Example C209_case : make east (1000 * hour) [(u "exp", VDate {| wall := 2000 * hour; off := None |})] = Some naive_token /\
  decode (fun _ _ _ => Some (map number_claim (payload naive_token []))) east (1999 * hour) (1999 * hour) 0 [] [] [] =
    Some {| t_exp := {| wall := 2000 * hour; off := Some 0 |}; t_iat := {| wall := 1000 * hour; off := Some 0 |}; t_sub := None; t_iss := None; t_aud := None; t_jti := None |} /\
  timestamp east (t_exp naive_token) < 1999 * hour.
Proof. refine (conj _ (conj _ _)); vm_compute; reflexivity. Qed.

(** * C210: no expired token is accepted *)
(** Whatever text, key and leeway: when a token is returned its expiry is less than a second past, and it was not
    issued in the future. *)
Theorem C210_not_expired : forall verify local now1 now2 leeway text key algorithms t,
  decode verify local now1 now2 leeway text key algorithms = Some t ->
  now2 - 1000000 < timestamp local (t_exp t) /\ timestamp local (t_iat t) <= now2 /\
  exists data, verify text key algorithms = Some data /\ (forall z, dget (u "exp") data = Some (VInt z) -> now1 - leeway < z * 1000000) /\ (forall z, dget (u "iat") data = Some (VInt z) -> z * 1000000 <= now1 + leeway).
Proof.
  intros verify local now1 now2 leeway text key algs t E. unfold decode in E. destruct (verify text key algs) as [data|]; [|discriminate]. destruct (in_time now1 leeway data) eqn:T; [|discriminate].
  destruct (make_inv _ _ _ _ E) as ((v & d & G & R & XE & LE) & I1 & I2 & _). pose proof (floor_le now2) as F. fold million. refine (conj _ (conj _ _)); [lia | lia|]. exists data. split; [reflexivity|].
  unfold in_time in T. apply andb_true_iff in T. destruct T as (T1 & T2). split; intros z H; rewrite H in *; cbn [claim_int] in *; lia.
Qed.
Print Assumptions C210_not_expired.
Example C210_case : decode (fun _ _ _ => Some claims) (fun x => x) (1999999999 * million) (1999999999 * million) 0 [] [] [] <> None /\
  decode (fun _ _ _ => Some claims) (fun x => x) (2000000000 * million) (2000000000 * million) 0 [] [] [] = None.
Proof. split; vm_compute; congruence. Qed.

(** * C211: leeway *)
(** A token that was fine is accepted until its expiry plus the leeway. *)
Definition C211_statement : Prop := forall local now leeway data z, 0 <= leeway ->
  dget (u "exp") data = Some (VInt z) -> Z.abs z <= 20000000000 -> (exists now0, make local now0 data <> None /\ now0 <= now) -> now < z * 1000000 + leeway ->
  decode (fun _ _ _ => Some data) local now now leeway [] [] [] <> None.
Theorem C211_refuted : ~ C211_statement.
Proof.
  intros H. assert (W : exists now0, make (fun x => x) now0 claims <> None /\ now0 <= 2000000030 * million) by (exists (1800000000 * million); split; vm_compute; congruence).
  assert (P : 0 <= 60 * million /\ Z.abs 2000000000 <= 20000000000 /\ 2000000030 * million < 2000000000 * 1000000 + 60 * million) by (unfold million; lia).
  destruct P as (P1 & P2 & P3). apply (H (fun x => x) (2000000030 * million) (60 * million) claims 2000000000 P1 eq_refl P2 W P3). vm_compute. reflexivity.
Qed.
Print Assumptions C211_refuted.
(** It is accepted until the second of its expiry ends, and with no leeway until that second begins. *)
Theorem C211_exact_partial : forall local now leeway data z, 0 <= leeway ->
  dget (u "exp") data = Some (VInt z) -> dget (u "iat") data = None -> Z.abs z <= 20000000000 -> (exists now0, make local now0 data <> None) ->
  decode (fun _ _ _ => Some data) local now now leeway [] [] [] <> None <-> now < z * 1000000 + Z.min leeway 1000000.
Proof.
  intros local now leeway data z L G GI B (now0 & M0). unfold decode, in_time. rewrite G, GI. cbn [claim_int andb]. fold million.
  destruct (make local now0 data) as [t|] eqn:M; [|congruence]. destruct (make_inv _ _ _ _ M) as (_ & _ & _ & S1 & S2 & S3 & S4).
  assert (X : make local now data = if z * million >=? now / million * million then Some {| t_exp := {| wall := z * million; off := Some 0 |}; t_iat := convert_time (utc now); t_sub := t_sub t; t_iss := t_iss t; t_aud := t_aud t; t_jti := t_jti t |} else None).
  { unfold make. rewrite G, GI, S1, S2, S3, S4. cbn [read_date]. fold watershed in B. replace (Z.abs z <=? watershed) with true by (unfold watershed in *; lia). unfold validate_exp, convert_time, utc, timestamp. cbn [off wall].
    rewrite Z.div_mul by discriminate. rewrite !Z.mul_0_l, !Z.sub_0_r. destruct (z * million >=? now / million * million); reflexivity. }
  rewrite X. pose proof (floor_le now) as F. unfold million in *. destruct (z * 1000000 <=? now - leeway) eqn:A; cbn [negb]; [split; [congruence | lia]|].
  destruct (z * 1000000 >=? now / 1000000 * 1000000) eqn:C; (split; [try congruence; lia | try congruence; lia]).
Qed.
Print Assumptions C211_exact_partial.
Example C211_case : dget (u "iat") [(u "exp", VInt 2000000000)] = None /\ make (fun x => x) 0 [(u "exp", VInt 2000000000)] <> None.
Proof. split; vm_compute; congruence. Qed.

(** * C212: None for an optional claim *)
Definition C212_statement : Prop := forall local now data k, In k [u "sub"; u "iss"; u "aud"; u "jti"] -> dget k data = None ->
  make local now ((k, VNull) :: data) = make local now data.
Theorem C212_refuted : ~ C212_statement.
Proof. intros H. specialize (H (fun x => x) 0 [(u "exp", VInt 5)] (u "sub") ltac:(now left) eq_refl). vm_compute in H. discriminate H. Qed.
Print Assumptions C212_refuted.
(** It holds for the others; a subject None becomes the text "None". *)
Theorem C212_others_partial : forall local now data k, In k [u "iss"; u "aud"; u "jti"] -> dget k data = None ->
  make local now ((k, VNull) :: data) = make local now data /\
  (dget (u "sub") data = None -> make local now ((u "sub", VNull) :: data) = make local now ((u "sub", VStr (u "None")) :: data)).
Proof.
  intros local now data k I G. split; [|reflexivity]. assert (O : forall n, n <> k -> dget n ((k, VNull) :: data) = dget n data) by (intros n NE; cbn [dget]; now rewrite (proj2 (seqb_neq n k) NE)).
  unfold make. cbn [In] in I. destruct I as [<-|[<-|[<-|[]]]]; rewrite !O by (vm_compute; discriminate); rewrite G; reflexivity.
Qed.
Print Assumptions C212_others_partial.
Example C212_case : make (fun x => x) 0 [(u "aud", VNull); (u "exp", VInt 5)] = make (fun x => x) 0 [(u "exp", VInt 5)] /\ make (fun x => x) 0 [(u "exp", VInt 5)] <> None.
Proof. split; vm_compute; congruence. Qed.

(** * C213: further claims *)
(** Claims given to encode are signed, in place of the token's own if they have its names, and a token is made from
    its six names alone. *)
Theorem C213_extra : forall t extra k local now data data',
  (NoDup (dkeys extra) -> dget k (payload t extra) = match dget k extra with Some v => Some v | None => dget k (model_dump t) end) /\
  ((forall n, In n [u "exp"; u "iat"; u "sub"; u "iss"; u "aud"; u "jti"] -> dget n data = dget n data') -> make local now data = make local now data').
Proof.
  intros t extra k local now data data'. split.
  - intros ND. unfold payload. now rewrite PathIncProofs.dget_dupdate by exact ND.
  - intros H. unfold make. rewrite !(H _) by (cbn [In]; tauto). reflexivity.
Qed.
Print Assumptions C213_extra.
Example C213_case : dget (u "exp") (payload a_token [(u "exp", VInt 5); (u "role", VStr (u "admin"))]) = Some (VInt 5) /\ dget (u "sub") (payload a_token [(u "exp", VInt 5)]) = Some (VStr (u "42")).
Proof. vm_compute. auto. Qed.
