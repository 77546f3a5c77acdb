(** UTF-8, and percent-encoding as in urllib.parse.  Library behaviour of CPython only. *)
From Verif Require Import PyStr PyStrFacts.

(** A Unicode scalar value: not a surrogate. *)
Definition scalar (c : N) : Prop := (c < 55296 \/ 57344 <= c < 1114112)%N.

(** [str.encode("utf-8")] of one scalar. *)
Definition enc1 (c : N) : str :=
  if (c <? 128)%N then [c]
  else if (c <? 2048)%N then [192 + c / 64; 128 + c mod 64]%N
  else if (c <? 65536)%N then [224 + c / 4096; 128 + (c / 64) mod 64; 128 + c mod 64]%N
  else [240 + c / 262144; 128 + (c / 4096) mod 64; 128 + (c / 64) mod 64; 128 + c mod 64]%N.
Definition utf8_enc (s : str) : str := flat_map enc1 s.

Definition between (a b x : N) : bool := ((a <=? x) && (x <=? b))%N.
Definition cont (x : N) : bool := between 128 191 x.
(** Second bytes allowed after a lead byte of a three or four byte sequence. *)
Definition ok3 (b0 b1 : N) : bool :=
  if N.eqb b0 224 then between 160 191 b1 else if N.eqb b0 237 then between 128 159 b1 else cont b1.
Definition ok4 (b0 b1 : N) : bool :=
  if N.eqb b0 240 then between 144 191 b1 else if N.eqb b0 244 then between 128 143 b1 else cont b1.
Definition fffd : N := 65533.

(** [bytes.decode("utf-8", "replace")]: each maximal ill-formed prefix gives one U+FFFD. *)
Fixpoint utf8_dec (s : str) : str :=
  match s with
  | [] => []
  | b0 :: r =>
      if (b0 <? 128)%N then b0 :: utf8_dec r
      else if between 194 223 b0 then
        match r with
        | b1 :: r1 => if cont b1 then ((b0 - 192) * 64 + (b1 - 128))%N :: utf8_dec r1 else fffd :: utf8_dec r
        | [] => [fffd]
        end
      else if between 224 239 b0 then
        match r with
        | b1 :: r1 =>
            if ok3 b0 b1 then
              match r1 with
              | b2 :: r2 => if cont b2 then ((b0 - 224) * 4096 + (b1 - 128) * 64 + (b2 - 128))%N :: utf8_dec r2
                            else fffd :: utf8_dec r1
              | [] => [fffd]
              end
            else fffd :: utf8_dec r
        | [] => [fffd]
        end
      else if between 240 244 b0 then
        match r with
        | b1 :: r1 =>
            if ok4 b0 b1 then
              match r1 with
              | b2 :: r2 =>
                  if cont b2 then
                    match r2 with
                    | b3 :: r3 => if cont b3 then ((b0 - 240) * 262144 + (b1 - 128) * 4096 + (b2 - 128) * 64 + (b3 - 128))%N :: utf8_dec r3
                                  else fffd :: utf8_dec r2
                    | [] => [fffd]
                    end
                  else fffd :: utf8_dec r1
              | [] => [fffd]
              end
            else fffd :: utf8_dec r
        | [] => [fffd]
        end
      else fffd :: utf8_dec r
  end.

(** Hexadecimal digits. *)
Definition hexval (c : N) : option N :=
  if between 48 57 c then Some (c - 48)%N
  else if between 97 102 c then Some (c - 87)%N
  else if between 65 70 c then Some (c - 55)%N
  else None.
Definition hexdigit (v : N) : N := if (v <? 10)%N then (48 + v)%N else (55 + v)%N.

(** [unquote_to_bytes] on ASCII. *)
Fixpoint unquote_bytes (s : str) : str :=
  match s with
  | [] => []
  | c :: r =>
      if N.eqb c 37 then
        match r with
        | a :: (b :: r2) => match hexval a, hexval b with
                            | Some x, Some y => (x * 16 + y)%N :: unquote_bytes r2
                            | _, _ => c :: unquote_bytes r
                            end
        | _ => c :: unquote_bytes r
        end
      else c :: unquote_bytes r
  end.

Definition is_ascii (c : N) : bool := (c <? 128)%N.

(** [unquote]: each maximal ASCII run is percent-decoded and read as UTF-8; [run] is the current
    run, reversed. *)
Fixpoint unquote_go (run : str) (s : str) : str :=
  match s with
  | [] => utf8_dec (unquote_bytes (rev run))
  | c :: r => if is_ascii c then unquote_go (c :: run) r
              else utf8_dec (unquote_bytes (rev run)) ++ c :: unquote_go [] r
  end.
Definition unquote (s : str) : str := if cmem 37 s then unquote_go [] s else s.

(** [s.replace("+", " ")] and [unquote_plus]. *)
Definition plus_to_space (s : str) : str := map (fun c => if N.eqb c 43 then 32%N else c) s.
Definition unquote_plus (s : str) : str := unquote (plus_to_space s).

(** [quote_plus] of a byte, and of a text: unreserved characters stay, a space becomes "+". *)
Definition unreserved (b : N) : bool :=
  between 48 57 b || between 65 90 b || between 97 122 b || N.eqb b 95 || N.eqb b 46 || N.eqb b 45 || N.eqb b 126.
Definition quote_byte (b : N) : str :=
  if unreserved b then [b] else [37%N; hexdigit (b / 16); hexdigit (b mod 16)].
Definition quote_plus_byte (b : N) : str := if N.eqb b 32 then [43%N] else quote_byte b.
Definition quote_plus (s : str) : str := flat_map quote_plus_byte (utf8_enc s).

(** ** Facts *)
Lemma between_spec a b x : between a b x = true <-> (a <= x <= b)%N.
Proof. unfold between. rewrite andb_true_iff, !N.leb_le. lia. Qed.

Lemma between_true a b x : (a <= x <= b)%N -> between a b x = true.
Proof. apply between_spec. Qed.
Lemma between_false a b x : (x < a \/ b < x)%N -> between a b x = false.
Proof.
  intros H. destruct (between a b x) eqn:E; [|reflexivity]. apply between_spec in E. lia.
Qed.

Lemma dec_enc1 c r : scalar c -> utf8_dec (enc1 c ++ r) = c :: utf8_dec r.
Proof.
  intros Hs. unfold enc1.
  destruct (N.ltb_spec c 128) as [H1|H1].
  { cbn [app utf8_dec]. replace (c <? 128)%N with true by (symmetry; apply N.ltb_lt; lia). reflexivity. }
  assert (D1 := N.div_mod' c 64). assert (M1 := N.mod_lt c 64 ltac:(lia)).
  assert (D2 := N.div_mod' (c / 64) 64). assert (M2 := N.mod_lt (c / 64) 64 ltac:(lia)).
  assert (D3 := N.div_mod' (c / 4096) 64). assert (M3 := N.mod_lt (c / 4096) 64 ltac:(lia)).
  assert (E1 : (c / 64 / 64 = c / 4096)%N) by (rewrite N.div_div by lia; reflexivity).
  assert (E2 : (c / 4096 / 64 = c / 262144)%N) by (rewrite N.div_div by lia; reflexivity).
  rewrite E1 in D2. rewrite E2 in D3.
  set (q1 := (c / 64)%N) in *. set (q2 := (c / 4096)%N) in *. set (q3 := (c / 262144)%N) in *.
  set (r1 := (c mod 64)%N) in *. set (r2 := (q1 mod 64)%N) in *. set (r3 := (q2 mod 64)%N) in *.
  destruct (N.ltb_spec c 2048) as [H2|H2].
  { cbn [app utf8_dec].
    replace (192 + q1 <? 128)%N with false by (symmetry; apply N.ltb_ge; lia).
    rewrite between_true by lia. unfold cont. rewrite between_true by lia. f_equal. lia. }
  destruct (N.ltb_spec c 65536) as [H3|H3].
  { cbn [app utf8_dec].
    replace (224 + q2 <? 128)%N with false by (symmetry; apply N.ltb_ge; lia).
    rewrite (between_false 194 223) by lia. rewrite (between_true 224 239) by lia.
    assert (O : ok3 (224 + q2) (128 + r2) = true).
    { unfold ok3, cont. destruct (N.eqb_spec (224 + q2) 224); [apply between_true; lia|].
      destruct (N.eqb_spec (224 + q2) 237); apply between_true; unfold scalar in Hs; lia. }
    rewrite O. unfold cont. rewrite between_true by lia. f_equal. lia. }
  cbn [app utf8_dec]. unfold scalar in Hs.
  replace (240 + q3 <? 128)%N with false by (symmetry; apply N.ltb_ge; lia).
  rewrite (between_false 194 223) by lia. rewrite (between_false 224 239) by lia. rewrite (between_true 240 244) by lia.
  assert (O : ok4 (240 + q3) (128 + r3) = true).
  { unfold ok4, cont. destruct (N.eqb_spec (240 + q3) 240); [apply between_true; lia|].
    destruct (N.eqb_spec (240 + q3) 244); apply between_true; lia. }
  rewrite O. unfold cont. rewrite !between_true by lia. f_equal. lia.
Qed.

Lemma dec_enc s : (forall c, In c s -> scalar c) -> utf8_dec (utf8_enc s) = s.
Proof.
  induction s as [|c s IH]; intros H; [reflexivity|]. cbn [utf8_enc flat_map]. rewrite dec_enc1 by (apply H; left; reflexivity).
  f_equal. apply IH. intros x Hx. apply H. right. exact Hx.
Qed.

Definition ascii_str (s : str) : Prop := forall c, In c s -> (c < 128)%N.
Lemma dec_ascii s : ascii_str s -> utf8_dec s = s.
Proof.
  induction s as [|c s IH]; intros H; [reflexivity|]. cbn [utf8_dec].
  replace (c <? 128)%N with true by (symmetry; apply N.ltb_lt; apply H; left; reflexivity).
  f_equal. apply IH. intros x Hx. apply H. right. exact Hx.
Qed.
Lemma enc_ascii s : ascii_str s -> utf8_enc s = s.
Proof.
  induction s as [|c s IH]; intros H; [reflexivity|]. cbn [utf8_enc flat_map]. unfold enc1.
  replace (c <? 128)%N with true by (symmetry; apply N.ltb_lt; apply H; left; reflexivity).
  cbn [app]. f_equal. apply IH. intros x Hx. apply H. right. exact Hx.
Qed.

Lemma enc1_bytes c x : scalar c -> In x (enc1 c) -> (x < 256)%N.
Proof.
  intros Hs. unfold enc1, scalar in *.
  assert (M1 := N.mod_lt c 64 ltac:(lia)). assert (M2 := N.mod_lt (c / 64) 64 ltac:(lia)). assert (M3 := N.mod_lt (c / 4096) 64 ltac:(lia)).
  destruct (N.ltb_spec c 128); [cbn; intros [<-|[]]; lia|].
  destruct (N.ltb_spec c 2048).
  { assert (c / 64 < 32)%N by (apply N.div_lt_upper_bound; lia). cbn. intros [<-|[<-|[]]]; lia. }
  destruct (N.ltb_spec c 65536).
  { assert (c / 4096 < 16)%N by (apply N.div_lt_upper_bound; lia). cbn. intros [<-|[<-|[<-|[]]]]; lia. }
  assert (c / 262144 < 5)%N by (apply N.div_lt_upper_bound; lia). cbn. intros [<-|[<-|[<-|[<-|[]]]]]; lia.
Qed.

Lemma enc_bytes s x : (forall c, In c s -> scalar c) -> In x (utf8_enc s) -> (x < 256)%N.
Proof.
  intros Hs Hx. unfold utf8_enc in Hx. apply in_flat_map in Hx. destruct Hx as (c & Hc & Hx).
  exact (enc1_bytes c x (Hs c Hc) Hx).
Qed.

Lemma unquote_go_ascii s : forall run, ascii_str s -> unquote_go run s = utf8_dec (unquote_bytes (rev run ++ s)).
Proof.
  induction s as [|c s IH]; intros run H; cbn [unquote_go].
  - rewrite app_nil_r. reflexivity.
  - unfold is_ascii. replace (c <? 128)%N with true by (symmetry; apply N.ltb_lt; apply H; left; reflexivity).
    rewrite IH by (intros x Hx; apply H; right; exact Hx). cbn [rev]. rewrite <- app_assoc. reflexivity.
Qed.

Lemma unquote_bytes_plain s : ~ In 37%N s -> unquote_bytes s = s.
Proof.
  induction s as [|c s IH]; intros H; [reflexivity|]. cbn [unquote_bytes].
  destruct (N.eqb_spec c 37) as [->|E]; [exfalso; apply H; left; reflexivity|].
  f_equal. apply IH. intros X. apply H. right. exact X.
Qed.

Lemma cmem_In c s : cmem c s = true <-> In c s.
Proof.
  unfold cmem. rewrite existsb_exists. split.
  - intros (x & Hx & E). apply N.eqb_eq in E. subst. exact Hx.
  - intros H. exists c. split; [exact H | apply N.eqb_refl].
Qed.

Lemma unquote_ascii s : ascii_str s -> unquote s = utf8_dec (unquote_bytes s).
Proof.
  intros H. unfold unquote. destruct (cmem 37 s) eqn:E.
  - rewrite unquote_go_ascii by exact H. reflexivity.
  - rewrite unquote_bytes_plain, dec_ascii; [reflexivity | exact H |].
    intros X. apply cmem_In in X. congruence.
Qed.

Lemma unquote_plain s : ~ In 37%N s -> unquote s = s.
Proof.
  intros H. unfold unquote. destruct (cmem 37 s) eqn:E; [|reflexivity]. apply cmem_In in E. contradiction.
Qed.

Lemma hexval_hexdigit v : (v < 16)%N -> hexval (hexdigit v) = Some v.
Proof.
  intros H. unfold hexdigit, hexval. destruct (N.ltb_spec v 10).
  - rewrite between_true by lia. f_equal. lia.
  - rewrite (between_false 48 57) by lia. rewrite (between_false 97 102) by lia. rewrite (between_true 65 70) by lia. f_equal. lia.
Qed.

Lemma unreserved_range b : unreserved b = true -> (b < 128)%N /\ b <> 37%N /\ b <> 43%N /\ b <> 32%N /\ b <> 38%N /\ b <> 61%N /\ b <> 59%N.
Proof.
  unfold unreserved. rewrite !orb_true_iff, !between_spec, !N.eqb_eq. lia.
Qed.

Lemma hexdigit_range v : (v < 16)%N -> (hexdigit v < 128 /\ 48 <= hexdigit v <= 70 /\ hexdigit v <> 61 /\ hexdigit v <> 59)%N.
Proof. intros H. unfold hexdigit. destruct (N.ltb_spec v 10); lia. Qed.

Lemma unquote_quote_byte b r : (b < 256)%N -> unquote_bytes (quote_byte b ++ r) = b :: unquote_bytes r.
Proof.
  intros Hb. unfold quote_byte. destruct (unreserved b) eqn:E.
  - apply unreserved_range in E. cbn [app unquote_bytes].
    destruct (N.eqb_spec b 37); [lia | reflexivity].
  - assert (D := N.div_mod' b 16). assert (M := N.mod_lt b 16 ltac:(lia)).
    assert (L : (b / 16 < 16)%N) by (apply N.div_lt_upper_bound; lia).
    cbn [app unquote_bytes]. rewrite N.eqb_refl, !hexval_hexdigit by assumption. f_equal. lia.
Qed.

Lemma quote_byte_ascii b x : (b < 256)%N -> In x (quote_byte b) ->
  (x < 128)%N /\ x <> 43%N /\ x <> 32%N /\ x <> 38%N /\ x <> 61%N /\ x <> 59%N.
Proof.
  intros Hb. unfold quote_byte. destruct (unreserved b) eqn:E.
  - apply unreserved_range in E. intros [<-|[]]. lia.
  - assert (M := N.mod_lt b 16 ltac:(lia)). assert (L : (b / 16 < 16)%N) by (apply N.div_lt_upper_bound; lia).
    apply hexdigit_range in M. apply hexdigit_range in L. cbn [In]. intros [<-|[<-|[<-|[]]]]; lia.
Qed.

Lemma quote_plus_byte_ascii b x : (b < 256)%N -> In x (quote_plus_byte b) -> (x < 128 /\ x <> 32 /\ x <> 38 /\ x <> 61 /\ x <> 59)%N.
Proof.
  intros Hb. unfold quote_plus_byte. destruct (N.eqb b 32).
  - intros [<-|[]]. lia.
  - intros H. apply quote_byte_ascii in H; [lia | exact Hb].
Qed.

Lemma quote_plus_ascii s x : (forall c, In c s -> scalar c) -> In x (quote_plus s) -> (x < 128 /\ x <> 32 /\ x <> 38 /\ x <> 61 /\ x <> 59)%N.
Proof.
  intros Hs Hx. unfold quote_plus in Hx. apply in_flat_map in Hx. destruct Hx as (b & Hb & Hx).
  apply (quote_plus_byte_ascii b); [exact (enc_bytes s b Hs Hb) | exact Hx].
Qed.

Definition space_to_plus (s : str) : str := map (fun c => if N.eqb c 32 then 43%N else c) s.

Lemma unquote_bytes_quote_plus l : (forall b, In b l -> (b < 256)%N) ->
  unquote_bytes (flat_map quote_plus_byte l) = space_to_plus l.
Proof.
  induction l as [|b l IH]; intros H; [reflexivity|]. cbn [flat_map space_to_plus map].
  unfold quote_plus_byte at 1. destruct (N.eqb_spec b 32) as [->|E].
  - cbn [app unquote_bytes]. change (N.eqb 43 37) with false. cbv iota. f_equal. apply IH. intros x Hx. apply H. right. exact Hx.
  - rewrite unquote_quote_byte by (apply H; left; reflexivity). f_equal. apply IH. intros x Hx. apply H. right. exact Hx.
Qed.

Lemma space_to_plus_enc s : (forall c, In c s -> scalar c) -> space_to_plus (utf8_enc s) = utf8_enc (space_to_plus s).
Proof.
  unfold space_to_plus, utf8_enc.
  induction s as [|c s IH]; intros H; [reflexivity|]. cbn [flat_map map].
  rewrite map_app. f_equal.
  - destruct (N.eqb_spec c 32) as [->|E]; [reflexivity|].
    assert (forall x, In x (enc1 c) -> x <> 32%N).
    { unfold enc1. destruct (N.ltb_spec c 128); [intros x [<-|[]]; exact E|].
      destruct (N.ltb_spec c 2048); [|destruct (N.ltb_spec c 65536)]; cbn [In]; intros x Hx;
        repeat (destruct Hx as [<-|Hx]; [generalize (c mod 64)%N ((c / 64) mod 64)%N ((c / 4096) mod 64)%N (c / 64)%N (c / 4096)%N (c / 262144)%N; intros; lia|]); contradiction. }
    revert H0. generalize (enc1 c). intros l Hl. induction l as [|x l IHl]; [reflexivity|]. cbn [map].
    destruct (N.eqb_spec x 32) as [->|_]; [exfalso; apply (Hl 32%N); [left; reflexivity | reflexivity]|].
    f_equal. apply IHl. intros y Hy. apply Hl. right. exact Hy.
  - apply IH. intros x Hx. apply H. right. exact Hx.
Qed.

Lemma space_to_plus_scalar s : (forall c, In c s -> scalar c) -> forall c, In c (space_to_plus s) -> scalar c.
Proof.
  intros H c Hc. unfold space_to_plus in Hc. apply in_map_iff in Hc. destruct Hc as (x & <- & Hx).
  destruct (N.eqb x 32); [left; lia | apply H; exact Hx].
Qed.

(** Percent-decoding undoes [quote_plus] up to the "+" that stands for a space. *)
Lemma unquote_quote_plus s : (forall c, In c s -> scalar c) -> unquote (quote_plus s) = space_to_plus s.
Proof.
  intros H. rewrite unquote_ascii by (intros x Hx; apply (quote_plus_ascii s x H) in Hx; lia).
  unfold quote_plus. rewrite unquote_bytes_quote_plus by (intros b Hb; exact (enc_bytes s b H Hb)).
  rewrite space_to_plus_enc by exact H. apply dec_enc. apply space_to_plus_scalar. exact H.
Qed.

(** The standard decoder. *)
Lemma unquote_plus_quote_plus s : (forall c, In c s -> scalar c) -> unquote_plus (quote_plus s) = s.
Proof.
  intros H. unfold unquote_plus.
  assert (A : ascii_str (quote_plus s)) by (intros x Hx; apply (quote_plus_ascii s x H) in Hx; lia).
  assert (A' : ascii_str (plus_to_space (quote_plus s))).
  { intros x Hx. unfold plus_to_space in Hx. apply in_map_iff in Hx. destruct Hx as (y & <- & Hy). destruct (N.eqb y 43); [lia | apply A; exact Hy]. }
  rewrite unquote_ascii by exact A'. unfold quote_plus.
  assert (G : forall l, (forall b, In b l -> (b < 256)%N) -> unquote_bytes (plus_to_space (flat_map quote_plus_byte l)) = l).
  { induction l as [|b l IH]; intros Hl; [reflexivity|]. cbn [flat_map]. unfold plus_to_space. rewrite map_app. fold (plus_to_space (flat_map quote_plus_byte l)).
    assert (IH' := IH (fun x Hx => Hl x (or_intror Hx))).
    unfold quote_plus_byte. destruct (N.eqb_spec b 32) as [->|E].
    - cbn. f_equal. exact IH'.
    - assert (Hb : (b < 256)%N) by (apply Hl; left; reflexivity).
      assert (map (fun c => if N.eqb c 43 then 32%N else c) (quote_byte b) = quote_byte b) as ->.
      { assert (Q := fun x => quote_byte_ascii b x Hb). revert Q. generalize (quote_byte b). intros q Q.
        induction q as [|x q IHq]; [reflexivity|]. cbn [map]. destruct (N.eqb_spec x 43) as [->|_]; [exfalso; destruct (Q 43%N (or_introl eq_refl)) as (_ & X & _); congruence|].
        f_equal. apply IHq. intros y Hy. apply Q. right. exact Hy. }
      rewrite unquote_quote_byte by exact Hb. f_equal. exact IH'. }
  rewrite G by (intros b Hb; exact (enc_bytes s b H Hb)). apply dec_enc. exact H.
Qed.

(** Decoding yields scalars only. *)
Lemma dec_scalar : forall s x, In x (utf8_dec s) -> scalar x.
Proof.
  assert (F : scalar fffd) by (right; unfold fffd; lia).
  intros s. induction s as [s IH'] using (induction_ltof1 _ (@length N)).
  assert (IH : forall r x, length r < length s -> In x (utf8_dec r) -> scalar x) by (intros r x L; exact (IH' r L x)). clear IH'.
  intros x. destruct s as [|b0 r]; cbn [utf8_dec]; [intros []|].
  destruct (N.ltb_spec b0 128). { intros [<-|H']; [left; lia | eapply IH; [|exact H']; cbn; lia]. }
  destruct (between 194 223 b0) eqn:B1.
  { apply between_spec in B1. destruct r as [|b1 r1]; [intros [<-|[]]; exact F|].
    destruct (cont b1) eqn:C1; [|intros [<-|H']; [exact F | eapply IH; [|exact H']; cbn; lia]].
    apply between_spec in C1. intros [<-|H']; [left; lia | eapply IH; [|exact H']; cbn; lia]. }
  destruct (between 224 239 b0) eqn:B2.
  { apply between_spec in B2. destruct r as [|b1 r1]; [intros [<-|[]]; exact F|].
    destruct (ok3 b0 b1) eqn:C1; [|intros [<-|H']; [exact F | eapply IH; [|exact H']; cbn; lia]].
    destruct r1 as [|b2 r2]; [intros [<-|[]]; exact F|].
    destruct (cont b2) eqn:C2; [|intros [<-|H']; [exact F | eapply IH; [|exact H']; cbn; lia]].
    apply between_spec in C2. intros [<-|H']; [|eapply IH; [|exact H']; cbn; lia].
    unfold ok3, cont in C1. unfold scalar. destruct (N.eqb_spec b0 224); [apply between_spec in C1; lia|].
    destruct (N.eqb_spec b0 237); apply between_spec in C1; lia. }
  destruct (between 240 244 b0) eqn:B3.
  { apply between_spec in B3. destruct r as [|b1 r1]; [intros [<-|[]]; exact F|].
    destruct (ok4 b0 b1) eqn:C1; [|intros [<-|H']; [exact F | eapply IH; [|exact H']; cbn; lia]].
    destruct r1 as [|b2 r2]; [intros [<-|[]]; exact F|].
    destruct (cont b2) eqn:C2; [|intros [<-|H']; [exact F | eapply IH; [|exact H']; cbn; lia]].
    destruct r2 as [|b3 r3]; [intros [<-|[]]; exact F|].
    destruct (cont b3) eqn:C3; [|intros [<-|H']; [exact F | eapply IH; [|exact H']; cbn; lia]].
    apply between_spec in C2, C3. intros [<-|H']; [|eapply IH; [|exact H']; cbn; lia].
    unfold ok4, cont in C1. unfold scalar. destruct (N.eqb_spec b0 240); [apply between_spec in C1; lia|].
    destruct (N.eqb_spec b0 244); apply between_spec in C1; lia. }
  intros [<-|H']; [exact F | eapply IH; [|exact H']; cbn; lia].
Qed.

Lemma unquote_scalar s : (forall x, In x s -> scalar x) -> forall x, In x (unquote s) -> scalar x.
Proof.
  intros H. unfold unquote. destruct (cmem 37 s); [|exact H].
  assert (G : forall s run, (forall x, In x s -> scalar x) -> forall x, In x (unquote_go run s) -> scalar x).
  { clear. induction s as [|c s IH]; intros run H x; cbn [unquote_go]; [apply dec_scalar|].
    assert (H' : forall x, In x s -> scalar x) by (intros y Hy; apply H; right; exact Hy).
    destruct (is_ascii c); [apply IH; exact H'|].
    rewrite in_app_iff. intros [X|[<-|X]]; [exact (dec_scalar _ x X) | apply H; left; reflexivity | exact (IH [] H' x X)]. }
  apply G. exact H.
Qed.

(** Reading "+" as a space before or after percent-decoding makes no difference once "+" is read
    as a space again. *)
Lemma plus_hex c : hexval (if N.eqb c 43 then 32%N else c) = hexval c.
Proof. destruct (N.eqb_spec c 43) as [->|]; reflexivity. Qed.

Lemma plus_pct c : N.eqb (if N.eqb c 43 then 32%N else c) 37 = N.eqb c 37.
Proof. destruct (N.eqb_spec c 43) as [->|]; reflexivity. Qed.

Lemma plus_to_space_unquote_bytes : forall s,
  plus_to_space (unquote_bytes (plus_to_space s)) = plus_to_space (unquote_bytes s).
Proof.
  assert (I : forall c, (if N.eqb (if N.eqb c 43 then 32%N else c) 43 then 32%N else (if N.eqb c 43 then 32%N else c)) = (if N.eqb c 43 then 32%N else c)).
  { intros c. destruct (N.eqb_spec c 43) as [->|E]; [reflexivity|]. destruct (N.eqb_spec c 43); [congruence | reflexivity]. }
  intros s. induction s as [s IH'] using (induction_ltof1 _ (@length N)).
  assert (IH : forall r, length r < length s -> plus_to_space (unquote_bytes (plus_to_space r)) = plus_to_space (unquote_bytes r)) by (intros r L; exact (IH' r L)). clear IH'.
  assert (K : forall c t1 t2, plus_to_space t1 = plus_to_space t2 -> plus_to_space ((if N.eqb c 43 then 32%N else c) :: t1) = plus_to_space (c :: t2)).
  { intros c t1 t2 E. unfold plus_to_space in *. cbn [map]. rewrite I, E. reflexivity. }
  destruct s as [|c s]; [reflexivity|].
  assert (IH1 := IH s ltac:(cbn; lia)).
  change (plus_to_space (c :: s)) with ((if N.eqb c 43 then 32%N else c) :: plus_to_space s).
  cbn [unquote_bytes]. rewrite plus_pct. destruct (N.eqb c 37); [|apply K; exact IH1].
  destruct s as [|a [|b s]]; [apply K; exact IH1 | apply K; exact IH1 |].
  assert (IH2 := IH s ltac:(cbn; lia)).
  change (plus_to_space (a :: b :: s)) with ((if N.eqb a 43 then 32%N else a) :: (if N.eqb b 43 then 32%N else b) :: plus_to_space s) in *.
  cbv iota. rewrite !plus_hex. destruct (hexval a) as [x|]; [destruct (hexval b) as [y|]|]; [|apply K; exact IH1 | apply K; exact IH1].
  unfold plus_to_space in *. cbn [map]. f_equal. exact IH2.
Qed.

Lemma plus_to_space_dec s : utf8_dec (plus_to_space s) = plus_to_space (utf8_dec s).
Proof.
  set (p := fun c : N => if N.eqb c 43 then 32%N else c).
  assert (P : forall c, (p c <? 128)%N = (c <? 128)%N) by (intros c; unfold p; destruct (N.eqb_spec c 43) as [->|]; reflexivity).
  assert (B : forall a b c, (128 <= a)%N -> between a b (p c) = between a b c).
  { intros a b c La. unfold p. destruct (N.eqb_spec c 43) as [->|]; [|reflexivity]. rewrite !between_false by lia. reflexivity. }
  assert (Pid : forall c, (128 <= c)%N -> p c = c) by (intros c L; unfold p; destruct (N.eqb_spec c 43); [lia | reflexivity]).
  assert (C : forall c, cont (p c) = cont c) by (intros c; apply B; lia).
  assert (O3 : forall b c, ok3 b (p c) = ok3 b c) by (intros b c; unfold ok3; rewrite !B, C by lia; reflexivity).
  assert (O4 : forall b c, ok4 b (p c) = ok4 b c) by (intros b c; unfold ok4; rewrite !B, C by lia; reflexivity).
  induction s as [s IH'] using (induction_ltof1 _ (@length N)).
  assert (IH : forall r, length r < length s -> utf8_dec (map p r) = map p (utf8_dec r)) by (intros r L; exact (IH' r L)). clear IH'.
  change (utf8_dec (map p s) = map p (utf8_dec s)).
  assert (F : forall t1 t2, t1 = map p t2 -> fffd :: t1 = map p (fffd :: t2)) by (intros t1 t2 ->; reflexivity).
  assert (CB : forall a b x, between a b x = true -> (a <= x)%N) by (intros a b x H; apply between_spec in H; lia).
  assert (K3 : forall a b, ok3 a b = true -> (128 <= b)%N).
  { intros a b H. unfold ok3, cont in H. destruct (N.eqb a 224); [apply CB in H; lia|]. destruct (N.eqb a 237); apply CB in H; lia. }
  assert (K4 : forall a b, ok4 a b = true -> (128 <= b)%N).
  { intros a b H. unfold ok4, cont in H. destruct (N.eqb a 240); [apply CB in H; lia|]. destruct (N.eqb a 244); apply CB in H; lia. }
  destruct s as [|b0 r]; [reflexivity|]. cbn [map utf8_dec]. rewrite P, !B by lia.
  assert (IHr := IH r ltac:(cbn; lia)).
  destruct (N.ltb_spec b0 128); [cbn [map]; rewrite IHr; reflexivity|]. rewrite Pid by lia.
  destruct (between 194 223 b0) eqn:B1.
  { apply between_spec in B1. destruct r as [|b1 r1]; [reflexivity|]. cbn [map] in IHr |- *. rewrite C.
    assert (IH1 := IH r1 ltac:(cbn; lia)).
    destruct (cont b1) eqn:C1; [|apply F; exact IHr].
    unfold cont in C1. rewrite (Pid b1) by (apply CB in C1; lia). cbn [map]. rewrite IH1, Pid; [reflexivity|].
    assert (L := CB _ _ _ C1). clear -B1 L. apply N.le_trans with (2 * 64 + 0)%N; [lia|]. apply N.add_le_mono; [apply N.mul_le_mono_r|]; lia. }
  destruct (between 224 239 b0) eqn:B2.
  { apply between_spec in B2. destruct r as [|b1 r1]; [reflexivity|]. cbn [map] in IHr |- *. rewrite O3.
    destruct (ok3 b0 b1) eqn:C1; [|apply F; exact IHr].
    assert (L1 := K3 _ _ C1). rewrite (Pid b1) by exact L1.
    assert (IH1 := IH r1 ltac:(cbn; lia)).
    destruct r1 as [|b2 r2]; [reflexivity|]. cbn [map] in IH1 |- *. rewrite C.
    destruct (cont b2) eqn:C2; [|apply F; exact IH1].
    assert (L2 := CB _ _ _ C2). rewrite (Pid b2) by exact L2. cbn [map]. rewrite IH, Pid; [reflexivity | | cbn; lia].
    unfold ok3, cont in C1. destruct (N.eqb_spec b0 224); [apply CB in C1; lia | lia]. }
  destruct (between 240 244 b0) eqn:B3.
  { apply between_spec in B3. destruct r as [|b1 r1]; [reflexivity|]. cbn [map] in IHr |- *. rewrite O4.
    destruct (ok4 b0 b1) eqn:C1; [|apply F; exact IHr].
    assert (L1 := K4 _ _ C1). rewrite (Pid b1) by exact L1.
    assert (IH1 := IH r1 ltac:(cbn; lia)).
    destruct r1 as [|b2 r2]; [reflexivity|]. cbn [map] in IH1 |- *. rewrite C.
    destruct (cont b2) eqn:C2; [|apply F; exact IH1].
    assert (L2 := CB _ _ _ C2). rewrite (Pid b2) by exact L2.
    assert (IH2 := IH r2 ltac:(cbn; lia)).
    destruct r2 as [|b3 r3]; [reflexivity|]. cbn [map] in IH2 |- *. rewrite C.
    destruct (cont b3) eqn:C3; [|apply F; exact IH2].
    assert (L3 := CB _ _ _ C3). rewrite (Pid b3) by exact L3. cbn [map]. rewrite IH, Pid; [reflexivity | | cbn; lia].
    unfold ok4, cont in C1. destruct (N.eqb_spec b0 240); [apply CB in C1; lia | lia]. }
  apply F. exact IHr.
Qed.

Lemma plus_to_space_ascii s : ascii_str s -> ascii_str (plus_to_space s).
Proof.
  intros A x Hx. unfold plus_to_space in Hx. apply in_map_iff in Hx. destruct Hx as (y & <- & Hy).
  destruct (N.eqb y 43); [lia | apply A; exact Hy].
Qed.

(** Decoding twice: reading "+" as a space the first time or not. *)
Lemma unquote_plus_twice s : ascii_str s -> unquote_plus (unquote s) = unquote_plus (utf8_dec (unquote_bytes (plus_to_space s))).
Proof.
  intros A. unfold unquote_plus. f_equal. rewrite unquote_ascii by exact A.
  rewrite <- !plus_to_space_dec, plus_to_space_unquote_bytes. reflexivity.
Qed.
