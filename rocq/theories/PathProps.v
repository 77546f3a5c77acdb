(** Theorems C10-C13 and C17: path templates, reverse lookup, normalisation, converters, mounts. *)
From Coq Require QArith.
From Verif Require FltModel FltSpec FltProofs FltTextProofs.
From Verif Require Import PyStr PyStrFacts PathModel PathSpec PathProofs PathMatchProofs PathRevProofs PathIncProofs PathNestProofs.

(** ** C10 *)
Definition C10_statement : Prop := forall t rx fmt convs p,
  wf_template t -> compile_path (written t) = Compiled rx fmt convs ->
  (rmatch rx p <> None <-> exists vs, instance t vs p).

(** ["/users/7\n"] matches ["/users/{id:int}"] although it is no instance of it. *)
Theorem C10_trailing_newline_refuted : ~ C10_statement.
Proof.
  intros H. specialize (H ([(u "/users/", u "id", CInt)], []) [RLit (u "/users/"); RCap (u "id") CInt; RLit []]
    (u "/users/{id}") [(u "id", CInt)] (u "/users/7" ++ [10%N])).
  destruct H as [H _].
  - split; [|split; [|split]].
    + intros l n c [[= <- <- <-]|[]]. split.
      * intros x Hx. vm_compute in Hx. decompose [or] Hx; subst; try reflexivity; contradiction.
      * split; [reflexivity|]. intros x Hx. vm_compute in Hx. decompose [or] Hx; subst; try reflexivity; contradiction.
    + intros ? [].
    + repeat constructor. intros [].
    + eexists. reflexivity.
  - vm_compute. reflexivity.
  - destruct H as (vs & Hs & E); [vm_compute; discriminate|].
    unfold suits in Hs. cbn [fst] in Hs. inversion Hs as [|? [n v] ? ? [_ Hv] Hs']; subst. inversion Hs'; subst.
    unfold filled in E. cbn [fst snd filled_parts] in E. rewrite !app_nil_r in E. apply (app_inv_head (u "/users/") (u "7" ++ [10%N]) v) in E.
    cbn [snd in_conv] in Hv. destruct Hv as [_ Hv]. subst v.
    specialize (Hv 10%N). change (is_digit 10) with false in Hv. discriminate Hv. cbn. auto.
Qed.
Print Assumptions C10_trailing_newline_refuted.

(** Every template compiles, and its pattern matches exactly the instances and the instances
    followed by one newline; the captured texts, put back in the template, give that instance. *)
Theorem C10_match_partial t : wf_template t ->
  exists rx fmt convs, compile_path (written t) = Compiled rx fmt convs /\ forall p,
    (rmatch rx p <> None <-> exists q vs, instance t vs q /\ (p = q \/ p = q ++ [10%N])) /\
    (forall vs, rmatch rx p = Some vs -> exists q, instance t vs q /\ (p = q \/ p = q ++ [10%N])).
Proof.
  intros Hw. exists (rx_of t), (format_parts (fst t) ++ snd t), (convs_of (fst t)). split; [now apply compile_written|].
  destruct t as [ps tail]. intros p.
  assert (forall vs, rmatch (rx_of (ps, tail)) p = Some vs -> exists q, instance (ps, tail) vs q /\ (p = q \/ p = q ++ [10%N])) as G.
  { intros vs H. apply rmatch_sound in H as [Hs Ho]. exists (filled (ps, tail) vs). split; [split; auto|exact Ho]. }
  split; [|exact G]. split.
  - intros H. destruct (rmatch (rx_of (ps, tail)) p) as [vs|] eqn:E; [|congruence].
    destruct (G vs eq_refl) as (q & Hi & Ho). eauto.
  - intros (q & vs & [Hs ->] & Ho). now apply (rmatch_complete ps tail vs).
Qed.
Print Assumptions C10_match_partial.

(** The full statement for every path that does not end in a newline. *)
Theorem C10_exact_partial t rx fmt convs p : wf_template t -> (forall q, p <> q ++ [10%N]) ->
  compile_path (written t) = Compiled rx fmt convs ->
  (rmatch rx p <> None <-> exists vs, instance t vs p) /\ (forall vs, rmatch rx p = Some vs -> instance t vs p) /\
  (unambiguous t -> forall vs, instance t vs p -> rmatch rx p = Some vs).
Proof.
  intros Hw Hnl Hc. destruct (C10_match_partial t Hw) as (rx' & fmt' & convs' & Hc' & H). rewrite Hc in Hc'. injection Hc' as <- <- <-.
  destruct (H p) as [H1 H2].
  assert (forall vs, rmatch rx p = Some vs -> instance t vs p) as G.
  { intros vs E. destruct (H2 _ E) as (q & Hi & [-> | ->]); [assumption|]. exfalso. now apply (Hnl q). }
  split; [|split; [exact G|]].
  - rewrite H1. split; [intros (q & vs & Hi & [-> | ->]); [eauto|exfalso; now apply (Hnl q)]|intros (vs & Hi); eauto 6].
  - intros Hu vs Hi. destruct (rmatch rx p) as [vs'|] eqn:E.
    + f_equal. exact (instance_unique t Hu _ _ _ (G _ eq_refl) Hi).
    + exfalso. apply H1; [eauto 6|reflexivity].
Qed.
Print Assumptions C10_exact_partial.

(** How a template is spelled (either bracket, [str] left out) makes no difference: the theorems
    below speak of any spelling through this one. *)
Theorem C10_spelling t s : wf_template t -> spelled t s -> compile_path s = compile_path (written t).
Proof. intros (H1 & H2 & _ & H4). now apply compile_spelled. Qed.
Print Assumptions C10_spelling.
Example C10_example_spelling : spelled ([(u "/u/", u "id", CInt); (u "/", u "name", CStr)], u "/x") (u "/u/<id:int>/{name}/x").
Proof.
  exists (u "/u/<id:int>/{name}"). split; [|reflexivity].
  apply (sp_typed (u "/u/") (u "id") CInt _ 60 62 (u "/{name}")); [reflexivity|reflexivity|].
  apply (sp_untyped (u "/") (u "name") _ 123 125 []); [reflexivity|reflexivity|constructor].
Qed.

(** A template that uses the same parameter name twice is rejected. *)
Theorem C10_duplicate_names t :
  (forall l n c, In (l, n, c) (fst t) -> plain l /\ is_ident n) -> plain (snd t) ->
  ~ NoDup (map (fun p => snd (fst p)) (fst t)) ->
  compile_path (written t) = CompileError.
Proof. exact (compile_duplicate t). Qed.
Print Assumptions C10_duplicate_names.

(** A template meeting the hypotheses, with two parameters. *)
Definition ex_template : template :=
  ([(u "/users/", u "id", CInt); (u "/files.", u "name", CPath)], []).
Lemma ex_wf : wf_template ex_template.
Proof.
  split; [|split; [|split]].
  - intros l n c [[= <- <- <-]|[[= <- <- <-]|[]]]; (split; [|split; [reflexivity|]]);
      intros x Hx; vm_compute in Hx; decompose [or] Hx; subst; try reflexivity; contradiction.
  - intros ? [].
  - constructor; [intros [H|[]]; discriminate H|]. constructor; [intros []|constructor].
  - eexists. reflexivity.
Qed.
Example C10_example : written ex_template = u "/users/{id:int}/files.{name:path}" /\ unambiguous ex_template /\
  exists rx fmt convs, compile_path (written ex_template) = Compiled rx fmt convs /\
  rmatch rx (u "/users/42/files.a/b") = Some [(u "id", u "42"); (u "name", u "a/b")] /\
  rmatch rx (u "/users/42/filesXa/b") = None.
Proof. split; [reflexivity|]. split; [cbn; auto|]. repeat eexists. Qed.
Example C10_example_duplicate : compile_path (u "/{a:int}/{a:str}") = CompileError.
Proof. reflexivity. Qed.

(** ** C11 *)
Definition C11_statement : Prop := forall t rx fmt convs params url,
  wf_template t -> unambiguous t -> compile_path (written t) = Compiled rx fmt convs ->
  NoDup (dkeys params) -> (forall n v, dget n params = Some v -> valid_value v) ->
  url_path_for fmt convs params = Url url ->
  exists vs matched, rmatch rx url = Some vs /\ transform_all convs vs = Some matched /\
    forall n, dget n matched = dget n params.

Definition ab_template : template := ([(u "/", u "a", CStr); (u "/", u "b", CStr)], []).
Definition path_template : template := ([(u "/f/", u "p", CPath)], []).
Lemma ab_wf : wf_template ab_template.
Proof.
  split; [|split; [|split]].
  - intros l n c [[= <- <- <-]|[[= <- <- <-]|[]]]; (split; [|split; [reflexivity|]]);
      intros x Hx; vm_compute in Hx; decompose [or] Hx; subst; try reflexivity; contradiction.
  - intros ? [].
  - constructor; [intros [H|[]]; discriminate H|]. constructor; [intros []|constructor].
  - eexists. reflexivity.
Qed.
Lemma path_wf : wf_template path_template.
Proof.
  split; [|split; [|split]].
  - intros l n c [[= <- <- <-]|[]]; (split; [|split; [reflexivity|]]);
      intros x Hx; vm_compute in Hx; decompose [or] Hx; subst; try reflexivity; contradiction.
  - intros ? [].
  - constructor; [intros []|constructor].
  - eexists. reflexivity.
Qed.

(** A value that looks like another placeholder is substituted a second time:
    a="{b}", b="x" in "/{a}/{b}" gives "/x/x". *)
Theorem C11_placeholder_refuted : ~ C11_statement.
Proof.
  intros H. destruct (compile_path (written ab_template)) as [|rx fmt convs] eqn:E; [vm_compute in E; discriminate|].
  specialize (H ab_template rx fmt convs [(u "a", VText (u "{b}")); (u "b", VText (u "x"))] (u "/x/x") ab_wf).
  vm_compute in E. injection E as <- <- <-.
  destruct H as (vs & matched & Hr & Ht & Hn).
  - cbn. auto.
  - vm_compute. reflexivity.
  - constructor; [intros [H|[]]; discriminate H|]. constructor; [intros []|constructor].
  - intros n v Hd. apply dget_Some_In in Hd. destruct Hd as [[= _ <-]|[[= _ <-]|[]]]; exact I.
  - vm_compute. reflexivity.
  - vm_compute in Hr. injection Hr as <-. vm_compute in Ht. injection Ht as <-. specialize (Hn (u "a")). vm_compute in Hn. discriminate.
Qed.
Print Assumptions C11_placeholder_refuted.

(** A path value with an empty segment comes back without it. *)
Theorem C11_slashes_refuted : exists rx fmt convs,
  compile_path (written path_template) = Compiled rx fmt convs /\
  url_path_for fmt convs [(u "p", VText (u "a//b"))] = Url (u "/f/a/b") /\
  rmatch rx (u "/f/a/b") = Some [(u "p", u "a/b")] /\
  wf_template path_template /\ unambiguous path_template.
Proof. do 3 eexists. split; [vm_compute; reflexivity|]. split; [vm_compute; reflexivity|]. split; [vm_compute; reflexivity|].
  split; [exact path_wf|]. cbn. auto. Qed.
Print Assumptions C11_slashes_refuted.

(** For unambiguous templates and every value that reverse lookup accepts without an opening
    brace in its text (newlines in path values and years below 1000 excluded), when the path with
    the texts put in is canonical and does not end in a newline: the reverse lookup returns that
    path, it matches the route, and the captured texts convert back to the values. *)
Theorem C11_roundtrip_partial t rx fmt convs params vs :
  wf_template t -> unambiguous t -> compile_path (written t) = Compiled rx fmt convs ->
  NoDup (dkeys params) -> (forall n, In n (dkeys params) <-> In n (map (fun p => snd (fst p)) (fst t))) ->
  (forall l n c v, In (l, n, c) (fst t) -> dget n params = Some v -> usable c v) ->
  rendered t params vs -> canonical (filled t vs) -> (forall q, filled t vs <> q ++ [10%N]) ->
  url_path_for fmt convs params = Url (filled t vs) /\
  rmatch rx (filled t vs) = Some vs /\
  exists matched, transform_all convs vs = Some matched /\ forall n, dget n matched = dget n params.
Proof.
  intros Hw Hu Hc Hnd Hk Hus Hr Hcan Hnl. rewrite (compile_written t Hw) in Hc. injection Hc as <- <- <-.
  destruct (reverse_roundtrip t params Hw Hu Hnd Hk Hus) as (vs' & Hr' & _ & H).
  rewrite (rendered_unique _ _ _ _ Hr Hr') in *. now apply H.
Qed.
Print Assumptions C11_roundtrip_partial.
(** ... and such texts always exist. *)
Theorem C11_rendered_partial t params :
  wf_template t -> unambiguous t ->
  NoDup (dkeys params) -> (forall n, In n (dkeys params) <-> In n (map (fun p => snd (fst p)) (fst t))) ->
  (forall l n c v, In (l, n, c) (fst t) -> dget n params = Some v -> usable c v) ->
  exists vs, rendered t params vs /\ suits t vs.
Proof.
  intros Hw Hu Hnd Hk Hus. destruct (reverse_roundtrip t params Hw Hu Hnd Hk Hus) as (vs' & Hr' & Hs & _). eauto.
Qed.
Print Assumptions C11_rendered_partial.
(** A lookup with missing or unknown parameters fails. *)
Theorem C11_wrong_names t rx fmt convs params : wf_template t -> compile_path (written t) = Compiled rx fmt convs ->
  ~ (forall n, In n (dkeys params) <-> In n (map (fun p => snd (fst p)) (fst t))) ->
  url_path_for fmt convs params = NoMatchFound.
Proof.
  intros Hw Hc Hk. rewrite (compile_written t Hw) in Hc. injection Hc as <- <- <-. unfold url_path_for.
  destruct (same_keys params (convs_of (fst t))) eqn:E; [|reflexivity]. exfalso. apply Hk.
  unfold same_keys in E. apply andb_true_iff in E as [E1 E2]. rewrite forallb_forall in E1, E2.
  pose proof (convs_keys (fst t)) as Ck. unfold names in Ck. rewrite <- Ck. intros n. split; intros Hin; apply smem_In; auto.
Qed.
Print Assumptions C11_wrong_names.
Example C11_example :
  let params := [(u "id", VInt 42); (u "name", VText (u "a/b"))] in
  let vs := [(u "id", u "42"); (u "name", u "a/b")] in
  rendered ex_template params vs /\ usable CInt (VInt 42) /\ usable CPath (VText (u "a/b")) /\
  filled ex_template vs = u "/users/42/files.a/b" /\ canonical (filled ex_template vs).
Proof.
  cbn zeta. split; [|split; [|split; [|split]]].
  - repeat constructor; eexists; split; reflexivity.
  - split; [exact I|]. split; [exact I|]. exists (u "42"). split; [reflexivity|]. intros H. vm_compute in H. decompose [or] H; try discriminate; contradiction.
  - split; [exact I|]. split; [intros H; vm_compute in H; decompose [or] H; try discriminate; contradiction|].
    exists (u "a/b"). split; [reflexivity|]. intros H. vm_compute in H. decompose [or] H; try discriminate; contradiction.
  - reflexivity.
  - change (filled ex_template _) with (clean_path (u "/users/42/files.a/b")). apply clean_path_canonical.
Qed.

(** ** C12 *)
Theorem C12_canonical p : canonical (clean_path p).
Proof. exact (clean_path_canonical p). Qed.
Print Assumptions C12_canonical.
Theorem C12_identity p : canonical p -> clean_path p = p.
Proof. exact (clean_path_id p). Qed.
Print Assumptions C12_identity.
Theorem C12_segments p : segments (clean_path p) = segments p.
Proof. exact (clean_path_keeps_segments p). Qed.
Print Assumptions C12_segments.
(** These three determine the result: "/" followed by the segments joined by "/". *)
Theorem C12_result p : clean_path p = slash :: join [slash] (segments p).
Proof. exact (clean_path_segments p). Qed.
Print Assumptions C12_result.
Example C12_example : clean_path (u "a//b///c//") = u "/a/b/c" /\ segments (u "a//b///c//") = [u "a"; u "b"; u "c"] /\
  clean_path (u "///") = u "/".
Proof. repeat split. Qed.

(** ** C13 *)
Definition C13_statement : Prop :=
  (forall c v t, valid_value v -> normalise c v = Some t -> in_conv c t /\ transform c t = Some v) /\
  (forall c t, in_conv c t -> transform c t <> None).

(** A date the pattern accepts and the conversion rejects: 30 February (any 4301-digit integer,
    or a date with a fraction of a second, also do). *)
Theorem C13_date_refuted : ~ C13_statement.
Proof.
  intros [_ H]. specialize (H CDatetime (u "2024-02-30T00:00:00")). apply H; [|reflexivity].
  exists (u "2024"), (u "02"), (u "30"), (u "00"), (u "00"), (u "00"), []. split; [reflexivity|].
  repeat split; try (intros x Hx; vm_compute in Hx; decompose [or] Hx; subst; try reflexivity; contradiction). now left.
Qed.
Print Assumptions C13_date_refuted.
(** The year is written without padding, so the year 33 produces a text its own pattern rejects. *)
Theorem C13_year_refuted :
  valid_value (VDate 33 4 3 15 0 0) /\ normalise CDatetime (VDate 33 4 3 15 0 0) = Some (u "33-04-03T15:00:00") /\
  prefs CDatetime (u "33-04-03T15:00:00") = [].
Proof. split; [apply date_ok_iff; reflexivity|]. repeat split. Qed.
Print Assumptions C13_year_refuted.
Theorem C13_long_int_refuted n : int_max_digits < n ->
  in_conv CInt (repeat 49%N n) /\ transform CInt (repeat 49%N n) = None.
Proof.
  intros Hn. split.
  - split; [destruct n; [lia|discriminate]|]. intros x Hx. apply repeat_spec in Hx. now subst.
  - cbn [transform]. unfold int_of. rewrite repeat_length. destruct (Nat.ltb_spec int_max_digits n); [reflexivity|lia].
Qed.
Print Assumptions C13_long_int_refuted.

(** A float below 2^-13 need not come back: 2^-70 is written "0". *)
Theorem C13_float_refuted :
  let v := VFloat (FltModel.Fin false (2 ^ 52) (-122)) in
  valid_value v /\ normalise CFloat v = Some (u "0") /\ transform CFloat (u "0") = Some (VFloat (FltModel.Fin false 0 (-1074))).
Proof. cbn zeta. split; [cbn; unfold FltSpec.is_float; lia|]. split; [vm_compute; reflexivity|vm_compute; reflexivity]. Qed.
Print Assumptions C13_float_refuted.
(** A negative zero passes the check for negative floats, and its text is not of the pattern. *)
Theorem C13_negative_zero_refuted :
  normalise CFloat (VFloat (FltModel.Fin true 0 (-1074))) = Some (u "-0") /\ prefs CFloat (u "-0") = [].
Proof. split; vm_compute; reflexivity. Qed.
Print Assumptions C13_negative_zero_refuted.
(** The pattern accepts texts that read as infinity, which cannot be written again. *)
Theorem C13_infinite_refuted n : 310 <= n ->
  in_conv CFloat (repeat 49%N n) /\ transform CFloat (repeat 49%N n) = Some (VFloat (FltModel.Inf false)) /\
  normalise CFloat (VFloat (FltModel.Inf false)) = None.
Proof.
  intros Hn. assert (digits (repeat 49%N n)) as D.
  { split; [destruct n; [lia|discriminate]|]. intros x Hx. apply repeat_spec in Hx. now subst. }
  split; [exists (repeat 49%N n), []; rewrite app_nil_r; split; [reflexivity|]; split; [exact D|now left]|]. split; [|reflexivity].
  cbn [transform]. unfold FltModel.read. rewrite FltTextProofs.nearest_huge; [reflexivity|].
  rewrite FltTextProofs.decimal_int by (apply all_in_forallb, D). rewrite <- QArith_base.Zle_Qle.
  replace n with (310 + (n - 310)) by lia. rewrite repeat_app, FltTextProofs.digits_val_cat.
  set (k := pow10 _). set (r := digits_val (repeat 49%N (n - 310))). assert (1 <= k)%N by (subst k; clear; induction (length (repeat 49%N (n - 310))); cbn [pow10]; lia).
  assert (2 ^ 1024 <= Z.of_N (digits_val (repeat 49%N 310)))%Z as B by (vm_compute; discriminate). nia.
Qed.
Print Assumptions C13_infinite_refuted.

(** The text written for a value is accepted by the converter and converts back to the value:
    every non-empty text without a slash, every path text without a newline, every non-negative
    integer (of at most 4300 digits, the others are refused), every float from 2^-13 on or with at most
    20 decimals (a negative zero excepted), every UUID, every date from the year 1000 on. *)
Theorem C13_roundtrip_partial c v t : valid_value v -> path_value c v -> normalise c v = Some t ->
  in_conv c t /\ transform c t = Some v.
Proof. exact (conv_roundtrip c v t). Qed.
Print Assumptions C13_roundtrip_partial.
(** Every non-negative integer of at most 4300 digits is accepted by the reverse conversion. *)
Theorem C13_int_total z : (0 <= z)%Z -> length (decz z) <= int_max_digits -> normalise CInt (VInt z) = Some (decz z).
Proof.
  intros Hz Hl. cbn [normalise]. destruct (Z.ltb_spec z 0); [lia|]. unfold str_of_int.
  rewrite Z.abs_eq by lia.
  assert (decz z = dec (Z.to_N z)) as E by (destruct z; [reflexivity|reflexivity|lia]).
  rewrite E in *. destruct (Nat.ltb_spec int_max_digits (length (dec (Z.to_N z)))); [lia|reflexivity].
Qed.
Print Assumptions C13_int_total.
(** Every accepted text converts: all texts, paths, floats, UUIDs, and integers of at most 4300 digits. *)
Theorem C13_accepted_partial c t : in_conv c t ->
  match c with CDatetime => False | CInt => length t <= int_max_digits | _ => True end ->
  exists v, transform c t = Some v.
Proof. exact (accepted_converts c t). Qed.
Print Assumptions C13_accepted_partial.
(** ... an integer text to its decimal value, leading zeros included. *)
Theorem C13_int_value t : digits t -> length t <= int_max_digits ->
  transform CInt t = Some (VInt (Z.of_N (digits_val t))).
Proof.
  intros Hd Hl. cbn [transform]. unfold int_of. destruct (Nat.ltb_spec int_max_digits (length t)); [lia|].
  now rewrite int_parse_digits.
Qed.
Print Assumptions C13_int_value.
(** Every finite float that is not negative is written. *)
Theorem C13_float_total m e : FltSpec.is_float m e -> exists t, normalise CFloat (VFloat (FltModel.Fin false m e)) = Some t.
Proof. intros _. cbn [normalise]. eexists. reflexivity. Qed.
Print Assumptions C13_float_total.
(** The text of a float stands for the number, rounded to at most half a unit in the last place; numbers up to the
    largest float are not read as infinite. *)
Theorem C13_float_value i f : digits i -> all_in is_digit f -> exists x v,
  FltSpec.stands_for i f x /\ transform CFloat (match f with [] => i | _ => i ++ u "." ++ f end) = Some (VFloat v) /\
  match v with
  | FltModel.Fin neg m e => neg = false /\ FltSpec.is_float m e /\ FltSpec.rounded x m e
  | FltModel.Inf neg => neg = false /\ QArith_base.Qlt (QArith_base.inject_Z ((2 ^ 53 - 1) * 2 ^ 971)) x
  | FltModel.NaN => False
  end.
Proof.
  intros [NI DI] DF. apply all_in_forallb in DI. change (u "." ++ f) with (46%N :: f).
  set (t := match f with [] => i | _ => i ++ 46%N :: f end). exists (FltModel.decimal t), (FltModel.read t).
  pose proof (FltTextProofs.decimal_stands i f DI) as S. change (match f with [] => i | _ => i ++ 46%N :: f end) with t in S.
  split; [exact S|]. split; [reflexivity|]. pose proof (FltTextProofs.stands_nonneg i f _ S) as P. unfold FltModel.read.
  destruct (FltTextProofs.nearest_kinds (FltModel.decimal t)) as [(m & e & E)|E].
  - rewrite E. destruct (FltProofs.nearest_half _ m e false P E) as (_ & C & H). split; [reflexivity|]. split; [exact C|exact H].
  - rewrite E. split; [reflexivity|]. apply QArith_base.Qnot_le_lt. intros L. now apply (FltTextProofs.nearest_finite _ P L).
Qed.
Print Assumptions C13_float_value.
(** [in_conv] is what the converters' patterns accept. *)
Theorem C13_pattern c t : in_conv c t <-> In (length t) (prefs c t).
Proof.
  rewrite prefs_spec. split.
  - intros H. split; [lia|]. now rewrite firstn_all.
  - intros [_ H]. now rewrite firstn_all in H.
Qed.
Print Assumptions C13_pattern.
(** A text converts to a date exactly when it is [YYYY-MM-DDTHH:MM:SS] and names a date and time that exist; the result has its numbers. *)
Theorem C13_date_exact t w : transform CDatetime t = Some w <->
  exists y mo d h mi s, t = y ++ u "-" ++ mo ++ u "-" ++ d ++ u "T" ++ h ++ u ":" ++ mi ++ u ":" ++ s
    /\ dign 4 y /\ dign 2 mo /\ dign 2 d /\ dign 2 h /\ dign 2 mi /\ dign 2 s
    /\ real_time (digits_val y) (digits_val mo) (digits_val d) (digits_val h) (digits_val mi) (digits_val s)
    /\ w = VDate (digits_val y) (digits_val mo) (digits_val d) (digits_val h) (digits_val mi) (digits_val s).
Proof.
  assert (K : forall y mo d h mi s, dign 4 y -> dign 2 mo -> dign 2 d -> dign 2 h -> dign 2 mi -> dign 2 s ->
    strptime (y ++ 45%N :: mo ++ 45%N :: d ++ 84%N :: h ++ 58%N :: mi ++ 58%N :: s) =
    if date_ok (digits_val y) (digits_val mo) (digits_val d) (digits_val h) (digits_val mi) (digits_val s)
    then Some (VDate (digits_val y) (digits_val mo) (digits_val d) (digits_val h) (digits_val mi) (digits_val s)) else None).
  { intros y mo d h mi s Y MO D H MI SE. pose proof (datetime_intro y mo d h mi s [] Y MO D H MI SE) as C. rewrite app_nil_r in C. unfold strptime. rewrite C. clear C.
    destruct Y as [Y _], MO as [MO _], D as [D _], H as [H _], MI as [MI _], SE as [SE _].
    destruct y as [|y1 [|y2 [|y3 [|y4 [|]]]]]; try discriminate Y. destruct mo as [|m1 [|m2 [|]]]; try discriminate MO. destruct d as [|d1 [|d2 [|]]]; try discriminate D.
    destruct h as [|h1 [|h2 [|]]]; try discriminate H. destruct mi as [|n1 [|n2 [|]]]; try discriminate MI. destruct s as [|s1 [|s2 [|]]]; try discriminate SE. reflexivity. }
  cbn [transform]. split.
  - intros E. assert (E' := E). unfold strptime in E. destruct (classes_match datetime_classes t) eqn:C; [|discriminate E]. destruct (Nat.eqb_spec (length t) 19) as [L|]; [|discriminate E]. clear E.
    destruct (datetime_inv t C) as (y & mo & d & h & mi & s & r & -> & Y & MO & D & H & MI & SE).
    assert (r = []) as ->. { destruct Y as [Y _], MO as [MO _], D as [D _], H as [H _], MI as [MI _], SE as [SE _]. repeat (rewrite app_length in L || cbn [length] in L). destruct r; [reflexivity|cbn in L; lia]. }
    rewrite app_nil_r in *. rewrite K in E' by assumption. destruct (date_ok _ _ _ _ _ _) eqn:O; [|discriminate E']. injection E' as <-. apply date_ok_iff in O.
    exists y, mo, d, h, mi, s. split; [reflexivity|]. auto 12.
  - intros (y & mo & d & h & mi & s & -> & Y & MO & D & H & MI & SE & R & ->). apply date_ok_iff in R.
    change (u "-") with [45%N]. change (u "T") with [84%N]. change (u ":") with [58%N]. cbn [List.app]. rewrite K by assumption. rewrite R. reflexivity.
Qed.
Print Assumptions C13_date_exact.
Example C13_date_case : transform CDatetime (u "2000-02-29T23:59:59") = Some (VDate 2000 2 29 23 59 59) /\ transform CDatetime (u "1900-02-29T00:00:00") = None
  /\ transform CDatetime (u "2024-06-31T00:00:00") = None /\ transform CDatetime (u "2024-06-30T24:00:00") = None.
Proof. repeat split. Qed.
Example C13_example :
  normalise CInt (VInt 120) = Some (u "120") /\ transform CInt (u "0120") = Some (VInt 120) /\
  valid_value (VDate 2024 2 29 23 5 9) /\ path_value CDatetime (VDate 2024 2 29 23 5 9) /\
  normalise CDatetime (VDate 2024 2 29 23 5 9) = Some (u "2024-02-29T23:05:09").
Proof. split; [reflexivity|]. split; [reflexivity|]. split; [apply date_ok_iff; reflexivity|]. split; [discriminate|reflexivity]. Qed.
(** 0.1, 100.0 and the float next to 1.0; the largest float. *)
Example C13_float_example :
  let tenth := FltModel.Fin false 7205759403792794 (-56) in
  normalise CFloat (VFloat tenth) = Some (u "0.10000000000000000555") /\ transform CFloat (u "0.1") = Some (VFloat tenth) /\
  valid_value (VFloat tenth) /\ path_value CFloat (VFloat tenth) /\
  normalise CFloat (VFloat (FltModel.Fin false (25 * 2 ^ 48) (-46))) = Some (u "100") /\
  normalise CFloat (VFloat (FltModel.Fin false (2 ^ 52 + 1) (-52))) = Some (u "1.00000000000000022204") /\
  transform CFloat (u "1.00000000000000022204") = Some (VFloat (FltModel.Fin false (2 ^ 52 + 1) (-52))) /\
  valid_value (VFloat (FltModel.Fin false (2 ^ 53 - 1) 971)) /\ path_value CFloat (VFloat (FltModel.Fin false (2 ^ 53 - 1) 971)).
Proof.
  cbn zeta. split; [vm_compute; reflexivity|]. split; [vm_compute; reflexivity|].
  split; [cbn; unfold FltSpec.is_float; lia|]. split; [split; [reflexivity|left; vm_compute; discriminate]|].
  split; [vm_compute; reflexivity|]. split; [vm_compute; reflexivity|]. split; [vm_compute; reflexivity|].
  split; [cbn; unfold FltSpec.is_float; lia|]. split; [reflexivity|left; vm_compute; discriminate].
Qed.

(** ** C17 *)
Definition C17_statement : Prop := forall t p rx fmt convs root route params params' root',
  mountable t p -> compile_path (include_template p) = Compiled rx fmt convs ->
  include_search rx convs root (root ++ route) params = IncFull params' root' ->
  exists vs rest, suits t vs /\ root' = root ++ filled t vs /\ root' ++ slash :: rest = root ++ route.

Definition api_mount : template := ([], u "/api").
Lemma api_mountable : mountable api_mount (u "/api").
Proof.
  split; [intros ? ? ? []|]. split; [intros x Hx; vm_compute in Hx; decompose [or] Hx; subst; try reflexivity; contradiction|].
  split; [constructor|]. split; [intros []|]. right. split; [reflexivity|]. split; [|discriminate].
  change (u "/api") with (clean_path (u "/api")). apply clean_path_canonical.
Qed.
(** A request path ending in a newline is cut one character too far: "/api/x\n" under a mount at
    "/api" gets the prefix "/api/". *)
Theorem C17_newline_refuted : ~ C17_statement.
Proof.
  intros H. destruct (compile_path (include_template (u "/api"))) as [|rx fmt convs] eqn:E; [vm_compute in E; discriminate|].
  specialize (H api_mount (u "/api") rx fmt convs [] (u "/api/x" ++ [10%N]) [] [] (u "/api/") api_mountable E).
  vm_compute in E. injection E as <- <- <-. destruct H as (vs & rest & Hs & Hr & _); [vm_compute; reflexivity|].
  unfold suits in Hs. inversion Hs; subst. vm_compute in Hr. discriminate.
Qed.
Print Assumptions C17_newline_refuted.

(** One level, every mount prefix (with parameters) and every path not ending in a newline: the
    include matches exactly when the route path is an instance of the prefix, a slash and a rest
    without newline; then the child's root_path is the parent's plus the instance, the child sees
    slash and rest, and the converted parameters are added to the parent's. *)
Theorem C17_level_partial t p root route params :
  mountable t p -> (forall q, route <> q ++ [10%N]) ->
  exists rx fmt convs, compile_path (include_template p) = Compiled rx fmt convs /\
  match include_search rx convs root (root ++ route) params with
  | IncNone => forall vs rest, suits t vs -> ~ In 10%N rest -> route <> filled t vs ++ slash :: rest
  | IncError => exists vs rest, suits t vs /\ route = filled t vs ++ slash :: rest /\ transform_all (convs_of (fst t)) vs = None
  | IncFull params' root' => exists vs rest matched,
      suits t vs /\ route = filled t vs ++ slash :: rest /\
      root' = root ++ filled t vs /\ get_route_path root' (root ++ route) = slash :: rest /\
      transform_all (convs_of (fst t)) vs = Some matched /\
      forall n, dget n params' = match dget n matched with Some v => Some v | None => dget n params end
  end.
Proof.
  exact (include_search_spec t p root route params).
Qed.
Print Assumptions C17_level_partial.

(** Any number of nested mounts: the accumulated root_path is the outer one followed by the
    instances of the prefixes, outermost first; root_path followed by what the innermost child
    sees is the request path; the parameters are those of all levels, converted, inner levels
    winning. *)
Theorem C17_nested_partial (ts : list (template * str)) root route params ms root' params' :
  Forall2 (fun tp m => mountable (fst tp) (snd tp) /\
                       exists fmt, compile_path (include_template (snd tp)) = Compiled (fst m) fmt (snd m)) ts ms ->
  (forall q, route <> q ++ [10%N]) ->
  mount_chain ms root (root ++ route) params = Some (root', params') ->
  exists vss rest, Forall2 (fun tp vs => suits (fst tp) vs) ts vss /\
    root' = root ++ concat (map (fun x => filled (fst (fst x)) (snd x)) (combine ts vss)) /\
    root' ++ rest = root ++ route /\ get_route_path root' (root ++ route) = rest /\
    exists levels, Forall2 (fun x m => transform_all (convs_of (fst (fst (fst x)))) (snd x) = Some m) (combine ts vss) levels /\
      forall n, dget n params' = layered params levels n.
Proof. intros H Hnl. exact (mount_chain_spec ts root route params ms H Hnl root' params'). Qed.
Print Assumptions C17_nested_partial.

Example C17_example :
  match compile_path (include_template (u "/api")), compile_path (include_template (u "/{org:int}")) with
  | Compiled r1 _ c1, Compiled r2 _ c2 =>
      mount_chain [(r1, c1); (r2, c2)] (u "/base") (u "/base/api/7/users/1") [(u "x", VInt 0)] =
      Some (u "/base/api/7", [(u "x", VInt 0); (u "org", VInt 7)]) /\
      get_route_path (u "/base/api/7") (u "/base/api/7/users/1") = u "/users/1"
  | _, _ => False
  end.
Proof. vm_compute. split; reflexivity. Qed.

(** ** C53: reverse lookup through mounts *)
Definition C53_statement : Prop := forall rs name params url,
  (exists r, In r rs /\ node_url r name params = Url url) ->
  exists url', first_url (fun r => node_url r name params) rs = Url url'.

(** A mount that comes first and has a parameter of the same name but another type raises an
    assertion error instead of being skipped. *)
Definition ex_children : list rnode :=
  match compile_path (include_template (u "/{id:int}")), compile_path (include_template (u "/b")), compile_path (u "/{id}") with
  | Compiled _ f1 c1, Compiled _ f2 c2, Compiled _ f3 c3 =>
      [NInclude None f1 c1 []; NInclude None f2 c2 [NPath (u "x") f3 c3]]
  | _, _, _ => []
  end.
Theorem C53_sibling_refuted : ~ C53_statement.
Proof.
  intros H. destruct (H ex_children (u "x") [(u "id", VText (u "q"))] (u "/b/q")) as (url' & E).
  - eexists. split; [right; left; reflexivity|vm_compute; reflexivity].
  - vm_compute in E. discriminate.
Qed.
Print Assumptions C53_sibling_refuted.

(** A route inside any number of mounts (named "outer:inner:route", or unnamed mounts), with
    values for the parameters of every level: the reverse lookup gives the filled prefixes,
    outermost first, followed by the filled route; requesting that path passes the same mounts,
    the route matches what is left, and the parameters of all levels are the values given. *)
Theorem C53_roundtrip_partial r name mounts leaf ms rx fmt convs params vss vs :
  located r name mounts leaf -> wf_template leaf -> compile_path (written leaf) = Compiled rx fmt convs ->
  Forall2 (fun tp m => mountable (fst tp) (snd tp) /\ unambiguous (mount_template (fst tp)) /\
             exists fmt, compile_path (include_template (snd tp)) = Compiled (fst m) fmt (snd m)) mounts ms ->
  unambiguous leaf -> NoDup (all_names mounts leaf) ->
  NoDup (dkeys params) -> (forall n, In n (dkeys params) <-> In n (all_names mounts leaf)) ->
  Forall (fun t : template => forall l n c v, In (l, n, c) (fst t) -> dget n params = Some v -> usable c v) (leaf :: map (fun tp => fst tp) mounts) ->
  Forall2 (fun tp v => rendered (fst tp) params v /\ level_ok (fst tp) v /\ ~ In 10%N (filled (fst tp) v)) mounts vss ->
  rendered leaf params vs -> canonical (filled leaf vs) -> ~ In 10%N (filled leaf vs) ->
  let url := filled_mounts mounts vss ++ filled leaf vs in
  node_url r name params = Url url /\
  exists acc matched,
    mount_chain ms [] url [] = Some (filled_mounts mounts vss, acc) /\
    get_route_path (filled_mounts mounts vss) url = filled leaf vs /\
    rmatch rx (filled leaf vs) = Some vs /\ transform_all convs vs = Some matched /\
    forall n, dget n (dupdate acc matched) = dget n params.
Proof.
  intros Hloc Hw Hc Hms Hun Hnd Hpd Hk Hus Hvss Hvs Hcan Hnl url.
  inversion Hus as [|? ? Hul Hum]; subst.
  assert (Forall (fun tp => level_params (fst tp) params) mounts) as Hlp.
  { rewrite Forall_forall in Hum |- *. intros tp Htp. refine (Hum (fst tp) _). apply in_map_iff. exists tp. auto. }
  assert (forall q, filled leaf vs <> q ++ [10%N]) as Hnl' by (intros q E; apply Hnl; rewrite E; apply in_or_app; right; now left).
  split.
  - apply (nested_url r name mounts leaf Hloc Hun Hnd params vss vs Hpd Hk Hlp Hul); auto.
    clear -Hvss. induction Hvss as [|tp v mounts vss (H1 & H2 & _) _ IH]; constructor; auto.
  - assert (exists rest, filled leaf vs = slash :: rest) as (rest & Erest) by (destruct Hcan as [->|((q & ->) & _)]; eauto).
    assert (~ In 10%N rest) as Hnr by (intros H; apply Hnl; rewrite Erest; now right).
    assert (Forall2 (fun tp v => rendered (fst tp) params v /\ ~ In 10%N (filled (fst tp) v) /\
                       (fst tp = ([], []) \/ exists q, filled (fst tp) v = slash :: q)) mounts vss) as Hvss2.
    { clear -Hvss. induction Hvss as [|tp v mounts vss (H1 & H2 & H3) _ IH]; constructor; auto. split; [assumption|]. split; [assumption|].
      destruct H2 as [->|[[E|((q & E) & _)] _]]; [now left|right; rewrite E; eauto|right; rewrite E; eauto]. }
    destruct (nested_forward mounts ms params vss [] rest [] Hms Hlp Hvss2 Hnr) as (acc & Ech & Hacc).
    rewrite (compile_written leaf Hw) in Hc. injection Hc as <- <- <-.
    assert (NoDup (names (fst leaf))) as Hndl by (destruct Hw as (_ & _ & H & _); exact H).
    destruct (rendered_transforms leaf params vs Hndl Hul Hvs) as (matched & Em & Hmg).
    exists acc, matched. unfold url. split; [rewrite Erest; exact Ech|]. split; [apply get_route_path_app|]. split; [|split; [exact Em|]].
    + pose proof (rendered_suits leaf params vs Hul Hvs) as Hs. destruct leaf as [ps tail].
      destruct (rmatch (rx_of (ps, tail)) (filled (ps, tail) vs)) as [vs'|] eqn:E.
      * destruct (rmatch_sound _ _ _ _ E) as [Hs' [Ho|Ho]]; [|exfalso; exact (Hnl' _ Ho)].
        f_equal. apply (instance_unique (ps, tail) Hun vs' _ (filled (ps, tail) vs)); split; auto.
      * exfalso. apply (rmatch_complete ps tail vs _ Hs (or_introl eq_refl) E).
    + intros n. assert (NoDup (dkeys matched)) as Hmd.
      { rewrite (transform_all_keys _ _ _ Em). rewrite (suits_names leaf vs (rendered_suits leaf params vs Hul Hvs)). exact Hndl. }
      rewrite dget_dupdate by assumption. rewrite Hmg, Hacc. unfold all_names in Hk.
      destruct (smem n (names (fst leaf))) eqn:E1.
      * destruct (dget n params) eqn:Ed; [reflexivity|]. exfalso. apply dget_None_keys in Ed. apply Ed. apply Hk. apply in_or_app. right. now apply smem_In.
      * match goal with |- context [if ?b then _ else _] => destruct b eqn:E2 end; [reflexivity|].
        cbn [dget]. symmetry. apply dget_None_keys. rewrite Hk. intros Hin. apply in_app_or in Hin as [Hin|Hin]; apply smem_In in Hin; congruence.
Qed.
Print Assumptions C53_roundtrip_partial.

Example C53_example :
  match compile_path (include_template (u "/api")), compile_path (include_template (u "/{org:int}")), compile_path (u "/users/{id:int}") with
  | Compiled r1 f1 c1, Compiled r2 f2 c2, Compiled r3 f3 c3 =>
      node_url (NInclude (Some (u "api")) f1 c1 [NPath (u "home") (u "/") []; NInclude None f2 c2 [NPath (u "user") f3 c3]])
        (u "api:user") [(u "id", VInt 1); (u "org", VInt 7)] = Url (u "/api/7/users/1") /\
      mount_chain [(r1, c1); (r2, c2)] [] (u "/api/7/users/1") [] = Some (u "/api/7", [(u "org", VInt 7)]) /\
      rmatch r3 (get_route_path (u "/api/7") (u "/api/7/users/1")) = Some [(u "id", u "1")]
  | _, _, _ => False
  end.
Proof. vm_compute. repeat split. Qed.
Example C53_example_located :
  match compile_path (include_template (u "/api")), compile_path (u "/users/{id:int}") with
  | Compiled _ f1 c1, Compiled _ f3 c3 =>
      located (NInclude (Some (u "api")) f1 c1 [NPath (u "home") (u "/") []; NPath (u "user") f3 c3]) (u "api:user")
        [((([], u "/api") : template), u "/api")] ([(u "/users/", u "id", CInt)], [])
  | _, _ => False
  end.
Proof.
  destruct (compile_path (include_template (u "/api"))) as [|r1 f1 c1] eqn:E1; [vm_compute in E1; discriminate|].
  destruct (compile_path (u "/users/{id:int}")) as [|r3 f3 c3] eqn:E3; [vm_compute in E3; discriminate|].
  apply (loc_include (Some (u "api")) ([], u "/api") (u "/api") r1 f1 c1 [NPath (u "home") (u "/") []] (NPath (u "user") f3 c3) [] (u "user")).
  - exact api_mountable.
  - exact E1.
  - intros b params [<-|[]]. reflexivity.
  - apply (loc_path _ _ r3); [|exact E3]. split; [|split; [|split]].
    + intros l n c [[= <- <- <-]|[]]; (split; [|split; [reflexivity|]]);
        intros x Hx; vm_compute in Hx; decompose [or] Hx; subst; try reflexivity; contradiction.
    + intros ? [].
    + constructor; [intros []|constructor].
    + eexists. reflexivity.
Qed.
