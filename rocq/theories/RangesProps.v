(** Property theorems for Range headers: C01, C02, C03. *)
From Verif Require Import PyStr PyStrFacts RangesModel RangesSpec RangesProofs.
Open Scope Z_scope.

(** C01, any header string.  If the default (ascending) mode accepts a header then every
    comma-separated text is a range in the sense of [denotes], the result covers exactly the
    bytes asked for, its ranges are strictly ascending (with gaps when merging), all inside the
    representation, the size is the number of bytes covered, and max_ranges is respected. *)
Theorem C01_accepted_header hv mv mr merge c :
  parse_range_value (Some hv) mv true mr merge = PrvOk c ->
  exists rest asked,
    (hv = cr_unit c ++ 61%N :: rest \/ (cr_unit c = [] /\ ~ In 61%N hv /\ rest = hv)) /\
    dget (cr_unit c) mv = Some (cr_max c) /\
    Forall2 (denotes (cr_max c)) (split_char 44 rest) asked /\
    (forall b, covers (cr_ranges c) b <-> covers asked b) /\
    ascending (cr_ranges c) /\ (merge = true -> separated (cr_ranges c)) /\
    Forall (satisfiable (cr_max c)) (cr_ranges c) /\
    byte_count (cr_ranges c) (cr_size c) /\
    (forall m, mr = Some m -> Z.of_nat (length asked) <= m).
Proof. exact (asc_accepted hv mv mr merge c). Qed.
Print Assumptions C01_accepted_header.

(** C01, headers written by a client from numbers.  For satisfiable "a-b" / "a-" ranges the
    header is accepted exactly when the ranges are ascending and disjoint and not too many,
    and then it yields exactly the requested bytes; otherwise it is ignored. *)
Theorem C01_written_header rs max mr merge :
  rs <> [] -> (forall r, In r rs -> satisfiable max (rspec_range max r)) ->
  (ascending (map (rspec_range max) rs) /\ (forall m, mr = Some m -> Z.of_nat (length rs) <= m) ->
   exists c, parse_range_value (Some (render_header rs)) (bytes_max max) true mr merge = PrvOk c /\
     (forall b, covers (cr_ranges c) b <-> covers (map (rspec_range max) rs) b) /\
     byte_count (map (rspec_range max) rs) (cr_size c)) /\
  (~ (ascending (map (rspec_range max) rs) /\ (forall m, mr = Some m -> Z.of_nat (length rs) <= m)) ->
   parse_range_value (Some (render_header rs)) (bytes_max max) true mr merge = PrvNone).
Proof. exact (asc_rendered rs max mr merge). Qed.
Print Assumptions C01_written_header.

(** A range in a unit that is not offered, and a value without a unit where none is expected, is
    ignored: it is neither served nor refused. *)
Theorem C01_unit hv mv asc mr merge :
  (forall unit rest, hv = unit ++ u "=" ++ rest -> ~ In 61%N unit -> ~ In unit (dkeys mv)) ->
  (~ In 61%N hv -> ~ In [] (dkeys mv)) ->
  parse_range_value (Some hv) mv asc mr merge = PrvNone.
Proof.
  intros U N. unfold parse_range_value. destruct hv as [|c hv]; [reflexivity|].
  assert (X : forall k, ~ In k (dkeys mv) -> dget k mv = None) by (intros k; apply dget_None_keys).
  destruct (split1 61 (c :: hv)) as [(unit, rest)|] eqn:E.
  - apply split1_some in E. destruct E as (E & NI). rewrite X; [reflexivity|]. apply (U unit rest); [exact E | exact NI].
  - rewrite X; [reflexivity|]. apply N. intros I. apply split1_none in E. contradiction.
Qed.
Print Assumptions C01_unit.
Example C01_unit_case : parse_range_value (Some (u "items=0-4")) (bytes_max 99) true None true = PrvNone.
Proof.
  apply C01_unit.
  - intros unit rest E NI [<-|[]]. discriminate E.
  - intros NI. exfalso. apply NI. cbn. tauto.
Qed.

Example C01_example_merge :
  parse_range_value (Some (u "bytes=0-9, 10-19,30-")) (bytes_max 99) true (Some 5) true =
  PrvOk (mkCR (u "bytes") 99 90 [mkRange 0 19; mkRange 30 99]).
Proof. vm_compute. reflexivity. Qed.
Example C01_example_written :
  render_header [Closed 0 9; Closed 10 19; OpenFrom 30] = u "bytes=0-9,10-19,30-" /\
  (forall r, In r [Closed 0 9; Closed 10 19; OpenFrom 30] -> satisfiable 99 (rspec_range 99 r)).
Proof.
  split; [vm_compute; reflexivity|].
  intros r [<-|[<-|[<-|[]]]]; unfold satisfiable; cbn; lia.
Qed.
Example C01_example_overlap :
  parse_range_value (Some (u "bytes=0-9,9-19")) (bytes_max 99) true None true = PrvNone.
Proof. vm_compute. reflexivity. Qed.

(** C02, full statement: a suffix range "-n" selects exactly n bytes. *)
Definition C02_statement : Prop := forall (n : N) (max : Z),
  1 <= Z.of_N n <= max + 1 ->
  exists c, parse_range_value (Some (u "bytes=-" ++ dec n)) (bytes_max max) true None true = PrvOk c /\
    byte_count (cr_ranges c) (Z.of_N n) /\
    (forall b, covers (cr_ranges c) b <-> max - Z.of_N n < b <= max).

(** It is false: "bytes=-1" on a 10 byte file selects two bytes. *)
Theorem C02_suffix_refuted : ~ C02_statement.
Proof.
  intros H. destruct (H 1%N 9 ltac:(lia)) as (c & Hc & _ & Hcov).
  vm_compute in Hc. injection Hc as <-. cbn [cr_ranges] in Hcov.
  specialize (Hcov 8). destruct Hcov as [H1 _].
  assert (covers [mkRange 8 9] 8) as H2 by (exists (mkRange 8 9); cbn; split; [auto|lia]).
  specialize (H1 H2). lia.
Qed.
Print Assumptions C02_suffix_refuted.

(** What the code does instead, for every n and every size: one byte too many while n fits,
    and the header is ignored otherwise.  (Partial: the selected bytes do end at the last byte
    of the representation, but the count is n+1 rather than n.) *)
Theorem C02_suffix_off_by_one_partial n max mr merge asc :
  mr <> Some 0 -> (forall m, mr = Some m -> 0 <= m) -> 0 <= max ->
  parse_range_value (Some (u "bytes=-" ++ dec n)) (bytes_max max) asc mr merge =
  if Z.of_N n <=? max
  then PrvOk (mkCR (u "bytes") max (Z.of_N n + 1) [mkRange (max - Z.of_N n) max])
  else PrvNone.
Proof. exact (suffix_value n max mr merge asc). Qed.
Print Assumptions C02_suffix_off_by_one_partial.
Example C02_example : parse_range_value (Some (u "bytes=-5")) (bytes_max 99) true None true =
  PrvOk (mkCR (u "bytes") 99 6 [mkRange 94 99]).
Proof. vm_compute. reflexivity. Qed.

(** C03, full statement for the unordered mode. *)
Definition C03_statement : Prop := forall hv max mr merge c,
  parse_range_value (Some hv) (bytes_max max) false mr merge = PrvOk c ->
  ascending (cr_ranges c) /\ byte_count (cr_ranges c) (cr_size c).

(** False twice over: the reported size misses merged ranges ... *)
Theorem C03_size_refuted : exists c,
  parse_range_value (Some (u "bytes=5-6,0-4")) (bytes_max 99) false None true = PrvOk c /\
  cr_ranges c = [mkRange 0 6] /\ cr_size c = 5.
Proof. eexists. split; [vm_compute; reflexivity|]. split; reflexivity. Qed.
Print Assumptions C03_size_refuted.

(** ... and the last byte is emitted again for each overlapping range that reaches it. *)
Theorem C03_disjoint_refuted : exists c,
  parse_range_value (Some (u "bytes=0-,50-,60-")) (bytes_max 99) false None true = PrvOk c /\
  cr_ranges c = [mkRange 0 99; mkRange 99 99; mkRange 99 99] /\ ~ ascending (cr_ranges c).
Proof.
  eexists. split; [vm_compute; reflexivity|]. split; [reflexivity|]. cbn [cr_ranges].
  intros H. inversion H as [|r rs Hh _]; subst.
  specialize (Hh (mkRange 99 99) (or_introl eq_refl)). cbn in Hh. lia.
Qed.
Print Assumptions C03_disjoint_refuted.

Theorem C03_refuted : ~ C03_statement.
Proof.
  intros H. destruct C03_disjoint_refuted as (c & Hc & _ & Hn).
  apply Hn. exact (proj1 (H _ _ _ _ _ Hc)).
Qed.
Print Assumptions C03_refuted.

(** What holds of the unordered mode for every header: the bytes covered are exactly the ones
    asked for, in order of start, inside the representation; and when no requested range reaches
    the last byte the ranges are disjoint, and (without merging) the size is right.
    Missing for the full property: disjointness at the last byte, size under merging. *)
Theorem C03_unordered_partial hv mv mr merge c :
  parse_range_value (Some hv) mv false mr merge = PrvOk c ->
  exists rest asked,
    (hv = cr_unit c ++ 61%N :: rest \/ (cr_unit c = [] /\ ~ In 61%N hv /\ rest = hv)) /\
    Forall2 (denotes (cr_max c)) (split_char 44 rest) asked /\
    (forall b, covers (cr_ranges c) b <-> covers asked b) /\
    Forall (satisfiable (cr_max c)) (cr_ranges c) /\
    starts_sorted (cr_ranges c) /\
    ((forall r, In r asked -> r_stop r < cr_max c) -> ascending (cr_ranges c) /\
       (merge = false -> byte_count (cr_ranges c) (cr_size c))).
Proof. exact (unordered_accepted hv mv mr merge c). Qed.
Print Assumptions C03_unordered_partial.
Example C03_example :
  parse_range_value (Some (u "bytes=50-59,0-9,5-20")) (bytes_max 99) false None false =
  PrvOk (mkCR (u "bytes") 99 31 [mkRange 0 9; mkRange 10 20; mkRange 50 59]).
Proof. vm_compute. reflexivity. Qed.
