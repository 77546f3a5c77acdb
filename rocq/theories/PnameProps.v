(** C320 to C322: the names of the parts of a form. *)
From Verif Require Import PyStr PyStrFacts Utf8 FormModel FormSpec FormProofs MultipartModel MultipartSpec MultipartProofs MultipartFormProofs
  MultipartLimitProofs PushModel PushSpec PushProofs PnameModel PnameSpec PnameProofs.

(** ** C320 *)
Theorem C320_named : forall e boundary gs its chunks,
  ~ In 13%N boundary -> Forall (good_gpart boundary) gs -> Forall2 (gitem e) gs its ->
  count g_file gs <= max_files e -> count (fun g => negb (g_file g)) gs <= max_fields e ->
  concat chunks = encode_gform boundary gs -> safe_chunks boundary chunks ->
  mp_parse e boundary chunks = inl its.
Proof. intros e boundary gs its chunks HB G I M1 M2 E S. rewrite (mp_parse_safe _ _ _ S), E. apply gform_parsed; assumption. Qed.
Print Assumptions C320_named.

(** A part that declares neither makes the whole form fail, whatever comes before and after. *)
Theorem C320_nameless : forall e boundary gs its g rest chunks,
  ~ In 13%N boundary -> Forall (good_gpart boundary) (gs ++ g :: rest) -> Forall2 (gitem e) gs its ->
  count g_file gs <= max_files e -> count (fun g => negb (g_file g)) gs <= max_fields e ->
  silent_on g (u "name") -> silent_on g (u "name*") ->
  concat chunks = encode_gform boundary (gs ++ g :: rest) -> safe_chunks boundary chunks ->
  mp_parse e boundary chunks = inr NoName.
Proof. intros e boundary gs its g rest chunks HB G I M1 M2 Q1 Q2 E S. rewrite (mp_parse_safe _ _ _ S), E. apply (form_refused e boundary gs its); assumption. Qed.
Print Assumptions C320_nameless.

(** ** C321 *)
Lemma encoded_visible s c : text s -> In c (rfc5987_encode s) -> (32 < c < 127)%N /\ c <> 34%N /\ c <> 59%N.
Proof.
  intros T. unfold rfc5987_encode. rewrite in_app_iff. intros [H|H].
  - cbn in H. repeat (destruct H as [<-|H]; [lia|]). contradiction.
  - apply in_flat_map in H. destruct H as (b & Hb & H). pose proof (enc_bytes s b T Hb) as L.
    unfold quote_byte in H. destruct (unreserved b) eqn:E.
    + destruct H as [<-|[]]. unfold unreserved in E. rewrite !orb_true_iff, !between_spec, !N.eqb_eq in E. lia.
    + assert (M := N.mod_lt b 16 ltac:(lia)). assert (L' : (b / 16 < 16)%N) by (apply N.div_lt_upper_bound; lia).
      apply hexdigit_range in M. apply hexdigit_range in L'. set (h1 := hexdigit (b / 16)) in *. set (h2 := hexdigit (b mod 16)) in *.
      cbn [In] in H. destruct H as [<-|[<-|[<-|[]]]]; lia.
Qed.
Lemma ascii_id s : (forall c, In c s -> (c < 128)%N) -> ascii_part s = s.
Proof.
  induction s as [|c s IH]; intros H; [reflexivity|]. cbn [ascii_part filter]. rewrite (proj2 (N.ltb_lt _ _) (H c (or_introl eq_refl))).
  fold (ascii_part s). rewrite IH by (intros d D; apply H; now right). reflexivity.
Qed.
Lemma unquoted_bytes s : text s -> unquote_bytes (ascii_part (flat_map quote_byte (utf8_enc s))) = utf8_enc s.
Proof.
  intros T. rewrite ascii_id by (intros c H; apply (enc_quote_chars s c T) in H; tauto).
  assert (B : forall b, In b (utf8_enc s) -> (b < 256)%N) by (intros b; apply enc_bytes; exact T).
  induction (utf8_enc s) as [|b l IH]; [reflexivity|]. cbn [flat_map].
  rewrite unquote_quote_byte by (apply B; left; reflexivity). rewrite IH by (intros c Hc; apply B; right; exact Hc). reflexivity.
Qed.
(** The codecs know UTF-8. *)
Definition knows_utf8 (codecs : codecs_t) : Prop := forall b, codecs (u "UTF-8") b = Some (utf8_dec b).
Lemma decoded codecs charset s : knows_utf8 codecs -> text s -> decode_raw codecs charset (rfc5987_encode s) = s.
Proof.
  intros C T. unfold decode_raw, rfc5987_encode. rewrite find_quotes.
  change (skipn (5 + 2) (u "UTF-8''" ++ flat_map quote_byte (utf8_enc s))) with (flat_map quote_byte (utf8_enc s)).
  change (firstn 5 (u "UTF-8''" ++ flat_map quote_byte (utf8_enc s))) with (u "UTF-8"). cbv beta iota.
  rewrite (unquoted_bytes s T). destruct (utf8_enc s) as [|b l] eqn:E.
  - rewrite <- (dec_enc s T), E. reflexivity.
  - change (match u "UTF-8" with [] => charset | _ => u "UTF-8" end) with (u "UTF-8"). rewrite C, <- E. apply dec_enc. exact T.
Qed.
(** A field whose name is written as RFC 5987 says. *)
Definition starred_field (f : str * str) : gpart :=
  {| g_params := [{| k_name := u "name*"; k_value := rfc5987_encode (fst f); k_quoted := false |}]; g_headers := []; g_body := utf8_enc (snd f) |}.
Lemma starred_good boundary f : text (fst f) -> ~ occurs (crlf ++ u "--" ++ boundary) (utf8_enc (snd f)) -> good_gpart boundary (starred_field f).
Proof.
  intros T O. refine (conj _ (conj _ (conj _ (conj _ O)))); cbn [starred_field g_params g_headers map].
  - constructor; [|constructor]. refine (conj _ (conj _ (conj _ _))); cbn [k_name k_value k_quoted].
    + discriminate.
    + intros c H. cbn in H. repeat (destruct H as [<-|H]; [lia|]). contradiction.
    + intros c H. apply (encoded_visible _ _ T) in H. lia.
    + intros _. split; [discriminate|]. intros c H. apply (encoded_visible _ _ T) in H. lia.
  - repeat constructor. intros [].
  - intros n v [].
  - repeat constructor. intros [].
Qed.
Theorem C321_extended : forall codecs charset files fields boundary fs chunks,
  knows_utf8 codecs -> ~ In 13%N boundary ->
  Forall (fun f => text (fst f) /\ text (snd f) /\ ~ occurs (crlf ++ u "--" ++ boundary) (utf8_enc (snd f))) fs ->
  length fs <= fields ->
  concat chunks = encode_gform boundary (map starred_field fs) -> safe_chunks boundary chunks ->
  mp_parse (request_env codecs charset utf8_strict files fields) boundary chunks = inl (map (fun f => (fst f, inl (snd f))) fs).
Proof.
  intros codecs charset files fields boundary fs chunks C HB T L E S.
  assert (NF : forall l, filter g_file (map starred_field l) = [] /\ filter (fun g => negb (g_file g)) (map starred_field l) = map starred_field l).
  { induction l as [|f l (I1 & I2)]; [split; reflexivity|]. cbn [map filter]. change (g_file (starred_field f)) with false. cbn [negb]. rewrite I1, I2. split; reflexivity. }
  apply (C320_named _ _ (map starred_field fs)); try assumption.
  - apply Forall_map. rewrite Forall_forall in *. intros f H. destruct (T f H) as (T1 & _ & O). now apply starred_good.
  - clear E L NF. induction T as [|f fs (T1 & T2 & _) _ IH]; cbn [map]; constructor; [|exact IH].
    exists (fst f). split.
    + right. split; [intros [X|[]]; discriminate X|]. exists (rfc5987_encode (fst f)). split.
      * eexists. split; [left; reflexivity | split; reflexivity].
      * symmetry. cbn [request_env rfc5987]. now apply decoded.
    + left. split; [intros [X|[]]; discriminate X|]. exists (snd f). split; [|reflexivity].
      unfold user_safe_decode. cbn [request_env codec starred_field g_body]. unfold utf8_strict. rewrite (dec_enc _ T2), seqb_refl. reflexivity.
  - unfold count. rewrite (proj1 (NF fs)). cbn. lia.
  - unfold count. rewrite (proj2 (NF fs)), map_length. exact L.
Qed.
Print Assumptions C321_extended.

(** An extended name without a charset in front is lost: the part is then called "". *)
Theorem C321_unmarked : forall codecs charset decode files fields g v,
  NoDup (map k_name (g_params g)) -> silent_on g (u "name") -> declares g (u "name*") v -> ~ occurs (u "''") v ->
  forall name, named (request_env codecs charset decode files fields) g name <-> name = [].
Proof.
  intros codecs charset decode files fields g v ND Q D O name.
  assert (F : find (u "''") v = None).
  { destruct (find (u "''") v) as [i|] eqn:E; [|reflexivity]. exfalso. apply O. apply find_some in E. destruct E as (E & _). eexists. eexists. exact E. }
  assert (R : rfc5987 (request_env codecs charset decode files fields) v = []).
  { cbn [request_env rfc5987]. unfold decode_raw. rewrite F. reflexivity. }
  split.
  - intros [(w & (k & I & E & _) & _) | (_ & w & D' & ->)].
    + exfalso. apply Q. rewrite <- E. now apply in_map.
    + assert (w = v) as ->; [|exact R].
      pose proof (opts_declares _ _ _ ND D). pose proof (opts_declares _ _ _ ND D'). congruence.
  - intros ->. right. split; [exact Q|]. exists v. split; [exact D | now rewrite R].
Qed.
Print Assumptions C321_unmarked.

(** ** C322 *)
Definition stored (it : str * (str + option file)) : Prop := exists f, snd it = inr (Some f).
Definition C322_statement : Prop := forall e boundary gs its,
  ~ In 13%N boundary -> Forall (good_gpart boundary) gs -> mp_parse e boundary [encode_gform boundary gs] = inl its ->
  Forall2 (fun g it => (exists f, declares g (u "filename") f \/ declares g (u "filename*") f) -> stored it) gs its.
Definition upload : gpart :=
  {| g_params := [{| k_name := u "name"; k_value := u "doc"; k_quoted := true |};
                  {| k_name := u "filename*"; k_value := u "UTF-8''r%C3%A9sum%C3%A9.txt"; k_quoted := false |}];
     g_headers := [(u "Content-Type", u "text/plain")]; g_body := u "data" |}.
Definition no_files : env := request_env (fun _ b => Some (utf8_dec b)) (u "utf-8") utf8_strict 0 5.
Lemma upload_good : good_gpart (u "b") upload.
Proof.
  refine (conj _ (conj _ (conj _ (conj _ _)))).
  - cbn [upload g_params]. constructor; [|constructor; [|constructor]]; refine (conj _ (conj _ (conj _ _))); cbn [k_name k_value k_quoted]; try discriminate.
    + intros c H. cbn in H. repeat (destruct H as [<-|H]; [lia|]). contradiction.
    + intros c H. cbn in H. repeat (destruct H as [<-|H]; [lia|]). contradiction.
    + intros c H. cbn in H. repeat (destruct H as [<-|H]; [lia|]). contradiction.
    + intros c H. cbn in H. repeat (destruct H as [<-|H]; [lia|]). contradiction.
    + intros _. split; [discriminate|]. intros c H. cbn in H. repeat (destruct H as [<-|H]; [lia|]). contradiction.
  - cbn. repeat constructor; cbn; intuition discriminate.
  - cbn. intros n v [H|[]]. injection H as <- <-. repeat split; cbn; intuition discriminate.
  - cbn. repeat constructor; cbn; intuition discriminate.
  - apply find_none_occ. vm_compute. reflexivity.
Qed.
(** An upload whose file name is written only as RFC 5987 says is a field, even where no files are allowed. *)
Theorem C322_refuted : ~ C322_statement.
Proof.
  intros H. specialize (H no_files (u "b") [upload] [(u "doc", inl (u "data"))]).
  assert (X : Forall2 (fun g (it : str * (str + option file)) => (exists f, declares g (u "filename") f \/ declares g (u "filename*") f) -> stored it) [upload] [(u "doc", inl (u "data"))]).
  { apply H.
    - intros [E|[]]. discriminate E.
    - constructor; [exact upload_good | constructor].
    - vm_compute. reflexivity. }
  inversion X as [|? ? ? ? Y _]; subst. destruct Y as (f & E); [|discriminate E].
  exists (u "UTF-8''r%C3%A9sum%C3%A9.txt"). right. eexists. split; [right; left; reflexivity | split; reflexivity].
Qed.
Print Assumptions C322_refuted.

(** Where every part with a [filename*] has a [filename] too, the files are the parts with a file name. *)
Theorem C322_plain_partial : forall e boundary gs its chunks,
  ~ In 13%N boundary -> Forall (good_gpart boundary) gs -> Forall2 (gitem e) gs its ->
  count g_file gs <= max_files e -> count (fun g => negb (g_file g)) gs <= max_fields e ->
  concat chunks = encode_gform boundary gs -> safe_chunks boundary chunks ->
  Forall (fun g => silent_on g (u "filename*") \/ exists f, declares g (u "filename") f) gs ->
  mp_parse e boundary chunks = inl its /\
  Forall2 (fun g it => (exists f, declares g (u "filename") f \/ declares g (u "filename*") f) <-> stored it) gs its.
Proof.
  intros e boundary gs its chunks HB G I M1 M2 E S P. split; [now apply (C320_named e boundary gs)|].
  clear M1 M2 E S G. induction I as [|g it gs its It _ IH]; constructor.
  - inversion P as [|? ? P1 _]; subst. destruct It as (name & _ & [(Q & t & _ & ->) | (f & fn & D & _ & ->)]).
    + split; [|intros (f & X); discriminate X]. intros (f & [(k & I & E & _)|(k & I & E & _)]); exfalso.
      * apply Q. rewrite <- E. now apply in_map.
      * destruct P1 as [P1|(f' & k' & I' & E' & _)]; [apply P1; rewrite <- E; now apply in_map | apply Q; rewrite <- E'; now apply in_map].
    + split; intros _; [eexists; reflexivity | exists f; now left].
  - inversion P; subst. apply IH. assumption.
Qed.
Print Assumptions C322_plain_partial.

(** Cases: a field with an extended name, a file with parameters in another order; a part without a name. *)
Definition codecs_8 : codecs_t := fun _ b => Some (utf8_dec b).
Definition env_8 : env := request_env codecs_8 (u "utf-8") utf8_strict 2 2.
Definition mixed : list gpart :=
  [ starred_field ([233%N], u "hello");
    {| g_params := [{| k_name := u "filename"; k_value := u "a.txt"; k_quoted := true |}; {| k_name := u "name"; k_value := u "doc"; k_quoted := false |}];
       g_headers := []; g_body := u "data" |} ].
Example C320_case :
  mp_parse env_8 (u "b") [encode_gform (u "b") mixed] =
    inl [([233%N], inl (u "hello"));
         (u "doc", inr (Some {| f_name := u "a.txt"; f_headers := [(u "content-disposition", u "form-data; filename=" ++ quoted (u "a.txt") ++ u "; name=doc")];
                                f_content := u "data"; f_pos := 0; f_size := 4 |}))] /\
  mp_parse env_8 (u "b") [encode_gform (u "b") (mixed ++ [{| g_params := []; g_headers := []; g_body := [] |}])] = inr NoName.
Proof. split; vm_compute; reflexivity. Qed.
Example C320_hypotheses : Forall (good_gpart (u "b")) mixed /\ (exists its, Forall2 (gitem env_8) mixed its) /\ count g_file mixed = 1.
Proof.
  split; [|split; [|reflexivity]].
  - constructor; [|constructor; [|constructor]].
    + apply starred_good; [intros c [<-|[]]; vm_compute; intuition discriminate | apply find_none_occ; vm_compute; reflexivity].
    + refine (conj _ (conj _ (conj _ (conj _ _)))).
      * constructor; [|constructor; [|constructor]]; refine (conj _ (conj _ (conj _ _))); cbn [k_name k_value k_quoted]; try discriminate;
          try (intros c H; cbn in H; repeat (destruct H as [<-|H]; [lia|]); contradiction).
        intros _. split; [discriminate|]. intros c H. cbn in H. repeat (destruct H as [<-|H]; [lia|]). contradiction.
      * cbn. repeat constructor; cbn; intuition discriminate.
      * intros n v [].
      * repeat constructor. intros [].
      * apply find_none_occ. vm_compute. reflexivity.
  - eexists. constructor; [|constructor; [|constructor]].
    + exists [233%N]. split.
      * right. split; [intros [X|[]]; discriminate X|]. eexists. split; [eexists; split; [left; reflexivity | split; reflexivity]|]. vm_compute. reflexivity.
      * left. split; [intros [X|[]]; discriminate X|]. exists (u "hello"). split; [vm_compute; reflexivity | reflexivity].
    + exists (u "doc"). split.
      * left. exists (u "doc"). split; [eexists; split; [right; left; reflexivity | split; reflexivity] | vm_compute; reflexivity].
      * right. exists (u "a.txt"), (u "a.txt"). split; [eexists; split; [left; reflexivity | split; reflexivity]|]. split; [vm_compute; reflexivity | reflexivity].
Qed.
Example C321_case :
  mp_parse env_8 (u "b") [encode_gform (u "b") [starred_field ([8364%N; 32%N], u "x")]] = inl [([8364%N; 32%N], inl (u "x"))] /\
  mp_parse env_8 (u "b") [encode_gform (u "b") [{| g_params := [{| k_name := u "name*"; k_value := u "city"; k_quoted := true |}]; g_headers := []; g_body := u "x" |}]]
    = inl [([], inl (u "x"))] /\ ~ occurs (u "''") (u "city").
Proof. split; [vm_compute; reflexivity|]. split; [vm_compute; reflexivity|]. apply find_none_occ. vm_compute. reflexivity. Qed.
