(** C174-C184: the standalone form parser. *)
From Verif Require Import PyStr PyStrFacts Utf8 RequestModel RequestSpec FormModel FormSpec FormProofs MultipartModel MultipartSpec MultipartProofs MultipartFormProofs
  MultipartProps PushModel PushSpec PushProofs.

(** Codecs that know UTF-8 only. *)
Definition utf8_only : codecs_t := fun name b => if seqb name (u "UTF-8") then Some (utf8_dec b) else None.
Definition typed (t : str) : list (str * str) := [(u "Content-Type", t)].

Lemma typed_declares t : ~ In 59%N t -> Forall (fun c => (c < 256)%N) t -> declares (typed t) (lower (bstrip t)) [].
Proof.
  intros H F. exists [], (u "Content-Type"), t, []. rewrite app_nil_r.
  refine (conj eq_refl (conj eq_refl (conj (Forall_nil _) (conj (or_introl eq_refl) (conj H (conj F eq_refl)))))).
Qed.

Lemma kind_of headers t params : declares headers t params ->
  form_kind (content_type_of headers) =
  if seqb t (u "multipart/form-data") then
    match dget (u "boundary") (snd (options_header (content_type_of headers))) with
    | None | Some [] => None
    | Some b => Some (KMulti b)
    end
  else if seqb t (u "application/octet-stream") then Some KOctet
  else if seqb t (u "application/x-www-form-urlencoded") || seqb t (u "text/plain") then Some KUrl
  else None.
Proof.
  intros D. destruct (declares_type _ _ _ D) as (raw & E & O & _). unfold form_kind. rewrite E, O. reflexivity.
Qed.

Lemma octet_kind headers params : declares headers (u "application/octet-stream") params -> form_kind (content_type_of headers) = Some KOctet.
Proof. intros D. rewrite (kind_of _ _ _ D). reflexivity. Qed.
Definition urlencoded_type (t : str) : Prop := t = u "application/x-www-form-urlencoded" \/ t = u "text/plain".
Lemma url_kind headers t params : urlencoded_type t -> declares headers t params -> form_kind (content_type_of headers) = Some KUrl.
Proof. intros [-> | -> ] D; rewrite (kind_of _ _ _ D); reflexivity. Qed.
Lemma multi_kind headers b : plain_boundary b -> declares headers (u "multipart/form-data") (with_boundary b) ->
  form_kind (content_type_of headers) = Some (KMulti b).
Proof.
  intros P D. rewrite (kind_of _ _ _ D). destruct (declares_type _ _ _ D) as (raw & E & O & N59). rewrite E, O. cbn [snd].
  rewrite (boundary_option raw b N59 P). rewrite seqb_refl. destruct P as (NE & _). destruct b; [congruence | reflexivity].
Qed.

(** *** C174 *)
(** A body sent as an octet stream, read in any number of non-empty pieces, is one file: all its bytes,
    with the given name, or "upload". *)
Theorem C174_octet_stream : forall codecs headers params chunks rest,
  declares headers (u "application/octet-stream") params -> Forall nonempty chunks -> chunks <> [] ->
  parse_form codecs headers (chunks ++ [] :: rest) =
  ([CFile {| up_filename := u "upload"; up_field := u "file"; up_type := None; up_headers := None;
             up_content := concat chunks; up_size := length (concat chunks) |}], None).
Proof.
  intros codecs headers params chunks rest D F NE. unfold parse_form, create. rewrite (octet_kind _ _ D).
  rewrite until_chunks by exact F. rewrite feed_octet by reflexivity.
  destruct chunks as [|c r]; [congruence|]. inversion F as [|? ? F1 F2]; subst. destruct c as [|x c]; [contradiction F1; reflexivity|]. reflexivity.
Qed.
Print Assumptions C174_octet_stream.

Theorem C174_named : forall codecs headers params name limit chunks s,
  declares headers (u "application/octet-stream") params -> name <> [] -> concat chunks <> [] ->
  create codecs headers (Some name) limit = Some s ->
  exists content, feed s start chunks =
    ([CFile {| up_filename := name; up_field := u "file"; up_type := None; up_headers := None; up_content := content; up_size := length content |}; CEnd], None) /\
    content = match limit with None => concat chunks | Some m => firstn m (concat chunks) end.
Proof.
  intros codecs headers params name limit chunks s D NE C. unfold create. rewrite (octet_kind _ _ D). intros E.
  assert (s = {| s_kind := KOctet; s_limit := limit; s_file_name := Some name; s_codecs := codecs |}) as -> by congruence.
  eexists. split; [|reflexivity]. rewrite feed_octet by reflexivity. cbn [start p_octet p_consumed s_limit octet_file s_file_name].
  destruct (concat chunks) as [|x c]; [congruence|]. destruct name; [congruence|].
  unfold admitted. destruct limit as [m|]; [rewrite Nat.sub_0_r|]; reflexivity.
Qed.
Print Assumptions C174_named.

Example C174_case :
  declares (typed (u "application/octet-stream")) (u "application/octet-stream") [] /\
  Forall nonempty [u "ab"; u "c"] /\ parse_form utf8_only (typed (u "application/octet-stream")) [u "ab"; u "c"; []] =
  ([CFile {| up_filename := u "upload"; up_field := u "file"; up_type := None; up_headers := None; up_content := u "abc"; up_size := 3 |}], None).
Proof.
  split; [apply (typed_declares (u "application/octet-stream")); [cbn; intuition discriminate | repeat constructor]|].
  split; [repeat constructor; discriminate | reflexivity].
Qed.

(** *** C175 *)
(** The full claim: the empty body too. *)
Definition C175_statement : Prop := forall codecs headers params chunks rest,
  declares headers (u "application/octet-stream") params -> Forall nonempty chunks ->
  parse_form codecs headers (chunks ++ [] :: rest) =
  ([CFile {| up_filename := u "upload"; up_field := u "file"; up_type := None; up_headers := None;
             up_content := concat chunks; up_size := length (concat chunks) |}], None).
(** It is false: AssertionError. *)
Theorem C175_refuted : ~ C175_statement.
Proof.
  intros H. specialize (H utf8_only (typed (u "application/octet-stream")) [] [] []).
  specialize (H (typed_declares (u "application/octet-stream") ltac:(cbn; intuition discriminate) ltac:(repeat constructor)) (Forall_nil _)).
  vm_compute in H. discriminate H.
Qed.
Print Assumptions C175_refuted.
(** What holds: the empty body is the only one that fails, and no file is then delivered. *)
Theorem C175_only_empty_partial : forall codecs headers params chunks rest,
  declares headers (u "application/octet-stream") params -> Forall nonempty chunks ->
  (snd (parse_form codecs headers (chunks ++ [] :: rest)) <> None <-> chunks = []) /\
  (chunks = [] -> parse_form codecs headers (chunks ++ [] :: rest) = ([], Some EAssert)).
Proof.
  intros codecs headers params chunks rest D F.
  assert (E0 : parse_form codecs headers ([] ++ [] :: rest) = ([], Some EAssert)).
  { unfold parse_form, create. rewrite (octet_kind _ _ D). reflexivity. }
  split; [|intros ->; exact E0]. split.
  - intros H. destruct chunks as [|c r]; [reflexivity|]. rewrite (C174_octet_stream codecs headers params (c :: r) rest D F ltac:(discriminate)) in H.
    contradiction H. reflexivity.
  - intros -> X. pose proof (eq_trans (eq_sym (f_equal snd E0)) X) as Y. discriminate Y.
Qed.
Print Assumptions C175_only_empty_partial.

(** *** C176 *)
(** An urlencoded body, however it is read, makes one field of each piece between "&" signs, in order,
    with name and value percent-decoded once; text/plain is read the same way. *)
Theorem C176_urlencoded : forall codecs headers t params chunks rest,
  urlencoded_type t -> declares headers t params -> Forall nonempty chunks ->
  snd (parse_form codecs headers (chunks ++ [] :: rest)) = None /\
  Forall2 (fun piece c => exists k v, name_value piece k v /\ c = CField (unquote (utf8_dec k)) (unquote (utf8_dec v)))
          (pieces (concat chunks)) (fst (parse_form codecs headers (chunks ++ [] :: rest))).
Proof.
  intros codecs headers t params chunks rest U D F. unfold parse_form, create. rewrite (url_kind _ _ _ U D), until_chunks by exact F.
  rewrite feed_url by (reflexivity || intros []). cbn [start p_query p_consumed s_limit admitted app fst snd].
  split; [reflexivity|]. rewrite filter_app. cbn [filter no_end]. rewrite app_nil_r.
  induction (pieces (concat chunks)) as [|p ps IH]; [constructor|]. cbn [map filter no_end]. unfold field_of at 1. cbn [no_end]. constructor; [|exact IH].
  exists (fst (partition_eq p)), (snd (partition_eq p)). split; [apply partition_spec | reflexivity].
Qed.
Print Assumptions C176_urlencoded.

Example C176_case : declares (typed (u "application/x-www-form-urlencoded; charset=x")) (u "application/x-www-form-urlencoded") (u "; charset=x") /\
  parse_form utf8_only (typed (u "application/x-www-form-urlencoded; charset=x")) [u "a=1&b"; u "%20=%"; u "41&c+d"; []] =
  ([CField (u "a") (u "1"); CField (u "b ") (u "A"); CField (u "c+d") []], None).
Proof.
  split; [|vm_compute; reflexivity].
  exists [], (u "Content-Type"), (u "application/x-www-form-urlencoded"), [].
  refine (conj eq_refl (conj eq_refl (conj (Forall_nil _) (conj (or_intror (ex_intro _ (u " charset=x") eq_refl)) (conj _ (conj _ eq_refl)))))).
  - cbn. intuition discriminate.
  - repeat constructor.
Qed.

(** *** C177 *)
Definition as_fields (pairs : list (str * str)) : list call := map (fun p => CField (fst p) (snd p)) pairs.
(** The full claim: what a browser encodes comes back. *)
Definition C177_statement : Prop := forall codecs headers params pairs, texts pairs ->
  declares headers (u "application/x-www-form-urlencoded") params ->
  parse_form codecs headers [std_encode pairs; []] = (as_fields pairs, None).
(** It is false: a space comes back as "+". *)
Theorem C177_refuted : ~ C177_statement.
Proof.
  intros H. specialize (H utf8_only (typed (u "application/x-www-form-urlencoded")) [] [(u "a", u "x y")]).
  assert (T : texts [(u "a", u "x y")]).
  { intros p [<-|[]]. split; intros c Hc; cbn in Hc; repeat (destruct Hc as [<-|Hc]; [left; reflexivity|]); contradiction. }
  specialize (H T (typed_declares (u "application/x-www-form-urlencoded") ltac:(cbn; intuition discriminate) ltac:(repeat constructor))).
  vm_compute in H. discriminate H.
Qed.
Print Assumptions C177_refuted.

Lemma piece_pair p : text (fst p) -> text (snd p) ->
  field_of (quote_plus (fst p) ++ u "=" ++ quote_plus (snd p)) = CField (plus_for_space (fst p)) (plus_for_space (snd p)).
Proof.
  intros T1 T2. unfold field_of, pair_of. rewrite (name_value_unique _ (quote_plus (fst p)) (quote_plus (snd p))).
  - cbn [fst snd]. rewrite !dec_ascii by (apply quote_plus_ascii_str; assumption). rewrite !unquote_quote_plus by assumption. reflexivity.
  - split; [apply quote_plus_no; [exact T1 | right; reflexivity] | left; reflexivity].
Qed.

(** What holds, exactly: every text comes back with its spaces as "+". *)
Theorem C177_round_trip_partial : forall codecs headers t params pairs rest, texts pairs -> urlencoded_type t -> declares headers t params ->
  parse_form codecs headers (std_encode pairs :: [] :: rest) = (as_fields (map (fun p => (plus_for_space (fst p), plus_for_space (snd p))) pairs), None) /\
  ((forall p, In p pairs -> ~ In 32%N (fst p) /\ ~ In 32%N (snd p)) ->
   parse_form codecs headers (std_encode pairs :: [] :: rest) = (as_fields pairs, None)).
Proof.
  intros codecs headers t params pairs rest T U D.
  assert (G : parse_form codecs headers (std_encode pairs :: [] :: rest) = (as_fields (map (fun p => (plus_for_space (fst p), plus_for_space (snd p))) pairs), None)).
  { unfold parse_form, create. rewrite (url_kind _ _ _ U D).
    assert (F : feed {| s_kind := KUrl; s_limit := None; s_file_name := None; s_codecs := codecs |} start (until_empty (std_encode pairs :: [] :: rest))
      = (map field_of (pieces (std_encode pairs)) ++ [CEnd], None)).
    { rewrite feed_url by (reflexivity || intros []). cbn [start p_query p_consumed s_limit admitted app].
      destruct (std_encode pairs) as [|x b] eqn:E; [reflexivity|]. cbn [until_empty concat]. rewrite app_nil_r. reflexivity. }
    rewrite F. f_equal. rewrite filter_app. cbn [filter no_end]. rewrite app_nil_r, (pieces_encode pairs T). unfold as_fields. rewrite !map_map.
    clear F. induction pairs as [|p pairs IH]; [reflexivity|]. cbn [map filter].
    destruct (T p (or_introl eq_refl)) as (T1 & T2). rewrite (piece_pair p T1 T2). cbn [no_end fst snd].
    f_equal. apply IH. intros q Hq. apply T. right. exact Hq. }
  split; [exact G|]. intros NS. rewrite G. f_equal. unfold as_fields. rewrite map_map. apply map_ext_in. intros p Hp. cbn [fst snd].
  assert (I : forall s, ~ In 32%N s -> plus_for_space s = s).
  { clear. induction s as [|c s IH]; intros H; [reflexivity|]. cbn [plus_for_space map].
    destruct (N.eqb_spec c 32) as [->|]; [exfalso; apply H; left; reflexivity|]. f_equal. apply IH. intros X. apply H. right. exact X. }
  destruct (NS p Hp) as (N1 & N2). rewrite !I by assumption. reflexivity.
Qed.
Print Assumptions C177_round_trip_partial.
Example C177_case : parse_form utf8_only (typed (u "text/plain")) [std_encode [(u "a b", u "1+1=2"); ([233%N], u "%41")]; []]
  = ([CField (u "a+b") (u "1+1=2"); CField [233%N] (u "%41")], None).
Proof. vm_compute. reflexivity. Qed.

(** *** C178 *)
(** The two urlencoded parsers of the library: the form of a request has the same fields in the same
    order, each name and value decoded once more, "+" included. *)
Theorem C178_two_parsers : forall codecs headers params chunks rest,
  declares headers (u "application/x-www-form-urlencoded") params -> Forall nonempty chunks ->
  exists pairs, parse_form codecs headers (chunks ++ [] :: rest) = (as_fields pairs, None) /\
    form_parse (chunks ++ [[]]) = map (fun p => (unquote_plus (fst p), unquote_plus (snd p))) pairs.
Proof.
  intros codecs headers params chunks rest D F. exists (map pair_of (pieces (concat chunks))). split.
  - unfold parse_form, create. rewrite (url_kind _ _ _ (or_introl eq_refl) D), until_chunks by exact F.
    rewrite feed_url by (reflexivity || intros []). cbn [start p_query p_consumed s_limit admitted app]. f_equal.
    rewrite filter_app. cbn [filter no_end]. rewrite app_nil_r. unfold as_fields. rewrite map_map.
    induction (pieces (concat chunks)) as [|p ps IH]; [reflexivity|]. cbn [map filter]. unfold field_of at 1. cbn [no_end]. rewrite IH. reflexivity.
  - rewrite form_parse_spec by exact F. rewrite map_map. reflexivity.
Qed.
Print Assumptions C178_two_parsers.
Example C178_case : parse_form utf8_only (typed (u "application/x-www-form-urlencoded")) [u "a=x%2520+y"; []] = ([CField (u "a") (u "x%20+y")], None) /\
  form_parse [u "a=x%2520+y"; []] = [(u "a", u "x  y")].
Proof. split; vm_compute; reflexivity. Qed.

(** *** C179 *)
Definition push_sample : list mpart :=
  [ {| m_name := u "title"; m_filename := None; m_headers := []; m_body := u "hello" |};
    {| m_name := u "doc"; m_filename := Some (u "a.txt"); m_headers := [(u "Content-Type", u "text/plain")];
       m_body := u "one" ++ crlf ++ u "--two" ++ crlf |} ].
(** The full claim: the parts of a well-formed form come back. *)
Definition C179_statement : Prop := forall codecs headers boundary ps,
  plain_boundary boundary -> declares headers (u "multipart/form-data") (with_boundary boundary) ->
  Forall (good_part boundary) ps -> Forall byte_names ps ->
  parse_form codecs headers [encode_form boundary ps; []] = (map call_of ps, None).

Definition multi_headers : list (str * str) := [(u "content-type", u "multipart/form-data; boundary=b")].
Lemma multi_declares : declares multi_headers (u "multipart/form-data") (with_boundary (u "b")) /\ plain_boundary (u "b").
Proof.
  split.
  - exists [], (u "content-type"), (u "multipart/form-data"), [].
    refine (conj eq_refl (conj eq_refl (conj (Forall_nil _) (conj (or_intror (ex_intro _ (u " boundary=b") eq_refl)) (conj _ (conj _ eq_refl)))))).
    + cbn. intuition discriminate.
    + repeat constructor.
  - split; [discriminate|]. split; [|reflexivity]. intros c [<-|[]]. repeat split; discriminate.
Qed.
Lemma small_good n f b : (forall c, In c n \/ (exists g, f = Some g /\ In c g) -> c <> 13%N /\ c <> 59%N) -> find (crlf ++ u "--b") b = None ->
  good_part (u "b") {| m_name := n; m_filename := f; m_headers := []; m_body := b |}.
Proof.
  intros H F. split; [exact H|]. split; [intros ? ? []|]. split; [repeat constructor; intros []|].
  intros (x & y & E). cbn [m_body] in E. exact (find_none _ _ F x y E).
Qed.

(** It is false: a field called "tag*" loses its name, *)
Theorem C179_refuted : ~ C179_statement.
Proof.
  intros H. specialize (H utf8_only multi_headers (u "b") [{| m_name := u "tag*"; m_filename := None; m_headers := []; m_body := u "1" |}]).
  destruct multi_declares as (D & P). specialize (H P D).
  assert (G : Forall (good_part (u "b")) [{| m_name := u "tag*"; m_filename := None; m_headers := []; m_body := u "1" |}]).
  { constructor; [|constructor]. apply small_good; [|reflexivity].
    intros c [X|(g & X & _)]; [|discriminate X]. cbn in X. repeat (destruct X as [<-|X]; [split; discriminate|]). contradiction. }
  assert (B : Forall byte_names [{| m_name := u "tag*"; m_filename := None; m_headers := []; m_body := u "1" |}]).
  { constructor; [|constructor]. intros c [X|(g & X & _)]; [|discriminate X]. cbn in X. repeat (destruct X as [<-|X]; [reflexivity|]). contradiction. }
  specialize (H G B). vm_compute in H. discriminate H.
Qed.
Print Assumptions C179_refuted.
(** and a file without a name, as a browser sends for an empty file input, is given as a field. *)
Theorem C179_unnamed_file_refuted :
  parse_form utf8_only multi_headers [encode_form (u "b") [{| m_name := u "doc"; m_filename := Some []; m_headers := []; m_body := u "data" |}]; []]
  = ([CField (u "doc") (u "data")], None).
Proof. vm_compute. reflexivity. Qed.
Print Assumptions C179_unnamed_file_refuted.

(** What holds: every other form, in one read or cut safely. *)
Theorem C179_round_trip_partial : forall codecs headers boundary ps chunks rest,
  plain_boundary boundary -> declares headers (u "multipart/form-data") (with_boundary boundary) ->
  Forall (good_part boundary) ps -> Forall byte_names ps -> Forall plain_names ps ->
  Forall nonempty chunks -> concat chunks = encode_form boundary ps -> safe_chunks boundary chunks ->
  parse_form codecs headers (chunks ++ [] :: rest) = (map call_of ps, None).
Proof.
  intros codecs headers boundary ps chunks rest P D G B PN F E S. unfold parse_form, create. rewrite (multi_kind _ _ P D), until_chunks by exact F.
  rewrite (feed_multi_safe _ boundary) by (reflexivity || exact S). cbn [s_codecs]. rewrite E, whole_form; try assumption.
  - f_equal. rewrite filter_app. cbn [filter no_end]. rewrite app_nil_r. clear. induction ps as [|p ps IH]; [reflexivity|]. cbn [map filter].
    rewrite IH. unfold call_of at 1. destruct (m_filename p) eqn:Q; cbn [no_end]; reflexivity.
  - destruct P as (_ & C & _). intros X. apply C in X. lia.
Qed.
Print Assumptions C179_round_trip_partial.

Example C179_case : Forall (good_part (u "b")) push_sample /\ Forall byte_names push_sample /\ Forall plain_names push_sample /\
  length (map call_of push_sample) = 2.
Proof.
  split; [exact (proj1 (proj2 C22_example))|]. split; [|split; [repeat constructor; discriminate | reflexivity]].
  constructor; [|constructor; [|constructor]]; intros c [X|(f & E & X)]; try discriminate E.
  - cbn in X. repeat (destruct X as [<-|X]; [reflexivity|]). contradiction.
  - cbn in X. repeat (destruct X as [<-|X]; [reflexivity|]). contradiction.
  - cbn [m_filename] in E. assert (f = u "a.txt") as -> by congruence. cbn in X. repeat (destruct X as [<-|X]; [reflexivity|]). contradiction.
Qed.

(** *** C180 *)
(** The full claim: only the bytes of the body matter. *)
Definition C180_statement : Prop := forall codecs headers chunks chunks', Forall nonempty chunks -> Forall nonempty chunks' ->
  concat chunks = concat chunks' -> parse_form codecs headers (chunks ++ [[]]) = parse_form codecs headers (chunks' ++ [[]]).
(** It is false: a delimiter that straddles two reads is taken for data, and a part is lost. *)
Theorem C180_refuted : ~ C180_statement.
Proof.
  intros H. specialize (H utf8_only multi_headers cut_in_delimiter [concat cut_in_delimiter]).
  assert (F : Forall nonempty cut_in_delimiter) by (repeat constructor; discriminate).
  specialize (H F). assert (F' : Forall nonempty [concat cut_in_delimiter]) by (repeat constructor; discriminate).
  specialize (H F'). cbn [concat app] in H. rewrite app_nil_r in H. specialize (H eq_refl). vm_compute in H. discriminate H.
Qed.
Print Assumptions C180_refuted.
(** What holds: urlencoded forms and octet streams in any pieces, multipart forms in pieces that leave
    each delimiter whole. *)
Theorem C180_safe_partial : forall codecs headers t params chunks rest, Forall nonempty chunks -> chunks <> [] -> declares headers t params ->
  (t = u "multipart/form-data" -> exists boundary, params = with_boundary boundary /\ plain_boundary boundary /\ safe_chunks boundary chunks) ->
  parse_form codecs headers (chunks ++ [] :: rest) = parse_form codecs headers [concat chunks; []].
Proof.
  intros codecs headers t params chunks rest F NE D SC.
  assert (NC : concat chunks <> []).
  { destruct chunks as [|c r]; [congruence|]. inversion F as [|? ? F1 F2]; subst. destruct c; [contradiction F1; reflexivity | discriminate]. }
  assert (U : until_empty [concat chunks; []] = [concat chunks]) by (destruct (concat chunks); [congruence | reflexivity]).
  assert (CC : concat [concat chunks] = concat chunks) by (cbn [concat]; apply app_nil_r).
  unfold parse_form, create. rewrite until_chunks by exact F. rewrite U.
  destruct (form_kind (content_type_of headers)) as [k|] eqn:K; [|reflexivity].
  destruct k as [b| |].
  - assert (t = u "multipart/form-data") as ->.
    { rewrite (kind_of _ _ _ D) in K. destruct (seqb_spec t (u "multipart/form-data")) as [EQ|]; [exact EQ|].
      destruct (seqb t (u "application/octet-stream")); [discriminate K|].
      destruct (seqb t (u "application/x-www-form-urlencoded") || seqb t (u "text/plain")); discriminate K. }
    destruct (SC eq_refl) as (b' & -> & P & S). rewrite (multi_kind _ _ P D) in K.
    assert (b' = b) as -> by congruence. rewrite !(feed_multi_safe _ b) by (reflexivity || exact S || apply safe_one). rewrite CC. reflexivity.
  - rewrite !feed_octet by reflexivity. rewrite CC. reflexivity.
  - rewrite !feed_url by (reflexivity || intros []). rewrite CC. reflexivity.
Qed.
Print Assumptions C180_safe_partial.
Example C180_case : Forall nonempty cut_elsewhere /\ safe_chunks (u "b") cut_elsewhere /\ length cut_elsewhere = 4 /\
  parse_form utf8_only multi_headers (cut_elsewhere ++ [[]]) = (map call_of push_sample, None).
Proof.
  split; [repeat constructor; discriminate|]. split; [exact (proj1 C21_example)|]. split; [reflexivity | vm_compute; reflexivity].
Qed.

(** *** C181 *)
(** The full claim: an encoded file name is decoded. *)
Definition file_call (boundary name filename content : str) : call :=
  CFile {| up_filename := filename; up_field := utf8_dec name; up_type := None;
           up_headers := Some [(u "content-disposition", u "form-data; name=" ++ quoted name ++ u "; filename*=" ++ rfc5987_encode filename)];
           up_content := content; up_size := length content |}.
Definition C181_statement : Prop := forall codecs headers boundary name filename content,
  (forall b, codecs (u "UTF-8") b = Some (utf8_dec b)) -> plain_boundary boundary -> declares headers (u "multipart/form-data") (with_boundary boundary) ->
  text filename -> (forall c, In c name -> (c < 256)%N /\ c <> 13%N /\ c <> 59%N) -> suffixb (u "*") name = false ->
  ~ occurs (crlf ++ u "--" ++ boundary) content ->
  parse_form codecs headers [starred_form boundary name filename content; []] = ([file_call boundary name filename content], None).

Lemma starred_parsed codecs headers boundary name filename content :
  (forall b, codecs (u "UTF-8") b = Some (utf8_dec b)) -> plain_boundary boundary -> declares headers (u "multipart/form-data") (with_boundary boundary) ->
  text filename -> (forall c, In c name -> (c < 256)%N /\ c <> 13%N /\ c <> 59%N) -> suffixb (u "*") name = false ->
  ~ occurs (crlf ++ u "--" ++ boundary) content ->
  parse_form codecs headers [starred_form boundary name filename content; []] =
  ([CFile {| up_filename := utf8_dec (latin1 filename); up_field := utf8_dec name; up_type := None;
             up_headers := Some [(u "content-disposition", u "form-data; name=" ++ quoted name ++ u "; filename*=" ++ rfc5987_encode filename)];
             up_content := content; up_size := length content |}], None).
Proof.
  intros CU P D T NM SF NO. unfold parse_form, create. rewrite (multi_kind _ _ P D).
  assert (U : until_empty [starred_form boundary name filename content; []] = [starred_form boundary name filename content]) by reflexivity.
  rewrite U. clear U. rewrite (feed_multi_safe _ boundary) by (reflexivity || apply safe_one). cbn [s_codecs concat]. rewrite app_nil_r.
  set (bd := u "--" ++ boundary).
  assert (E : starred_form boundary name filename content =
    bd ++ crlf ++ header_line (u "Content-Disposition", starred name filename) ++ crlf ++ content ++ (crlf ++ bd) ++ u "--" ++ crlf).
  { unfold starred_form, header_line, starred. fold bd. cbn [fst snd].
    change (u "Content-Disposition: form-data; name=") with (u "Content-Disposition" ++ u ": " ++ u "form-data; name="). rewrite <- !app_assoc. reflexivity. }
  rewrite E. unfold whole.
  assert (R : ~ In 13%N (starred name filename)).
  { unfold starred, quoted. rewrite !in_app_iff. intros [X|[[X|[X|X]]|[X|X]]]; try (apply NM in X; lia); try (apply (rfc_chars filename _ T) in X; lia);
      cbn in X; repeat (destruct X as [X|X]; [discriminate X|]); exact X. }
  assert (TR : trimmed (starred name filename)).
  { apply strip_by_id; [reflexivity|]. unfold starred. rewrite !app_assoc, rev_app_distr.
    pose proof (rev_rfc filename T) as RR. destruct (rev (rfc5987_encode filename)); [contradiction | exact (proj2 RR)]. }
  assert (HB : ~ In 13%N boundary) by (destruct P as (_ & C & _); intros X; apply C in X; lia).
  pose proof (run_one boundary (starred name filename) content HB R TR NO) as RO. cbv zeta in RO. fold bd in RO. destruct RO as (E1 & E2).
  match goal with |- context [out_events ?o] => assert (X1 := E1 : out_events o = _); assert (X2 := E2 : out_status o = _) end. rewrite X1, X2. clear E1 E2 X1 X2.
  cbn [failure]. f_equal. cbn [push_evs push_ev emit_headers map app fst snd].
  assert (HF : headers_finished codecs [(u "content-disposition", starred name filename)] =
    AFile {| up_filename := utf8_dec (latin1 filename); up_field := utf8_dec name; up_type := None;
             up_headers := Some [(u "content-disposition", starred name filename)]; up_content := []; up_size := 0 |}).
  { unfold headers_finished.
    assert (G : dget (u "content-disposition") [(u "content-disposition", starred name filename)] = Some (starred name filename)) by (cbn [dget]; rewrite seqb_refl; reflexivity).
    rewrite G. unfold options_header. cbn [snd]. rewrite latin1_id.
    - rewrite (starred_options name filename T) by (intros X; apply NM in X; lia).
      assert (PN : push_name codecs [(u "name", name); (u "filename*", rfc5987_encode filename)] = utf8_dec name).
      { unfold push_name. match goal with |- context [dget (u "name") ?d] => change (dget (u "name") d) with (Some name) end.
        destruct name as [|c n]; [reflexivity|]. cbn [truthy]. rewrite SF. reflexivity. }
      rewrite PN. unfold push_filename.
      match goal with |- context [dget (u "filename") ?d] =>
        change (dget (u "filename") d) with (@None str); change (dget (u "filename*") d) with (Some (rfc5987_encode filename)) end.
      cbn [truthy]. rewrite dec_ascii by (intros x Hx; apply (rfc_chars filename x T) in Hx; lia).
      rewrite (decode_encoded codecs filename T CU). rewrite dget_skip by discriminate. reflexivity.
    - apply Forall_forall. intros c. unfold starred, quoted. rewrite !in_app_iff.
      intros [X|[[X|[X|X]]|[X|X]]]; try (apply NM in X; lia); try (apply (rfc_chars filename _ T) in X; lia);
        cbn in X; repeat (destruct X as [<-|X]; [reflexivity|]); contradiction. }
  rewrite HF. destruct content as [|c b]; cbn [data_ev app push_evs push_ev fst filter no_end]; [reflexivity|].
  unfold upload_write. cbn [up_filename up_field up_type up_headers up_content up_size app]. reflexivity.
Qed.

(** It is false: "é" is mangled, and what is outside Latin-1 is lost. *)
Theorem C181_refuted : ~ C181_statement.
Proof.
  intros H. destruct multi_declares as (D & P).
  specialize (H utf8_only multi_headers (u "b") (u "f") [233%N; 25991%N] (u "x") (fun b => eq_refl) P D).
  assert (T : text [233%N; 25991%N]) by (intros c [<-|[<-|[]]]; left; reflexivity).
  specialize (H T). assert (NM : forall c, In c (u "f") -> (c < 256)%N /\ c <> 13%N /\ c <> 59%N) by (intros c [<-|[]]; repeat split; discriminate).
  specialize (H NM eq_refl). assert (NO : ~ occurs (crlf ++ u "--" ++ u "b") (u "x")).
  { intros (a & b & E). refine (find_none (crlf ++ u "--b") (u "x") eq_refl a b E). }
  specialize (H NO). vm_compute in H. discriminate H.
Qed.
Print Assumptions C181_refuted.
(** What holds: the name given is what UTF-8 makes of the name's Latin-1 characters; for an ASCII name it
    is the name. *)
Theorem C181_ascii_partial : forall codecs headers boundary name filename content,
  (forall b, codecs (u "UTF-8") b = Some (utf8_dec b)) -> plain_boundary boundary -> declares headers (u "multipart/form-data") (with_boundary boundary) ->
  ascii_str filename -> (forall c, In c name -> (c < 256)%N /\ c <> 13%N /\ c <> 59%N) -> suffixb (u "*") name = false ->
  ~ occurs (crlf ++ u "--" ++ boundary) content ->
  parse_form codecs headers [starred_form boundary name filename content; []] = ([file_call boundary name filename content], None).
Proof.
  intros codecs headers boundary name filename content CU P D A NM SF NO.
  rewrite starred_parsed; try assumption.
  - rewrite latin1_id by (apply Forall_forall; intros c Hc; apply A in Hc; lia). rewrite dec_ascii by exact A. reflexivity.
  - intros c Hc. apply A in Hc. left. lia.
Qed.
Print Assumptions C181_ascii_partial.
Example C181_case : parse_form utf8_only multi_headers [starred_form (u "b") (u "f") (u "my ""file"";.txt") (u "x"); []] =
  ([file_call (u "b") (u "f") (u "my ""file"";.txt") (u "x")], None).
Proof. vm_compute. reflexivity. Qed.

(** *** C182 *)
Definition ends (cs : list call) : nat := length (filter (fun c => match c with CEnd => true | _ => false end) cs).
(** The full claim: when no exception is raised, [on_end] has been called once, after everything else. *)
Definition C182_statement : Prop := forall codecs headers limit chunks s,
  create codecs headers None limit = Some s -> snd (feed s start chunks) = None ->
  exists cs, fst (feed s start chunks) = cs ++ [CEnd] /\ ends cs = 0.
(** It is false: not at all for a multipart body that stops early, *)
Theorem C182_refuted : ~ C182_statement.
Proof.
  intros H. specialize (H utf8_only multi_headers None [firstn 70 (encode_form (u "b") push_sample)] _ eq_refl).
  assert (E : snd (feed {| s_kind := KMulti (u "b"); s_limit := None; s_file_name := None; s_codecs := utf8_only |} start [firstn 70 (encode_form (u "b") push_sample)]) = None) by (vm_compute; reflexivity).
  destruct (H E) as (cs & E2 & _). vm_compute in E2. destruct cs as [|? [|? cs]]; discriminate E2.
Qed.
Print Assumptions C182_refuted.
(** and again for each closing delimiter that follows. *)
Theorem C182_twice_refuted :
  feed {| s_kind := KMulti (u "b"); s_limit := None; s_file_name := None; s_codecs := utf8_only |} start [encode_form (u "b") []; encode_form (u "b") []]
  = ([CEnd; CEnd], None).
Proof. vm_compute. reflexivity. Qed.
Print Assumptions C182_twice_refuted.

(** What holds: once and last for every urlencoded form and octet stream, and for every well-formed
    multipart form. *)
Theorem C182_once_partial : forall codecs headers limit chunks s, create codecs headers None limit = Some s ->
  (forall t params, declares headers t params -> urlencoded_type t \/ t = u "application/octet-stream" ->
     snd (feed s start chunks) = None -> exists cs, fst (feed s start chunks) = cs ++ [CEnd] /\ ends cs = 0) /\
  (forall boundary ps, plain_boundary boundary -> declares headers (u "multipart/form-data") (with_boundary boundary) -> limit = None ->
     Forall (good_part boundary) ps -> Forall byte_names ps -> Forall plain_names ps -> concat chunks = encode_form boundary ps -> safe_chunks boundary chunks ->
     exists cs, fst (feed s start chunks) = cs ++ [CEnd] /\ ends cs = 0).
Proof.
  intros codecs headers limit chunks s C. split.
  - intros t params D [U|O] OK.
    + unfold create in C. rewrite (url_kind _ _ _ U D) in C.
      assert (s = {| s_kind := KUrl; s_limit := limit; s_file_name := None; s_codecs := codecs |}) as -> by congruence.
      rewrite feed_url by (reflexivity || intros []). cbn [fst]. eexists. split; [reflexivity|].
      unfold ends. match goal with |- context [map field_of ?l] => generalize l end. intros l. induction l as [|p l IH]; [reflexivity|]. cbn [map filter]. unfold field_of at 1. exact IH.
    + subst t. unfold create in C. rewrite (octet_kind _ _ D) in C.
      assert (s = {| s_kind := KOctet; s_limit := limit; s_file_name := None; s_codecs := codecs |}) as -> by congruence.
      clear C. destruct (concat chunks) as [|x b] eqn:E.
      * assert (B : feed {| s_kind := KOctet; s_limit := limit; s_file_name := None; s_codecs := codecs |} start chunks = ([], Some EAssert)).
        { rewrite feed_octet by reflexivity. rewrite E. reflexivity. }
        rewrite B in OK. discriminate OK.
      * rewrite feed_octet by reflexivity. rewrite E. cbn [start p_octet fst]. eexists [_]. split; reflexivity.
  - intros boundary ps P D -> G B PN E S. unfold create in C. rewrite (multi_kind _ _ P D) in C.
    assert (s = {| s_kind := KMulti boundary; s_limit := None; s_file_name := None; s_codecs := codecs |}) as -> by congruence.
    rewrite (feed_multi_safe _ boundary) by (reflexivity || exact S). cbn [s_codecs]. rewrite E, whole_form; try assumption.
    + cbn [fst]. eexists. split; [reflexivity|]. unfold ends. clear. induction ps as [|p ps IH]; [reflexivity|]. cbn [map filter].
      unfold call_of at 1. destruct (m_filename p); exact IH.
    + destruct P as (_ & CC & _). intros X. apply CC in X. lia.
Qed.
Print Assumptions C182_once_partial.

Example C182_case : exists s, create utf8_only multi_headers None None = Some s /\
  feed s start cut_elsewhere = (map call_of push_sample ++ [CEnd], None).
Proof. eexists. split; [reflexivity | vm_compute; reflexivity]. Qed.

(** *** C183 *)
(** Headers without a content type, with another one, or with multipart/form-data and no parameter are
    refused: nothing of the body is looked at. *)
Theorem C183_refused : forall codecs headers reads,
  (Forall (fun h => lower (fst h) <> u "content-type") headers -> parse_form codecs headers reads = ([], Some EForm)) /\
  (forall t params, declares headers t params ->
     (t <> u "multipart/form-data" -> t <> u "application/octet-stream" -> t <> u "application/x-www-form-urlencoded" -> t <> u "text/plain" ->
      parse_form codecs headers reads = ([], Some EForm)) /\
     (t = u "multipart/form-data" -> params = [] -> parse_form codecs headers reads = ([], Some EForm))).
Proof.
  intros codecs headers reads. split; [|intros t params D; split].
  - intros F. unfold parse_form, create, content_type_of. rewrite fold_last by exact F. reflexivity.
  - intros N1 N2 N3 N4. unfold parse_form, create. rewrite (kind_of _ _ _ D).
    rewrite (proj2 (seqb_neq _ _) N1), (proj2 (seqb_neq _ _) N2), (proj2 (seqb_neq _ _) N3), (proj2 (seqb_neq _ _) N4). reflexivity.
  - intros -> ->. unfold parse_form, create. rewrite (kind_of _ _ _ D), seqb_refl.
    destruct (declares_type _ _ _ D) as (raw & E & O & N59). rewrite E, O, app_nil_r. cbn [snd header_options].
    rewrite split_char_free by exact N59. reflexivity.
Qed.
Print Assumptions C183_refused.
(** And the four are accepted. *)
Theorem C183_accepted : forall codecs headers name limit t params, declares headers t params ->
  urlencoded_type t \/ t = u "application/octet-stream" \/
  (exists b, t = u "multipart/form-data" /\ params = with_boundary b /\ plain_boundary b) ->
  create codecs headers name limit <> None.
Proof.
  intros codecs headers name limit t params D [U|[ -> |(b & -> & -> & P)]]; unfold create.
  - rewrite (url_kind _ _ _ U D). discriminate.
  - rewrite (octet_kind _ _ D). discriminate.
  - rewrite (multi_kind _ _ P D). discriminate.
Qed.
Print Assumptions C183_accepted.
Example C183_case : parse_form utf8_only (typed (u "application/json")) [u "{}"] = ([], Some EForm) /\
  parse_form utf8_only [(u "Content-Type", u "text/plain"); (u "CONTENT-TYPE", u "multipart/form-data")] [u "x"] = ([], Some EForm).
Proof. split; reflexivity. Qed.

(** *** C184 *)
(** What the writes return. *)
Fixpoint returned (s : setup) (st : pstate) (chunks : list str) : list nat :=
  match chunks with
  | [] => []
  | c :: r => let '(_, _, n, st') := write s st c in n :: returned s st' r
  end.

(** MAX_BODY_SIZE: however an urlencoded form or an octet stream is cut, it is as if the body had ended
    after that many bytes, no exception says so, and the writes together return the number of bytes kept. *)
Theorem C184_limit : forall codecs headers t params name m chunks s s', 0 < m -> concat chunks <> [] ->
  urlencoded_type t \/ t = u "application/octet-stream" -> declares headers t params ->
  create codecs headers name (Some m) = Some s -> create codecs headers name None = Some s' ->
  feed s start chunks = feed s' start [firstn m (concat chunks)].
Proof.
  intros codecs headers t params name m chunks s s' M NE T D C1 C2. unfold create in C1, C2. destruct T as [U| ->].
  - rewrite (url_kind _ _ _ U D) in C1, C2.
    assert (s = {| s_kind := KUrl; s_limit := Some m; s_file_name := name; s_codecs := codecs |}) as -> by congruence.
    assert (s' = {| s_kind := KUrl; s_limit := None; s_file_name := name; s_codecs := codecs |}) as -> by congruence.
    rewrite !feed_url by (reflexivity || intros []). cbn [s_limit start p_consumed p_query admitted concat]. rewrite app_nil_r, Nat.sub_0_r. reflexivity.
  - rewrite (octet_kind _ _ D) in C1, C2.
    assert (s = {| s_kind := KOctet; s_limit := Some m; s_file_name := name; s_codecs := codecs |}) as -> by congruence.
    assert (s' = {| s_kind := KOctet; s_limit := None; s_file_name := name; s_codecs := codecs |}) as -> by congruence.
    rewrite !feed_octet by reflexivity. cbn [s_limit start p_consumed p_octet admitted concat]. rewrite app_nil_r, Nat.sub_0_r.
    destruct (concat chunks) as [|x b]; [congruence|]. destruct m as [|m]; [lia|]. reflexivity.
Qed.
Print Assumptions C184_limit.

Lemma returned_sum s : forall chunks st, list_sum (returned s st chunks) = length (admitted (s_limit s) (p_consumed st) (concat chunks)).
Proof.
  induction chunks as [|c r IH]; intros st; cbn [returned concat]; [rewrite admitted_nil; reflexivity|].
  destruct c as [|x c]; [cbn [write app list_sum fold_right]; apply IH|].
  unfold write. rewrite admitted_app, app_length. set (d := admitted (s_limit s) (p_consumed st) (x :: c)).
  destruct (s_kind s) as [b| |].
  - destruct d as [|y d'] eqn:E.
    + cbn [list_sum fold_right length]. rewrite Nat.add_0_r. apply IH.
    + destruct (mp_write (u "--" ++ b) (p_multi st) (y :: d')) as ((es, w), m). destruct (push_evs (s_codecs s) (p_cur st) es) as (cs, cu).
      cbn [list_sum fold_right]. change (fold_right Nat.add 0 ?l) with (list_sum l). rewrite IH. reflexivity.
  - cbn [list_sum fold_right]. change (fold_right Nat.add 0 ?l) with (list_sum l). rewrite IH. reflexivity.
  - destruct d as [|y d'] eqn:E.
    + cbn [list_sum fold_right length]. rewrite Nat.add_0_r. apply IH.
    + destruct (qs_write (p_query st) (y :: d')) as (ms, b). destruct (push_msgs (p_pair st) ms) as (cs, kv).
      cbn [list_sum fold_right]. change (fold_right Nat.add 0 ?l) with (list_sum l). rewrite IH. reflexivity.
Qed.
Theorem C184_returned : forall codecs headers name limit chunks s, create codecs headers name limit = Some s ->
  list_sum (returned s start chunks) = match limit with None => length (concat chunks) | Some m => Nat.min m (length (concat chunks)) end.
Proof.
  intros codecs headers name limit chunks s C. rewrite returned_sum. unfold create in C.
  destruct (form_kind (content_type_of headers)) as [k|]; [|discriminate C].
  assert (s = {| s_kind := k; s_limit := limit; s_file_name := name; s_codecs := codecs |}) as -> by congruence.
  cbn [s_limit start p_consumed]. destruct limit as [m|]; cbn [admitted]; [rewrite Nat.sub_0_r; apply firstn_length | reflexivity].
Qed.
Print Assumptions C184_returned.
Example C184_case : exists s, create utf8_only (typed (u "text/plain")) None (Some 5) = Some s /\
  feed s start [u "a=1"; u "&bc=2"; u "&d=3"] = ([CField (u "a") (u "1"); CField (u "b") []; CEnd], None) /\
  returned s start [u "a=1"; u "&bc=2"; u "&d=3"] = [3; 2; 0].
Proof. eexists. repeat split; vm_compute; reflexivity. Qed.
