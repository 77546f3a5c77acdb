(** C21, C22, C23: multipart forms. *)
From Verif Require Import PyStr PyStrFacts Utf8 MultipartModel MultipartSpec MultipartProofs MultipartFormProofs MultipartLimitProofs.

(** A sender: UTF-8, at most two files and at most two fields. *)
Definition utf8_env : env := {| codec := utf8_strict; rfc5987 := fun s => s; max_files := 2; max_fields := 2 |}.
Definition sample : list mpart :=
  [ {| m_name := u "title"; m_filename := None; m_headers := []; m_body := u "hello" |};
    {| m_name := u "doc"; m_filename := Some (u "a.txt"); m_headers := [(u "Content-Type", u "text/plain")];
       m_body := u "one" ++ crlf ++ u "--two" ++ crlf |} ].

(** *** C21 *)
(** The full claim: only the bytes matter. *)
Definition C21_statement : Prop := forall e boundary chunks chunks',
  concat chunks = concat chunks' -> mp_parse e boundary chunks = mp_parse e boundary chunks'.

(** It is false twice over.  A delimiter cut in two is not seen: *)
Definition cut_in_delimiter : list str :=
  [firstn 61 (encode_form (u "b") sample); skipn 61 (encode_form (u "b") sample)].
(** and a last CRLF that comes by itself overwrites the start of the uploaded file. *)
Definition late_crlf : list str :=
  let s := encode_form (u "b") sample in [firstn (length s - 2) s; skipn (length s - 2) s].

Theorem C21_refuted : ~ C21_statement.
Proof.
  intros H. specialize (H utf8_env (u "b") cut_in_delimiter [encode_form (u "b") sample]).
  assert (E : concat cut_in_delimiter = concat [encode_form (u "b") sample]) by (vm_compute; reflexivity).
  specialize (H E). vm_compute in H. discriminate H.
Qed.
Print Assumptions C21_refuted.

Theorem C21_late_crlf_overwrites_file : exists n h f,
  mp_parse utf8_env (u "b") [concat late_crlf] = inl [(u "title", inl (u "hello")); (n, inr (Some f))] /\
  f_content f = u "one" ++ crlf ++ u "--two" ++ crlf /\
  mp_parse utf8_env (u "b") late_crlf =
    inl [(u "title", inl (u "hello")); (n, inr (Some {| f_name := f_name f; f_headers := h; f_content := crlf ++ u "e" ++ crlf ++ u "--two" ++ crlf; f_pos := 2; f_size := 14 |}))].
Proof. eexists _, _, _. vm_compute. repeat split. Qed.
Print Assumptions C21_late_crlf_overwrites_file.

(** What holds: every way of cutting the body that leaves each delimiter whole, with the two bytes
    after it, and keeps everything from the closing delimiter on together. *)
Theorem C21_safe_partial : forall e boundary chunks, safe_chunks boundary chunks ->
  mp_parse e boundary chunks = mp_parse e boundary [concat chunks].
Proof.
  intros e boundary chunks S. pose proof (mp_parse_safe e boundary _ (safe_one boundary (concat chunks))) as H.
  cbn [concat] in H. rewrite app_nil_r in H. etransitivity; [exact (mp_parse_safe e boundary chunks S) | symmetry; exact H].
Qed.
Print Assumptions C21_safe_partial.

(** A body cut in the middle of a header, of a field and of a file. *)
Definition cut_elsewhere : list str :=
  let s := encode_form (u "b") sample in
  [firstn 10 s; firstn 45 (skipn 10 s); firstn 100 (skipn 55 s); skipn 155 s].
Lemma safe_cut_dec boundary a b :
  forallb (fun i => negb (prefixb (crlf ++ u "--" ++ boundary) (skipn i (crlf ++ a ++ b))) ||
                    Nat.leb (length (crlf ++ a)) i ||
                    (Nat.leb (i + length (crlf ++ u "--" ++ boundary) + 2) (length (crlf ++ a)) &&
                     negb (prefixb (u "--") (skipn (i + length (crlf ++ u "--" ++ boundary)) (crlf ++ a ++ b)))))
          (seq 0 (S (length (crlf ++ a ++ b)))) = true -> safe_cut boundary a b.
Proof.
  intros H x y E. rewrite forallb_forall in H. specialize (H (length x)).
  assert (IN : In (length x) (seq 0 (S (length (crlf ++ a ++ b))))) by (apply in_seq; rewrite E, app_length; lia).
  specialize (H IN). rewrite E in H. rewrite skipn_app_exact in H by reflexivity.
  assert (E2 : x ++ (crlf ++ u "--" ++ boundary) ++ y = (x ++ (crlf ++ u "--" ++ boundary)) ++ y) by (rewrite <- !app_assoc; reflexivity).
  rewrite E2, skipn_app_exact in H by apply app_length. rewrite prefixb_app in H. cbn [negb orb] in H.
  apply orb_true_iff in H. destruct H as [H|H].
  - left. apply Nat.leb_le. exact H.
  - right. apply andb_true_iff in H. destruct H as (H1 & H2). split; [apply Nat.leb_le; exact H1|]. apply negb_true_iff. exact H2.
Qed.
Example C21_example : safe_chunks (u "b") cut_elsewhere /\ length cut_elsewhere = 4 /\ ~ In [] cut_elsewhere.
Proof.
  split; [|split; [reflexivity | vm_compute; intuition discriminate]].
  intros c1 c2 E H1 H2.
  assert (D : exists n, n < 5 /\ c1 = firstn n cut_elsewhere /\ c2 = skipn n cut_elsewhere).
  { exists (length c1). rewrite E. rewrite firstn_app_exact, skipn_app_exact by reflexivity. repeat split.
    assert (L : length cut_elsewhere = 4) by reflexivity. rewrite E, app_length in L. lia. }
  destruct D as (n & Hn & -> & ->). clear E.
  do 5 (destruct n as [|n]; [try (exfalso; apply H1; reflexivity); try (exfalso; apply H2; reflexivity); apply safe_cut_dec; vm_compute; reflexivity|]). lia.
Qed.

(** *** C22 *)
(** Every list of parts, encoded and delivered in any safe way (in one chunk, for one), is parsed
    into its items: the texts of the fields and the files with their names, headers and contents. *)
Theorem C22_round_trip : forall e boundary ps its chunks,
  ~ In 13%N boundary -> Forall (good_part boundary) ps -> Forall2 (item_of e) ps its ->
  count is_file ps <= max_files e -> count (fun p => negb (is_file p)) ps <= max_fields e ->
  concat chunks = encode_form boundary ps -> safe_chunks boundary chunks ->
  mp_parse e boundary chunks = inl its.
Proof. intros e boundary ps its chunks HB G I M1 M2 E S. rewrite (mp_parse_safe _ _ _ S), E. apply form_parsed; assumption. Qed.
Print Assumptions C22_round_trip.

Theorem C22_one_chunk : forall e boundary ps its,
  ~ In 13%N boundary -> Forall (good_part boundary) ps -> Forall2 (item_of e) ps its ->
  count is_file ps <= max_files e -> count (fun p => negb (is_file p)) ps <= max_fields e ->
  mp_parse e boundary [encode_form boundary ps] = inl its.
Proof. intros. apply (C22_round_trip e boundary ps); try assumption; [apply app_nil_r | apply safe_one]. Qed.
Print Assumptions C22_one_chunk.

Example C22_example : ~ In 13%N (u "b") /\ Forall (good_part (u "b")) sample /\ (exists its, Forall2 (item_of utf8_env) sample its) /\
  count is_file sample <= max_files utf8_env /\ count (fun p => negb (is_file p)) sample <= max_fields utf8_env.
Proof.
  split; [intros [X|[]]; discriminate X|].
  split.
  - constructor; [|constructor; [|constructor]].
    + split; [|split; [|split]].
      * intros c [H|(f & H & _)]; [|discriminate H]. cbn in H. repeat (destruct H as [H|H]; [subst c; split; discriminate|]). contradiction.
      * intros n v [].
      * repeat constructor; intros [].
      * apply find_none_occ. vm_compute. reflexivity.
    + split; [|split; [|split]].
      * intros c [H|(f & H & H')]; [|injection H as <-; rename H' into H]; cbn in H; repeat (destruct H as [H|H]; [subst c; split; discriminate|]); contradiction.
      * intros n v [H|[]]. injection H as <- <-. repeat split; cbn; intuition discriminate.
      * constructor; [intros [H|[]]; discriminate H | repeat constructor; intros []].
      * apply find_none_occ. vm_compute. reflexivity.
  - split; [|split; vm_compute; lia].
    eexists. constructor; [|constructor; [|constructor]].
    + exists (u "title"). split; [vm_compute; reflexivity|]. exists (u "hello"). split; [vm_compute; reflexivity | reflexivity].
    + exists (u "doc"). split; [vm_compute; reflexivity|]. exists (u "a.txt"). split; [vm_compute; reflexivity | reflexivity].
Qed.

(** *** C23 *)
(** The full claim: a form that is accepted is within the limits. *)
Definition C23_statement : Prop := forall e boundary chunks its,
  mp_parse e boundary chunks = inl its -> within_limits e its.

(** It is false: each further chunk holding the closing delimiter adds the last part again. *)
Definition one_field : env := {| codec := utf8_strict; rfc5987 := fun s => s; max_files := 0; max_fields := 1 |}.
Definition repeated_end : list str :=
  [encode_form (u "b") [{| m_name := u "a"; m_filename := None; m_headers := []; m_body := u "1" |}];
   crlf ++ u "--b--" ++ crlf; crlf ++ u "--b--" ++ crlf].
Theorem C23_refuted : ~ C23_statement.
Proof.
  intros H. specialize (H one_field (u "b") repeated_end [(u "a", inl (u "1")); (u "a", inl (u "1")); (u "a", inl (u "1"))]).
  assert (E : mp_parse one_field (u "b") repeated_end = inl [(u "a", inl (u "1")); (u "a", inl (u "1")); (u "a", inl (u "1"))]) by (vm_compute; reflexivity).
  destruct (H E) as (A & _). vm_compute in A. lia.
Qed.
Print Assumptions C23_refuted.

(** What holds: the limits bind every body, however it is cut, unless bytes arrive in a chunk after
    the one that completes the closing delimiter. *)
Theorem C23_limits_partial : forall e boundary chunks its, ends_last boundary chunks ->
  mp_parse e boundary chunks = inl its -> within_limits e its.
Proof.
  intros e boundary chunks its H P. destruct new_inv as (I & F & O).
  refine (loop_kept e (u "--" ++ boundary) chunks Pre [] [] new_ast its eq_refl _ F _ P).
  - unfold lim. cbn. lia.
  - intros c1 c2 E NE. unfold term. rewrite <- !app_assoc. exact (H c1 c2 E NE).
Qed.
Print Assumptions C23_limits_partial.

(** A body cut inside a delimiter, the closing delimiter being in the last chunk. *)
Example C23_example : ends_last (u "b") cut_in_delimiter /\ exists its, mp_parse utf8_env (u "b") cut_in_delimiter = inl its.
Proof.
  split; [|eexists; vm_compute; reflexivity].
  intros [|x [|y [|z c1]]] c2 E NE; cbn [cut_in_delimiter app] in E.
  - apply find_none_occ. vm_compute. reflexivity.
  - injection E as <- _. apply find_none_occ. vm_compute. reflexivity.
  - injection E as _ _ <-. cbn in NE. congruence.
  - discriminate E.
Qed.
