(** Properties of JSON bodies, websocket frames and NDJSON streams. *)
From Coq Require Import ZArith Lia.
From Verif Require Import PyStr PyStrFacts Utf8 JsonModel JsonSpec JsonProofs.
Local Open Scope N_scope.

(** * C105: what is written is JSON and is read back *)
Theorem C105_json_written : forall v, proper v ->
  (presentable v <-> json_body v <> None) /\
  (forall b, json_body v = Some b ->
     exists t, b = utf8_enc t /\ json false v t /\ request_json b = Some v) /\
  (forall text_mode, presentable v -> exists f, send_json text_mode v = Some f /\ receive_json text_mode f = Some v) /\
  (forall text_mode, ~ (exists f, send_json text_mode v = Some f) -> ~ presentable v).
Proof.
  intros v P.
  assert (SENT : forall m, presentable v -> exists f, send_json m v = Some f /\ receive_json m f = Some v).
  { intros m PR. destruct (presentable_writable v P PR) as [W F]. destruct (write_scalar v W) as [SC _].
    assert (E : encode (write false v) = Some (utf8_enc (write false v))) by (apply encode_some; split; [apply scalar_unicode, SC | reflexivity]).
    unfold send_json, dumps. rewrite F. destruct m.
    - eexists. split; [reflexivity|]. apply loads_json, write_json, W.
    - rewrite E. eexists. split; [reflexivity|]. cbn [receive_json]. unfold loads_bytes. rewrite strict_enc by exact SC. apply loads_json, write_json, W. }
  refine (conj _ (conj _ (conj SENT _))).
  - split.
    + intros PR. assert (E := proj2 (body_some v _ P) (conj PR eq_refl)). rewrite E. discriminate.
    + destruct (json_body v) as [b|] eqn:E; [|contradiction]. intros _. apply (body_some v b P) in E. apply E.
  - intros b E. apply (body_some v b P) in E. destruct E as [PR ->]. destruct (presentable_writable v P PR) as [W F]. destruct (write_scalar v W) as [SC _].
    exists (write false v). refine (conj eq_refl (conj (write_json v W) _)). unfold request_json.
    assert (X : loads_bytes (utf8_enc (write false v)) = Some v) by (unfold loads_bytes; rewrite strict_enc by exact SC; apply loads_json, write_json, W).
    destruct (utf8_enc (write false v)) eqn:E; [exfalso; vm_compute in X; discriminate X | exact X].
  - intros m N PR. destruct (SENT m PR) as (f & E & _). apply N. eauto.
Qed.
Print Assumptions C105_json_written.
Example C105_case :
  let v := JObj [(u "a", JArr [JInt (-12); JFloat (u "1.5e3"); JNull; JStr [233; 34; 10; 128512]]); (u "b", JBool true)] in
  json_body v = Some (u "{""a"":[-12,1.5e3,null,""" ++ [195; 169; 92; 34; 92; 110; 240; 159; 152; 128] ++ u """],""b"":true}") /\ presentable v.
Proof. split; [vm_compute; reflexivity|]. cbn. unfold unicode. cbn. repeat split; intros; lia || (intuition discriminate). Qed.
Example C105_nan : json_body (JArr [JFloat (u "NaN")]) = None.
Proof. vm_compute. reflexivity. Qed.

(** * C106: the reader accepts JSON, and all it adds to JSON is known *)
Definition C106_statement : Prop := forall s v, loads s = Some v <-> json false v s.
Theorem C106_refuted : ~ C106_statement.
Proof.
  intros H. assert (X : json false (JFloat (u "NaN")) (u "NaN")) by (apply H; vm_compute; reflexivity).
  destruct X as (w1 & t & w2 & W1 & _ & D & E). clear H. inversion D as [| | | | |t' FL X|t' LX| | | | |]; [|discriminate LX].
  destruct FL as (sign & i & f & e & Y & SI & P & _). destruct (int_head i P) as (c & d & -> & C).
  cbn [In] in SI. destruct SI as [<-|[<-|[]]]; [|discriminate Y]. cbn [app] in Y. apply (f_equal (hd 0)) in Y. cbn in Y. subst c. discriminate C.
Qed.
Theorem C106_json_read_partial :
  (forall s v, json false v s -> loads s = Some v) /\
  (forall s v, loads s = Some v -> json true v s) /\
  (forall s v, json false v s -> Forall scalar s -> request_json (utf8_enc s) = Some v /\ receive_json false (Binary (utf8_enc s)) = Some v /\ receive_json true (Text s) = Some v) /\
  (forall b v, request_json b = Some v -> (b = [] /\ v = JNull) \/ exists s, b = utf8_enc s /\ json true v s).
Proof.
  refine (conj (fun s v => loads_json v s) (conj loads_sound (conj _ _))).
  - intros s v J SC. pose proof (loads_json v s J) as L.
    assert (X : loads_bytes (utf8_enc s) = Some v) by (unfold loads_bytes; rewrite strict_enc by exact SC; exact L).
    refine (conj _ (conj X L)). unfold request_json. destruct (utf8_enc s) eqn:E; [exfalso; vm_compute in X; discriminate X | exact X].
  - intros b v. unfold request_json. destruct b as [|c b].
    + intros E. left. vm_compute in E. split; congruence.
    + intros E. right. unfold loads_bytes in E. destruct (utf8_strict (c :: b)) as [t|] eqn:S; [|discriminate]. apply strict_inv in S. destruct S as [S _].
      exists t. split; [now rewrite S | now apply loads_sound].
Qed.
Print Assumptions C106_json_read_partial.
Example C106_case : loads (u " {""a"" : [1, -2.5E+3 ,""\u00e9\ud83d\ude00\/""], ""b"":{}, ""c"":false } ") =
  Some (JObj [(u "a", JArr [JInt 1; JFloat (u "-2.5E+3"); JStr [233; 128512; 47]]); (u "b", JObj []); (u "c", JBool false)]).
Proof. vm_compute. reflexivity. Qed.
Example C106_rejects :
  map loads [u "01"; u "1."; u "[1,]"; u "{""a"" 1}"; u """a"; u "nul"; u "1 2"; u ""; u "'a'"; u "[1"; u ".5"; u "+1"] = repeat None 12.
Proof. vm_compute. reflexivity. Qed.
(** The grammar of the RFC gives a text one value. *)
Theorem C106_one_value : forall s v w, json false v s -> json false w s -> v = w.
Proof. intros s v w A B. apply loads_json in A, B. congruence. Qed.
Print Assumptions C106_one_value.

(** * C107: an NDJSON stream has one line for each row *)
Lemma enc_clean t : Forall (fun c => 32 <= c) t -> cmem 10 (utf8_enc t) = false.
Proof.
  intros F. apply cmem_not_In. intros I. unfold utf8_enc in I. apply in_flat_map in I. destruct I as (c & C & I).
  rewrite Forall_forall in F. specialize (F c C). unfold enc1 in I.
  destruct (c <? 128); [|destruct (c <? 2048); [|destruct (c <? 65536)]]; cbn [In] in I; intuition lia.
Qed.
Lemma body_line v b : proper v -> json_body v = Some b -> cmem 10 b = false /\ loads_bytes b = Some v.
Proof.
  intros P E. apply (body_some v b P) in E. destruct E as [PR ->]. destruct (presentable_writable v P PR) as [W _]. destruct (write_scalar v W) as [SC L].
  split; [apply enc_clean, L|]. unfold loads_bytes. rewrite strict_enc by exact SC. apply loads_json, write_json, W.
Qed.
Definition whole_body (m : list (str * bool)) : str := concat (map fst m).
Lemma nd_all rows : forall b, Forall proper rows -> Forall presentable rows -> cmem 10 b = false ->
  exists m bs, nd_loop (Some b) rows = (m, true) /\ split_char 10 (whole_body m) = b :: bs /\ map loads_bytes bs = map Some rows /\
    map snd m = repeat true (length rows) ++ [false].
Proof.
  induction rows as [|v rows IH]; intros b P PR B.
  - exists [(b, false)], []. cbn [nd_loop]. unfold whole_body. cbn. rewrite app_nil_r. repeat split. apply split_char_free, cmem_not_In, B.
  - inversion P; subst. inversion PR; subst. assert (E := proj2 (body_some v _ H1) (conj H3 eq_refl)). destruct (body_line v _ H1 E) as [CL RD].
    destruct (IH _ H2 H4 CL) as (m & bs & L & SP & MP & FL). exists ((b ++ [10], true) :: m). eexists. cbn [nd_loop]. rewrite E, L.
    refine (conj eq_refl (conj _ (conj _ _))).
    + unfold whole_body. cbn [map concat fst]. rewrite <- app_assoc. cbn [app]. rewrite split_char_app by (apply cmem_not_In, B). fold (whole_body m). rewrite SP. reflexivity.
    + cbn [map]. rewrite RD, MP. reflexivity.
    + cbn [map snd length repeat app]. now rewrite FL.
Qed.
(** The rows until one that cannot be written. *)
Lemma nd_bad good v rest : proper v -> Forall proper good -> Forall presentable good -> ~ presentable v -> forall b,
  exists bs, nd_loop (Some b) (good ++ v :: rest) = (map (fun l => (l ++ [10], true)) (b :: bs), false) /\ map loads_bytes bs = map Some (good) /\ Forall (fun l => cmem 10 l = false) bs.
Proof.
  intros PV P PR NP. revert P PR. induction good as [|g good IH]; intros P PR b; cbn [app nd_loop].
  - exists []. destruct (json_body v) as [x|] eqn:E; [apply (body_some v x PV) in E; tauto | auto].
  - inversion P; subst. inversion PR; subst. assert (E := proj2 (body_some g _ H1) (conj H3 eq_refl)). destruct (body_line g _ H1 E) as [CL RD].
    rewrite E. destruct (IH H2 H4 (utf8_enc (write false g))) as (bs & L & MP & F). rewrite L.
    exists (utf8_enc (write false g) :: bs). cbn [map app]. rewrite RD, MP. repeat split. now constructor.
Qed.
Theorem C107_ndjson_lines : forall rows, Forall proper rows ->
  (Forall presentable rows -> rows <> [] -> exists m, ndjson rows = (m, true) /\
     map loads_bytes (split_char 10 (whole_body m)) = map Some rows /\
     map snd m = repeat true (length rows - 1) ++ [false]) /\
  (rows = [] -> ndjson rows = ([([], false)], true)) /\
  (forall good v rest, rows = good ++ v :: rest -> Forall presentable good -> ~ presentable v -> exists lines,
     ndjson rows = (map (fun l => (l ++ [10], true)) lines, false) /\ map loads_bytes lines = map Some good /\
     Forall (fun l => ~ In 10 l) lines).
Proof.
  intros rows P. refine (conj _ (conj _ _)).
  - intros PR NE. destruct rows as [|v rows]; [contradiction|]. inversion P; subst. inversion PR; subst.
    assert (E := proj2 (body_some v _ H1) (conj H3 eq_refl)). destruct (body_line v _ H1 E) as [CL RD].
    destruct (nd_all rows _ H2 H4 CL) as (m & bs & L & SP & MP & FL). exists m. unfold ndjson. cbn [nd_loop]. rewrite E, L.
    refine (conj eq_refl (conj _ _)); [rewrite SP; cbn [map]; now rewrite RD, MP|]. rewrite FL. f_equal. f_equal. cbn [length]. lia.
  - intros ->. reflexivity.
  - intros good v rest -> PR NP. apply Forall_app in P. destruct P as [PG PV]. inversion PV; subst. destruct good as [|g good].
    + exists []. unfold ndjson. cbn [app nd_loop]. destruct (json_body v) as [x|] eqn:E; [apply (body_some v x H1) in E; tauto | auto].
    + inversion PG; subst. inversion PR; subst. assert (E := proj2 (body_some g _ H3) (conj H5 eq_refl)). destruct (body_line g _ H3 E) as [CL RD].
      destruct (nd_bad good v rest H1 H4 H6 NP (utf8_enc (write false g))) as (bs & L & MP & F). exists (utf8_enc (write false g) :: bs).
      unfold ndjson. cbn [app nd_loop]. rewrite E, L. refine (conj eq_refl (conj _ _)); [cbn [map]; now rewrite RD, MP|].
      constructor; [now apply cmem_not_In|]. eapply Forall_impl; [|exact F]. intros l. apply cmem_not_In.
Qed.
Print Assumptions C107_ndjson_lines.
Example C107_case : ndjson [JObj [(u "a", JStr [10])]; JNull] = ([(u "{""a"":""\n""}" ++ [10], true); (u "null", false)], true).
Proof. vm_compute. reflexivity. Qed.
Example C107_stops : ndjson [JInt 1; JInt 2; JFloat (u "Infinity"); JInt 3] = ([(u "1" ++ [10], true); (u "2" ++ [10], true)], false).
Proof. vm_compute. reflexivity. Qed.
