(** C367-C370: what a request's data are, and push promises. *)
From Coq Require Import Lia.
From Verif Require Import PyStr PyStrFacts Utf8 HeaderModel HeaderSpec HeaderProofs HeaderProps JsonModel JsonSpec JsonProofs JsonProps MultipartModel RdataModel.

(** ** Specification *)
(** A Content-Type header that names a media type: in any case, with blanks around it, and parameters after it. *)
Definition blank (s : str) : Prop := forall c, In c s -> (9 <= c <= 13)%N \/ c = 32%N.
Definition names_type (h m : str) : Prop :=
  exists a n b r, h = a ++ n ++ b ++ r /\ blank a /\ blank b /\ lower n = m /\ (r = [] \/ exists q, r = 59%N :: q).
Definition a_form (m : str) : Prop := m = u "multipart/form-data" \/ m = u "application/x-www-form-urlencoded".
(** A type as RFC 9110 has them: visible ASCII without a semicolon. *)
Definition type_text (m : str) : Prop := forall c, In c m -> (33 <= c < 127)%N /\ c <> 59%N /\ ~ (65 <= c <= 90)%N.

(** ** Proofs *)
Lemma blank_space s : blank s -> forallb is_bspace s = true.
Proof.
  intros B. apply forallb_forall. intros c I. unfold is_bspace. apply orb_true_iff. destruct (B c I) as [X|X]; [left; apply andb_true_iff; rewrite !N.leb_le; lia | right; apply N.eqb_eq; exact X].
Qed.
Lemma blank_lower s : blank s -> lower s = s.
Proof.
  intros B. unfold lower. rewrite <- (map_id s) at 2. apply map_ext_in. intros c I. unfold lower_c. destruct (N.leb_spec 65 c), (N.leb_spec c 90); cbn [andb]; try reflexivity. destruct (B c I); lia.
Qed.
Lemma bspace_lower c : is_bspace (lower_c c) = is_bspace c.
Proof.
  unfold lower_c. destruct (N.leb_spec 65 c), (N.leb_spec c 90); cbn [andb]; try reflexivity. unfold is_bspace.
  destruct (N.leb_spec 9 (c + 32)), (N.leb_spec (c + 32) 13), (N.eqb_spec (c + 32) 32), (N.leb_spec 9 c), (N.leb_spec c 13), (N.eqb_spec c 32); try lia; reflexivity.
Qed.
Lemma lstrip_lower s : lstrip_by is_bspace (lower s) = lower (lstrip_by is_bspace s).
Proof. induction s as [|c s IH]; [reflexivity|]. cbn [lower map lstrip_by]. rewrite bspace_lower. destruct (is_bspace c); [exact IH | reflexivity]. Qed.
Lemma strip_lower s : bstrip (lower s) = lower (bstrip s).
Proof.
  unfold bstrip, strip_by, rstrip_by. rewrite lstrip_lower. unfold lower. rewrite <- map_rev. fold (lower (rev (lstrip_by is_bspace s))). rewrite lstrip_lower. unfold lower. rewrite map_rev. reflexivity.
Qed.
Lemma type_solid m : type_text m -> match m with c :: _ => is_bspace c = false | [] => True end /\ match rev m with c :: _ => is_bspace c = false | [] => True end.
Proof.
  intros T. assert (K : forall c, In c m -> is_bspace c = false).
  { intros c I. destruct (T c I) as (A & _). unfold is_bspace. destruct (N.leb_spec 9 c), (N.leb_spec c 13), (N.eqb_spec c 32); try lia; reflexivity. }
  split; [destruct m as [|c m]; [exact I | apply K; left; reflexivity]|]. destruct (rev m) as [|c r] eqn:E; [exact I|]. apply K. apply in_rev. rewrite E. left. reflexivity.
Qed.
Lemma main_of h m : type_text m -> names_type h m -> main_value h = m.
Proof.
  intros T (a & n & b & r & -> & A & B & L & R). unfold main_value.
  assert (NI : ~ In 59%N (a ++ n ++ b)).
  { rewrite !in_app_iff. intros [X|[X|X]]; [destruct (A _ X); lia | | destruct (B _ X); lia].
    assert (Y : In 59%N m) by (rewrite <- L; unfold lower; apply in_map_iff; exists 59%N; split; [reflexivity | exact X]). destruct (T _ Y) as (_ & Z & _). congruence. }
  assert (FL : latin (a ++ n ++ b ++ r) = a ++ n ++ b ++ latin r).
  { assert (K : forall s, (forall c, In c s -> (c < 256)%N) -> latin s = s).
    { intros s. unfold latin. induction s as [|c s IH]; intros H; [reflexivity|]. cbn [filter]. destruct (N.ltb_spec c 256) as [_|X]; [|specialize (H c (or_introl eq_refl)); lia]. rewrite IH; [reflexivity|]. intros y Y. apply H. right. exact Y. }
    unfold latin. rewrite !filter_app. fold (latin a) (latin n) (latin b) (latin r). rewrite (K a), (K n), (K b); [reflexivity| | |].
    - intros c I. destruct (B c I); lia.
    - intros c I. assert (Y : In (lower_c c) m) by (rewrite <- L; apply in_map; exact I). destruct (T _ Y) as (Z & _). unfold lower_c in Z. destruct (N.leb_spec 65 c), (N.leb_spec c 90); cbn [andb] in Z; lia.
    - intros c I. destruct (A c I); lia. }
  rewrite FL. assert (R' : latin r = [] \/ exists q, latin r = 59%N :: q) by (destruct R as [-> | (q & ->)]; [left; reflexivity | right; exists (latin q); reflexivity]).
  revert R'. generalize (latin r) as r'. clear R FL. intros r' R.
  assert (E : hd [] (split_char 59 (a ++ n ++ b ++ r')) = a ++ n ++ b).
  { destruct R as [-> | (q & ->)].
    - rewrite app_nil_r. rewrite split_char_free by exact NI. reflexivity.
    - replace (a ++ n ++ b ++ 59%N :: q) with ((a ++ n ++ b) ++ 59%N :: q) by (rewrite <- !app_assoc; reflexivity). rewrite split_char_app by exact NI. reflexivity. }
  rewrite E, <- strip_lower. unfold lower at 1. rewrite !map_app. fold (lower a) (lower n) (lower b). rewrite (blank_lower a A), (blank_lower b B), L.
  destruct (type_solid m T) as (S1 & S2). apply strip_by_pad; try (apply blank_space; assumption); assumption.
Qed.
Lemma charset_utf8 h : charset h = u "utf-8".
Proof.
  unfold charset, media. assert (E : forall l : list (str * str), List.find (fun e => mkey_eqb (fst e) (TextKey (u "charset"))) (map (fun e => (BytesKey (fst e), snd e)) l ++ [(TextKey (u "content_type"), main_value h)]) = None).
  { induction l as [|e l IH]; [reflexivity | exact IH]. }
  rewrite E. reflexivity.
Qed.
Lemma strict_enc t : (forall c, In c t -> scalar c) -> utf8_strict (utf8_enc t) = Some t.
Proof. intros S. unfold utf8_strict. rewrite dec_enc by exact S. rewrite seqb_refl. reflexivity. Qed.
Lemma type_decoded codec h m : type_text m -> names_type h m -> content_type codec (Some h) = Some m.
Proof.
  intros T N. unfold content_type. cbn [content_header]. rewrite charset_utf8, (main_of h m T N). unfold decode_in. rewrite seqb_refl.
  assert (A : ascii_str m) by (intros c I; destruct (T c I); lia). rewrite <- (enc_ascii m A) at 1. apply strict_enc. intros c I. destruct (T c I) as (X & _). left. lia.
Qed.
Lemma json_type : type_text (u "application/json").
Proof. intros c I. vm_compute in I. repeat (destruct I as [<-|I]; [lia|]). destruct I. Qed.
Lemma form_type m : a_form m -> type_text m.
Proof. intros [-> | ->]; intros c I; vm_compute in I; repeat (destruct I as [<-|I]; [lia|]); destruct I. Qed.

(** C367: the data of a request follow its media type, however that is written: the form, the JSON value, or the
    text; what is no JSON is given as bytes, or is a ValueError if the caller asks for it. *)
Theorem C367_data : forall codec (F : Type) strict read h m body (form : form_result F), type_text m -> names_type h m ->
  (a_form m -> forall f, form = FormOk f -> data codec strict read (Some h) body form = IsForm f) /\
  (m = u "application/json" ->
     (forall v, request_json body = Some v -> data codec strict read (Some h) body form = IsJson v) /\
     (request_json body = None -> data codec strict read (Some h) body form = if strict then BadValue else IsBytes body)) /\
  (~ a_form m -> m <> u "application/json" -> forall t, (forall c, In c t -> scalar c) -> body = utf8_enc t ->
     data codec strict read (Some h) body form = IsText t) /\
  (is_form codec (Some h) = Some true <-> a_form m) /\
  (is_json codec (Some h) = Some true <-> m = u "application/json").
Proof.
  intros codec F strict read h m body form T N. unfold data, is_form, is_json. rewrite (type_decoded codec h m T N). cbn [option_map].
  assert (FM : smem m form_types = true <-> a_form m) by (rewrite smem_In; unfold form_types, a_form; cbn [In]; intuition congruence).
  refine (conj _ (conj _ (conj _ (conj _ _)))).
  - intros A f ->. rewrite (proj2 FM A). reflexivity.
  - intros ->. change (smem (u "application/json") form_types) with false. rewrite seqb_refl. cbn iota. split; [intros v ->; reflexivity | intros ->; reflexivity].
  - intros A J t S ->. destruct (smem m form_types) eqn:E; [exfalso; apply A, FM; reflexivity|]. rewrite (proj2 (seqb_neq _ _) J).
    unfold text. cbn [content_header]. rewrite charset_utf8. unfold decode_in. rewrite seqb_refl, strict_enc by exact S. reflexivity.
  - split; [intros E; apply FM; congruence | intros A; rewrite (proj2 FM A); reflexivity].
  - split; [intros E; apply seqb_eq; congruence | intros ->; rewrite seqb_refl; reflexivity].
Qed.
Print Assumptions C367_data.
(** No header at all means a text. *)
Theorem C367_none : forall codec (F : Type) strict read t (form : form_result F), (forall c, In c t -> scalar c) ->
  data codec strict read None (utf8_enc t) form = IsText t.
Proof.
  intros codec F strict read t form S. unfold data. change (content_type codec None) with (Some (@nil N)). change (smem [] form_types) with false. change (seqb [] (u "application/json")) with false. cbn iota.
  unfold text. cbn [content_header]. rewrite charset_utf8. unfold decode_in. rewrite seqb_refl, strict_enc by exact S. reflexivity.
Qed.
Print Assumptions C367_none.
Example C367_case : type_text (u "application/json") /\ names_type (u " Application/JSON ; charset=utf-8") (u "application/json") /\
  data (F:=nat) (fun _ _ => None) false false (Some (u " Application/JSON ; charset=utf-8")) (u "[1]") FormError = IsJson (JArr [JInt 1]) /\
  data (F:=nat) (fun _ _ => None) false false (Some (u "application/json")) (u "[1") FormError = IsBytes (u "[1") /\
  data (F:=nat) (fun _ _ => None) false false (Some (u "text/csv")) (u "[1") FormError = IsText (u "[1").
Proof.
  split; [exact json_type|]. split.
  - exists (u " "), (u "Application/JSON"), (u " "), (u "; charset=utf-8"). split; [reflexivity|].
    split; [intros c [<-|[]]; right; reflexivity|]. split; [intros c [<-|[]]; right; reflexivity|]. split; [reflexivity|]. right. exists (u " charset=utf-8"). reflexivity.
  - repeat split; vm_compute; reflexivity.
Qed.

(** C368: a text is read in the charset its header declares: refuted, it is always read as UTF-8. *)
Definition C368_statement : Prop := forall codec name body t, type_text name -> decode_in codec name body = Some t ->
  text codec (Some (u "text/plain; charset=" ++ name)) body = Some t.
Theorem C368_refuted : ~ C368_statement.
Proof.
  intros H. specialize (H (fun _ b => Some b) (u "latin-1") [233%N] [233%N]). assert (T : type_text (u "latin-1")).
  { intros c I. vm_compute in I. repeat (destruct I as [<-|I]; [lia|]). destruct I. }
  specialize (H T eq_refl). vm_compute in H. discriminate H.
Qed.
Print Assumptions C368_refuted.
Theorem C368_utf8_partial : forall codec header,
  (forall t, (forall c, In c t -> scalar c) -> text codec header (utf8_enc t) = Some t) /\
  (forall body t, text codec header body = Some t -> utf8_enc t = body).
Proof.
  intros codec header. unfold text. rewrite charset_utf8. unfold decode_in. rewrite seqb_refl. split; [apply strict_enc|].
  intros body t E. unfold utf8_strict in E. destruct (seqb_spec (utf8_enc (utf8_dec body)) body) as [Q|]; [|discriminate E]. injection E as <-. exact Q.
Qed.
Print Assumptions C368_utf8_partial.
Example C368_case : text (fun _ _ => None) (Some (u "text/plain; charset=latin-1")) (utf8_enc [233%N]) = Some [233%N] /\
  text (fun _ b => Some b) (Some (u "text/plain; charset=latin-1")) [233%N] = None.
Proof. split; vm_compute; reflexivity. Qed.

(** C369: asking for the kind of a request raises nothing: refuted by a header with bytes that are no UTF-8. *)
Definition C369_statement : Prop := forall codec h, is_json codec (Some h) <> None /\ is_form codec (Some h) <> None.
Theorem C369_refuted : ~ C369_statement.
Proof. intros H. destruct (H (fun _ _ => None) [233%N]) as (X & _). apply X. vm_compute. reflexivity. Qed.
Print Assumptions C369_refuted.
Theorem C369_ascii_partial : forall codec h, (forall c, In c h -> (c < 128)%N) -> is_json codec (Some h) <> None /\ is_form codec (Some h) <> None.
Proof.
  intros codec h A. unfold is_json, is_form, content_type. cbn [content_header]. rewrite charset_utf8. unfold decode_in. rewrite seqb_refl.
  assert (M : ascii_str (main_value h)).
  { intros c I. unfold main_value, lower in I. apply in_map_iff in I. destruct I as (x & <- & I).
    assert (X : In x (hd [] (split_char 59 (latin h)))).
    { unfold bstrip, strip_by in I. destruct (rstrip_by_decomp is_bspace (lstrip_by is_bspace (hd [] (split_char 59 (latin h))))) as (w & E & _).
      destruct (lstrip_by_decomp is_bspace (hd [] (split_char 59 (latin h)))) as (w' & E' & _). rewrite E', E, !in_app_iff. right. left. exact I. }
    assert (Y : forall s, In x (hd [] (split_char 59 s)) -> In x s).
    { induction s as [|y s IH]; intros J; [exact J|]. cbn [split_char] in J. destruct (N.eqb y 59); [destruct J|]. destruct (split_char 59 s) as [|p ps]; [destruct J as [J|[]]; left; exact J|].
      cbn [hd] in *. destruct J as [J|J]; [left; exact J | right; apply IH; exact J]. }
    assert (X' := Y _ X). apply filter_In in X'. specialize (A x (proj1 X')). unfold lower_c. destruct (N.leb_spec 65 x), (N.leb_spec x 90); cbn [andb]; lia. }
  rewrite <- (enc_ascii _ M). rewrite strict_enc by (intros c I; specialize (M c I); left; lia). split; discriminate.
Qed.
Print Assumptions C369_ascii_partial.
Example C369_case : (forall c, In c (u "text/html") -> (c < 128)%N) /\ is_json (fun _ _ => None) (Some (u "text/html")) = Some false.
Proof. split; [intros c I; vm_compute in I; repeat (destruct I as [<-|I]; [lia|]); destruct I | vm_compute; reflexivity]. Qed.

(** C370: a push promise carries the request's headers for content negotiation, byte for byte, and no others, and
    nothing is sent to a server that cannot push. [raw] are the headers of the server, in lower case. *)
Definition pushed (n : str) : Prop := In n [u "accept"; u "accept-encoding"; u "accept-language"; u "cache-control"; u "user-agent"].
Definition read_as (raw h : list (str * str)) : Prop := raw = map (fun e => (fst e, utf8_enc (snd e))) h /\ forall k v, In (k, v) h -> lower k = k.
Theorem C370_push : forall order path raw h, set_order order -> read_as raw h ->
  send_push_promise order false path h = [] /\
  exists sent, send_push_promise order true path h = [(path, sent)] /\
    forall n b, In (n, b) sent <-> pushed n /\ In (n, b) raw.
Proof.
  intros order path raw h O (R & L). split; [reflexivity|]. eexists. split; [reflexivity|]. intros n v.
  assert (G : forall k w, In w (getlist order k h) <-> In (k, w) h).
  { intros k w. unfold getlist, multi_items. rewrite in_map_iff. split.
    - intros ((k', w') & E & I). cbn [snd] in E. subst w'. apply filter_In in I. destruct I as (I & Q). cbn [fst] in Q. apply seqb_eq in Q. subst k'.
      apply in_flat_map in I. destruct I as (k2 & I2 & I). apply in_map_iff in I. destruct I as (w2 & E & I). injection E as -> ->. unfold hgetall in I. apply in_map_iff in I.
      destruct I as ((k3, w3) & E & I). cbn [snd] in E. subst w3. apply filter_In in I. destruct I as (I & Q). unfold same_name in Q. cbn [fst] in Q. apply seqb_eq in Q.
      pose proof (L _ _ I) as L1. apply (proj2 (O (map fst h)) k) in I2. apply in_map_iff in I2. destruct I2 as ((k4, w4) & E4 & I4). cbn [fst] in E4. subst k4. pose proof (L _ _ I4) as L2. rewrite L1, L2 in Q. subst k3. exact I.
    - intros I. exists (k, w). split; [reflexivity|]. apply filter_In. split; [|cbn [fst]; apply seqb_refl]. apply in_flat_map. exists k. split.
      + apply (O (map fst h)). apply in_map_iff. exists (k, w). split; [reflexivity | exact I].
      + apply in_map_iff. exists w. split; [reflexivity|]. unfold hgetall. apply in_map_iff. exists (k, w). split; [reflexivity|]. apply filter_In. split; [exact I|]. unfold same_name. cbn [fst]. apply seqb_refl. }
  rewrite in_flat_map, R. split.
  - intros (k & K & I). apply (O push_headers) in K. apply in_map_iff in I. destruct I as (w & E & I). apply G in I. injection E as -> <-. split; [exact K|]. apply in_map_iff. exists (n, w). split; [reflexivity | exact I].
  - intros (P & I). exists n. split; [apply (O push_headers); exact P|]. apply in_map_iff in I. destruct I as ((k, w) & E & I). cbn [fst snd] in E. injection E as -> <-. apply in_map_iff. exists w. split; [reflexivity | apply G; exact I].
Qed.
Print Assumptions C370_push.
Example C370_case : set_order dedup /\ read_as [(u "cookie", u "s=1"); (u "accept", u "*/*"); (u "user-agent", [195; 169]%N)] [(u "cookie", u "s=1"); (u "accept", u "*/*"); (u "user-agent", [233%N])] /\
  send_push_promise dedup true (u "/a.css") [(u "cookie", u "s=1"); (u "accept", u "*/*"); (u "user-agent", [233%N])] = [(u "/a.css", [(u "accept", u "*/*"); (u "user-agent", [195; 169]%N)])].
Proof.
  split; [exact dedup_order|]. split; [|vm_compute; reflexivity]. split; [vm_compute; reflexivity|]. intros k v I. repeat (destruct I as [I|I]; [injection I as <- _; reflexivity|]). destruct I.
Qed.

(** C371: only a request whose header names that type is taken for JSON or a form: refuted, characters beyond Latin-1
    are left out of the header first. *)
Definition C371_statement : Prop := forall codec h,
  (is_json codec (Some h) = Some true -> names_type h (u "application/json")) /\
  (is_form codec (Some h) = Some true -> exists m, a_form m /\ names_type h m).
Theorem C371_refuted : ~ C371_statement.
Proof.
  intros H. destruct (H (fun _ _ => None) (u "application/jso" ++ [20013%N] ++ u "n")) as (X & _). specialize (X ltac:(vm_compute; reflexivity)).
  destruct X as (a & n & b & r & E & A & B & L & R).
  assert (I : In 20013%N (u "application/jso" ++ [20013%N] ++ u "n")) by (rewrite !in_app_iff; right; left; left; reflexivity). rewrite E, !in_app_iff in I.
  destruct I as [I|[I|[I|I]]].
  - destruct (A _ I); lia.
  - assert (Y : In (lower_c 20013) (lower n)) by (apply in_map; exact I). rewrite L in Y. vm_compute in Y. repeat (destruct Y as [Y|Y]; [discriminate Y|]). destruct Y.
  - destruct (B _ I); lia.
  - destruct R as [-> | (q & ->)]; [destruct I|]. assert (Y : In 59%N (u "application/jso" ++ [20013%N] ++ u "n")) by (rewrite E, !in_app_iff; right; right; right; left; reflexivity).
    vm_compute in Y. repeat (destruct Y as [Y|Y]; [discriminate Y|]). destruct Y.
Qed.
Print Assumptions C371_refuted.
Lemma named_back h : (forall c, In c h -> (c < 256)%N) -> names_type h (main_value h).
Proof.
  intros H. assert (E : latin h = h).
  { unfold latin. induction h as [|c h IH]; [reflexivity|]. cbn [filter]. destruct (N.ltb_spec c 256) as [_|X]; [|specialize (H c (or_introl eq_refl)); lia]. rewrite IH; [reflexivity|]. intros y Y. apply H. right. exact Y. }
  unfold main_value. rewrite E. clear H E. set (p := hd [] (split_char 59 h)).
  assert (P : exists r, h = p ++ r /\ (r = [] \/ exists q, r = 59%N :: q)).
  { unfold p. clear p. induction h as [|c h IH]; [exists []; auto|]. cbn [split_char]. destruct (N.eqb_spec c 59) as [->|N].
    - exists (59%N :: h). split; [reflexivity | right; exists h; reflexivity].
    - destruct IH as (r & E & R). destruct (split_char 59 h) as [|x xs]; cbn [hd] in *; exists r; (split; [rewrite E; reflexivity | exact R]). }
  destruct P as (r & E & R). destruct (lstrip_by_decomp is_bspace p) as (a & E1 & A & _). destruct (rstrip_by_decomp is_bspace (lstrip_by is_bspace p)) as (b & E2 & B & _).
  assert (K : forall s, forallb is_bspace s = true -> blank s).
  { intros s F c I. rewrite forallb_forall in F. specialize (F c I). unfold is_bspace in F. apply orb_true_iff in F. rewrite andb_true_iff, !N.leb_le, N.eqb_eq in F. tauto. }
  exists a, (bstrip p), b, r. split; [|split; [apply K; exact A | split; [apply K; exact B | split; [reflexivity | exact R]]]].
  rewrite E at 1. rewrite E1 at 1. rewrite E2 at 1. unfold bstrip, strip_by. rewrite <- !app_assoc. reflexivity.
Qed.
Theorem C371_only_partial : forall codec h, (forall c, In c h -> (c < 256)%N) ->
  (is_json codec (Some h) = Some true -> names_type h (u "application/json")) /\
  (is_form codec (Some h) = Some true -> exists m, a_form m /\ names_type h m).
Proof.
  intros codec h H. pose proof (named_back h H) as NB. unfold is_json, is_form, content_type. cbn [content_header]. rewrite charset_utf8. unfold decode_in. rewrite seqb_refl.
  assert (D : forall m, ascii_str m -> utf8_strict (main_value h) = Some m -> main_value h = m).
  { intros m A E. unfold utf8_strict in E. destruct (seqb_spec (utf8_enc (utf8_dec (main_value h))) (main_value h)) as [Q|]; [|discriminate E]. injection E as E. rewrite E in Q. rewrite (enc_ascii m A) in Q. symmetry. exact Q. }
  assert (A : forall m, type_text m -> ascii_str m) by (intros m T c I; destruct (T c I); lia).
  destruct (utf8_strict (main_value h)) as [m|] eqn:E; [|split; discriminate]. cbn [option_map]. split.
  - intros X. injection X as X. apply seqb_eq in X. subst m. rewrite (D _ (A _ json_type) eq_refl) in NB. exact NB.
  - intros X. assert (X' : smem m form_types = true) by congruence. clear X. apply smem_In in X'. rename X' into X. assert (F : a_form m) by (unfold form_types in X; cbn [In] in X; unfold a_form; intuition congruence).
    exists m. split; [exact F|]. rewrite (D m (A m (form_type m F)) eq_refl) in NB. exact NB.
Qed.
Print Assumptions C371_only_partial.
Example C371_case : (forall c, In c (u "APPLICATION/json;x") -> (c < 256)%N) /\ is_json (fun _ _ => None) (Some (u "APPLICATION/json;x")) = Some true.
Proof. split; [intros c I; vm_compute in I; repeat (destruct I as [<-|I]; [lia|]); destruct I | vm_compute; reflexivity]. Qed.
