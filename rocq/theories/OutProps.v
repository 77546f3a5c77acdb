(** Properties of the headers and bodies that responses make of what they are given. *)
From Coq Require Import ZArith Lia.
From Verif Require Import PyStr PyStrFacts Utf8 HostProofs JsonModel JsonSpec JsonProofs OutModel OutSpec.
Local Open Scope N_scope.

(** * C111: the file name of a download *)
Definition C111_statement : Prop := forall type name, In type [None; Some (u "attachment")] -> Forall scalar name ->
  exists h, disposition type (Some name) = Some h /\ understand [] h = Some (u "attachment", Some name).
Theorem C111_slash_refuted : ~ C111_statement.
Proof.
  intros H. destruct (H None (u "a b/c") (or_introl eq_refl)) as (h & E & U).
  - apply Forall_forall. intros c I. vm_compute in I. unfold scalar. lia.
  - assert (h = u "attachment; filename*=utf-8''a%20b/c") as -> by (vm_compute in E; vm_compute; congruence).
    vm_compute in U. discriminate.
Qed.
Print Assumptions C111_slash_refuted.

Lemma quote_char_in b x : b < 256 -> In x (quote_char b) -> unreserved x = true \/ x = 47 \/ x = 37.
Proof.
  unfold quote_char. destruct (N.eqb_spec b 47) as [->|_]; [intros _ [<-|[]]; auto|].
  unfold quote_byte. destruct (unreserved b) eqn:E; [intros _ [<-|[]]; auto|].
  intros B [<-|[<-|[<-|[]]]]; [auto| |]; left.
  - assert (b / 16 < 16) by (apply N.div_lt_upper_bound; lia). unfold hexdigit, unreserved, between. destruct (b / 16 <? 10) eqn:L; lia.
  - assert (b mod 16 < 16) by (apply N.mod_lt; lia). unfold hexdigit, unreserved, between. destruct (b mod 16 <? 10) eqn:L; lia.
Qed.
Lemma quote_in s x : Forall scalar s -> In x (quote s) -> unreserved x = true \/ x = 47 \/ x = 37.
Proof.
  intros S I. apply in_flat_map in I. destruct I as (b & B & X). apply (quote_char_in b); [|exact X].
  apply (enc_bytes s); [now apply Forall_forall | exact B].
Qed.
Definition plain_char (c : N) : Prop := 48 <= c <= 57 \/ 65 <= c <= 90 \/ 97 <= c <= 122 \/ In c (u "_.-~/").
Lemma plain_char_is c : plain_char c <-> unreserved c = true \/ c = 47.
Proof.
  unfold plain_char, unreserved. change (In c (u "_.-~/")) with (95 = c \/ 46 = c \/ 45 = c \/ 126 = c \/ 47 = c \/ False).
  unfold between. lia.
Qed.
Lemma quote_plain s : Forall plain_char s -> quote s = s.
Proof.
  intros H. unfold quote. rewrite enc_ascii.
  2:{ intros c I. rewrite Forall_forall in H. specialize (H c I). apply plain_char_is in H. destruct H as [U | ->]; [apply unreserved_range in U; lia | lia]. }
  induction H as [|c s P _ IH]; [reflexivity|]. cbn [flat_map]. rewrite IH. unfold quote_char.
  destruct (N.eqb_spec c 47) as [->|NE]; [reflexivity|]. unfold quote_byte. apply plain_char_is in P.
  destruct P as [-> | ->]; [reflexivity | now destruct NE].
Qed.
Lemma quote_length l : (length l <= length (flat_map quote_char l))%nat.
Proof.
  induction l as [|b l IH]; [auto|]. cbn [flat_map]. rewrite app_length. cbn [length].
  assert (1 <= length (quote_char b))%nat by (unfold quote_char, quote_byte; destruct (b =? 47), (unreserved b); cbn; lia). lia.
Qed.
Lemma quote_fixed l : (forall x, In x l -> x < 256) -> flat_map quote_char l = l -> ~ In 37 l.
Proof.
  induction l as [|b l IH]; intros B E; [intros []|]. cbn [flat_map] in E. unfold quote_char in E at 1.
  destruct (N.eqb_spec b 47) as [->|NE].
  - intros [Q|I]; [discriminate|]. revert I. apply IH; [intros x J; apply B; now right|]. cbn in E. congruence.
  - unfold quote_byte in E. destruct (unreserved b) eqn:U.
    + intros [->|I]; [discriminate|]. revert I. apply IH; [intros x J; apply B; now right|]. cbn in E. congruence.
    + apply (f_equal (@length _)) in E. pose proof (quote_length l). cbn [app length] in E. lia.
Qed.
Lemma quote_same s : Forall scalar s -> quote s = s <-> Forall plain_char s.
Proof.
  intros S. split; [|apply quote_plain]. intros E.
  assert (A : ascii_str s).
  { intros c I. rewrite <- E in I. destruct (quote_in s c S I) as [U|[-> | ->]]; [apply unreserved_range in U; lia | lia | lia]. }
  assert (N37 : ~ In 37 s).
  { apply quote_fixed; [intros x I; specialize (A x I); lia|]. unfold quote in E. now rewrite enc_ascii in E. }
  apply Forall_forall. intros c I. apply plain_char_is. assert (J := I). rewrite <- E in J. destruct (quote_in s c S J) as [U|[->| ->]]; auto.
Qed.
Lemma attr_unreserved c : unreserved c = true -> attr_char c = true /\ c <> 37.
Proof.
  intros U. assert (R := unreserved_range c U). split; [|lia]. unfold attr_char, unreserved in *.
  assert (X : between 48 57 c || between 65 90 c || between 97 122 c = true \/ In c [95; 46; 45; 126]).
  { cbn [In]. unfold between in *. lia. }
  destruct X as [-> |X]; [reflexivity|]. cbn [In] in X. destruct X as [<-|[<-|[<-|[<-|[]]]]]; reflexivity.
Qed.
Lemma ext_quote_byte also b r : b < 256 ->
  ext_value also (quote_byte b ++ r) = match ext_value also r with Some t => Some (b :: t) | None => None end.
Proof.
  intros B. unfold quote_byte. destruct (unreserved b) eqn:U.
  - destruct (attr_unreserved b U) as [A N]. cbn [app ext_value]. destruct (N.eqb_spec b 37); [contradiction|]. now rewrite A.
  - cbn [app ext_value]. change (37 =? 37) with true. cbv iota.
    rewrite !hexval_hexdigit by (apply N.mod_lt || apply N.div_lt_upper_bound; lia).
    assert (E : b / 16 * 16 + b mod 16 = b) by (pose proof (N.div_mod b 16); lia). rewrite E. reflexivity.
Qed.
Lemma ext_quote also l : (forall b, In b l -> b < 256) -> (In 47 l -> cmem 47 also = true) -> ext_value also (flat_map quote_char l) = Some l.
Proof.
  induction l as [|b l IH]; intros B S; [reflexivity|]. cbn [flat_map]. unfold quote_char at 1. destruct (N.eqb_spec b 47) as [->|NE].
  - cbn [app ext_value]. change (47 =? 37) with false. cbv iota. rewrite S by now left. rewrite orb_true_r, IH; [reflexivity| |].
    + intros x I. apply B. now right.
    + intros _. apply S. now left.
  - rewrite ext_quote_byte by (apply B; now left). rewrite IH; [reflexivity| |].
    + intros x I. apply B. now right.
    + intros I. apply S. now right.
Qed.
Lemma ext_slash l : (forall b, In b l -> b < 256) -> In 47 l -> ext_value [] (flat_map quote_char l) = None.
Proof.
  induction l as [|b l IH]; intros B I; [destruct I|]. cbn [flat_map]. unfold quote_char at 1. destruct (N.eqb_spec b 47) as [->|NE]; [reflexivity|].
  rewrite ext_quote_byte by (apply B; now left). rewrite IH; [reflexivity | intros x J; apply B; now right | destruct I; [contradiction | assumption]].
Qed.
Lemma quoted_plain s : Forall plain_char s -> quoted_string (s ++ [34]) = Some s.
Proof.
  induction 1 as [|c s P _ IH]; [reflexivity|]. cbn [app quoted_string]. rewrite IH.
  assert (X : between 32 126 c = true /\ c <> 34 /\ c <> 92).
  { apply plain_char_is in P. destruct P as [U | ->]; [|repeat split; discriminate]. unfold unreserved, between in *. lia. }
  destruct X as (-> & N1 & N2). destruct (N.eqb_spec c 34); [contradiction|]. destruct (N.eqb_spec c 92); [contradiction|]. reflexivity.
Qed.
Lemma cut_app p s : cut p (p ++ s) = Some s.
Proof.
  unfold cut. assert (E : prefixb p (p ++ s) = true) by (apply prefixb_iff; eauto). rewrite E. f_equal.
  induction p as [|a p IH]; [reflexivity|]. cbn [app length skipn]. apply IH. apply prefixb_iff. eauto.
Qed.
Lemma enc_slash s : Forall scalar s -> In 47 (utf8_enc s) <-> In 47 s.
Proof.
  intros S. split; intros I.
  - apply (enc_low s 47); [now apply Forall_forall | exact I | lia].
  - unfold utf8_enc. apply in_flat_map. exists 47. split; [exact I | now left].
Qed.
Lemma header_lit (s : str) : forallb (between 32 126) s = true -> header_text s.
Proof. intros H c I. rewrite forallb_forall in H. apply between_spec. now apply H. Qed.
Lemma header_app a b : header_text a -> header_text b -> header_text (a ++ b).
Proof. intros A B c I. apply in_app_or in I. destruct I; auto. Qed.

Theorem C111_filename_partial : forall type name, In type [None; Some (u "attachment")] -> Forall scalar name ->
  exists h, disposition type (Some name) = Some h /\ header_text h /\
    understand (u "/") h = Some (u "attachment", Some name) /\
    (understand [] h = Some (u "attachment", Some name) <-> ~ In 47 name \/ Forall plain_char name).
Proof.
  intros type name T S. exists (attachment name). split; [destruct T as [<-|[<-|[]]]; reflexivity|].
  assert (B : forall b, In b (utf8_enc name) -> b < 256) by (intros b; apply enc_bytes; now apply Forall_forall).
  unfold attachment. destruct (seqb (quote name) name) eqn:E.
  - apply seqb_eq in E. apply quote_same in E; [|exact S]. split.
    + apply header_app; [now apply header_lit|]. apply header_app; [|now apply header_lit]. intros c I.
      rewrite Forall_forall in E. specialize (E c I). apply plain_char_is in E. unfold unreserved, between in E. lia.
    + assert (U : forall also, understand also (u "attachment; filename=""" ++ name ++ u """") = Some (u "attachment", Some name)).
      { intros also. unfold understand.
        replace (cut (u "attachment; filename*=utf-8''") (u "attachment; filename=""" ++ name ++ u """")) with (@None str) by reflexivity.
        rewrite cut_app. change (u """") with [34]. now rewrite quoted_plain. }
      split; [apply U|]. split; [intros _; now right | intros _; apply U].
  - assert (U : forall also, understand also (u "attachment; filename*=utf-8''" ++ quote name) =
      match ext_value also (quote name) with Some b => Some (u "attachment", Some (utf8_dec b)) | None => None end).
    { intros also. unfold understand. now rewrite cut_app. }
    split.
    { apply header_app; [now apply header_lit|]. intros c I. destruct (quote_in name c S I) as [X|[-> | ->]]; [unfold unreserved, between in X; lia | lia | lia]. }
    rewrite !U. unfold quote. split; [|split].
    + rewrite ext_quote; [|exact B | reflexivity]. rewrite dec_enc; [reflexivity | now apply Forall_forall].
    + intros X. left. intros I. apply (proj2 (enc_slash name S)) in I. rewrite ext_slash in X; [discriminate | exact B | exact I].
    + intros [N|P].
      * rewrite ext_quote; [|exact B | intros I; apply (proj1 (enc_slash name S)) in I; contradiction]. rewrite dec_enc; [reflexivity | now apply Forall_forall].
      * apply quote_plain in P. rewrite P, seqb_refl in E. discriminate.
Qed.
Print Assumptions C111_filename_partial.
Example C111_case :
  disposition None (Some (u "report.pdf")) = Some (u "attachment; filename=""report.pdf""") /\
  disposition (Some (u "attachment")) (Some ([233] ++ u """; x=1" ++ [13; 10] ++ u "Set-Cookie: a")) =
    Some (u "attachment; filename*=utf-8''%C3%A9%22%3B%20x%3D1%0D%0ASet-Cookie%3A%20a").
Proof. vm_compute. split; reflexivity. Qed.

(** The other dispositions: an inline response forgets the name, and a type that is not known sends no header. *)
Theorem C111_other_types :
  (forall name, exists h, disposition (Some (u "inline")) name = Some h /\ understand [] h = Some (u "inline", None)) /\
  (exists h, disposition (Some (u "attachment")) None = Some h /\ understand [] h = Some (u "attachment", None)) /\
  disposition None None = None /\
  (forall type name, type <> u "inline" -> type <> u "attachment" -> disposition (Some type) name = None).
Proof.
  refine (conj _ (conj _ (conj eq_refl _))).
  - intros name. exists (u "inline"). split; reflexivity.
  - exists (u "attachment"). split; reflexivity.
  - intros t name A B. unfold disposition. destruct (seqb t (u "inline")) eqn:E1; [now apply seqb_eq in E1|].
    destruct (seqb t (u "attachment")) eqn:E2; [now apply seqb_eq in E2 | reflexivity].
Qed.
Print Assumptions C111_other_types.
(** A header the application gave is kept, and nothing else changes. *)
Theorem C111_header_kept : forall type name headers k,
  (k <> u "content-disposition" \/ dget k headers <> None -> dget k (add_disposition type name headers) = dget k headers) /\
  (dget (u "content-disposition") headers = None ->
     dget (u "content-disposition") (add_disposition type name headers) = disposition type name).
Proof.
  intros type name headers k. unfold add_disposition. destruct (disposition type name) as [v|] eqn:D.
  - destruct (dget (u "content-disposition") headers) as [w|] eqn:G.
    + split; [reflexivity | discriminate].
    + split.
      * intros [N|N]; [now apply dget_dset_other|]. apply dget_dset_other. intros ->. now apply N.
      * intros _. apply dget_dset_same.
  - split; [reflexivity | auto].
Qed.
Print Assumptions C111_header_kept.

(** * C112: an XML response is an XML document of its content *)
Definition C112_statement : Prop := forall v, nameable v -> exists kids, read_document (xml_text v) = Some (Elem (u "root") kids).
Theorem C112_escaping_refuted : ~ C112_statement.
Proof. intros H. destruct (H (XDict [(u "a", XText (u "1 < 2"))])) as [kids E]; [vm_compute; auto | vm_compute in E; discriminate]. Qed.
Print Assumptions C112_escaping_refuted.
Theorem C112_list_refuted : ~ C112_statement.
Proof. intros H. destruct (H (XList [XText (u "1"); XText (u "2")])) as [kids E]; [vm_compute; auto | vm_compute in E; discriminate]. Qed.
Print Assumptions C112_list_refuted.
(** A text can put elements of its own into the document. *)
Theorem C112_injection_refuted :
  let v := XDict [(u "name", XText (u "x</name><admin>1</admin><name>"))] in
  nameable v /\
  read_document (xml_text v) = Some (Elem (u "root") [Elem (u "name") [Chars (u "x")]; Elem (u "admin") [Chars (u "1")]; Elem (u "name") []]) /\
  read_document (xml_text v) <> Some (Elem (u "root") (elements (u "name") (XText (u "x</name><admin>1</admin><name>")))).
Proof. vm_compute. repeat split; congruence. Qed.
Print Assumptions C112_injection_refuted.

Lemma xval_ind' (P : xval -> Prop) :
  (forall s, P (XText s)) -> (forall l, Forall P l -> P (XList l)) -> (forall l, Forall (fun e => P (snd e)) l -> P (XDict l)) -> forall v, P v.
Proof.
  intros HT HL HD. fix IH 1. intros [s|l|l]; [apply HT| |].
  - apply HL. induction l as [|v l IHl]; constructor; [apply IH | exact IHl].
  - apply HD. induction l as [|[k v] l IHl]; constructor; [apply IH | exact IHl].
Qed.
Lemma parse_tag n rest st kids : ~ In 62 n -> forall t,
  parse (n ++ 62 :: rest) (InTag t) st kids = parse (62 :: rest) (InTag (rev n ++ t)) st kids.
Proof.
  induction n as [|c n IH]; intros N t; [reflexivity|]. cbn [app]. cbn [parse]. destruct (N.eqb_spec c 62) as [->|_]; [destruct N; now left|].
  rewrite IH by (intros I; apply N; now right). cbn [rev]. now rewrite <- app_assoc.
Qed.
Lemma name_free n : is_name n = true -> ~ In 62 n /\ ~ In 60 n /\ exists a r, n = a :: r /\ a <> 47.
Proof.
  destruct n as [|a r]; [discriminate|]. cbn [is_name]. rewrite andb_true_iff. intros [A R].
  assert (X : forall c, In c (a :: r) -> name_char c = true).
  { intros c [<-|I]; [unfold name_char; now rewrite A|]. rewrite forallb_forall in R. now apply R. }
  refine (conj _ (conj _ _)); [intros I; apply X in I; discriminate | intros I; apply X in I; discriminate|].
  exists a, r. split; [reflexivity|]. intros ->. discriminate.
Qed.
Lemma parse_open n rest st kids : is_name n = true ->
  parse (open_tag n ++ rest) (InText []) st kids = parse rest (InText []) ((n, kids) :: st) [].
Proof.
  intros H. destruct (name_free n H) as (N62 & _ & a & r & E & A). unfold open_tag. rewrite <- !app_assoc. change (u "<") with [60]. change (u ">" ++ rest) with (62 :: rest).
  cbn [app]. cbn [parse]. change (60 =? 60) with true. cbv iota. cbn [flush]. rewrite parse_tag by exact N62. cbn [parse]. change (62 =? 62) with true. cbv iota.
  rewrite app_nil_r, rev_involutive, E. destruct (N.eqb_spec a 47); [contradiction|]. now rewrite <- E, H.
Qed.
Lemma parse_close n rest st before t kids : ~ In 62 n ->
  parse (close_tag n ++ rest) (InText t) ((n, before) :: st) kids = parse rest (InText []) st (Elem n (rev (flush t kids)) :: before).
Proof.
  intros N62. unfold close_tag. rewrite <- !app_assoc. change (u "</") with [60; 47]. change (u ">" ++ rest) with (62 :: rest). cbn [app]. cbn [parse]. change (60 =? 60) with true. cbv iota.
  change (47 =? 62) with false. cbv iota. rewrite parse_tag by exact N62. cbn [parse]. change (62 =? 62) with true. cbv iota.
  rewrite rev_app_distr, rev_involutive. cbn [rev app]. change (47 =? 47) with true. cbv iota. now rewrite seqb_refl.
Qed.
Lemma parse_text s rest st kids : forallb xml_char s = true -> ~ In 60 s -> ~ In 38 s -> forall t, (forall a b, rev t ++ s <> a ++ u "]]>" ++ b) ->
  parse (s ++ rest) (InText t) st kids = parse rest (InText (rev s ++ t)) st kids.
Proof.
  induction s as [|c s IH]; intros X N60 N38 t NE; [reflexivity|]. cbn [app]. cbn [parse]. cbn [forallb] in X. apply andb_true_iff in X. destruct X as [XC X].
  destruct (N.eqb_spec c 60) as [->|_]; [destruct N60; now left|]. destruct (N.eqb_spec c 38) as [->|_]; [destruct N38; now left|].
  destruct ((c =? 62) && prefixb (u "]]") t) eqn:E.
  - exfalso. apply andb_true_iff in E. destruct E as [E1 E2]. apply N.eqb_eq in E1. subst c. apply prefixb_iff in E2. destruct E2 as [w ->].
    apply (NE (rev w) s). rewrite rev_app_distr, <- app_assoc. reflexivity.
  - rewrite XC, IH; [cbn [rev]; now rewrite <- app_assoc | exact X | intros I; apply N60; now right | intros I; apply N38; now right|].
    intros a b. cbn [rev]. rewrite <- app_assoc. apply NE.
Qed.
Lemma parse_value v : forall name rest st kids, is_name name = true -> nameable v -> plain v ->
  parse (to_xml v name ++ rest) (InText []) st kids = parse rest (InText []) st (rev (elements name v) ++ kids).
Proof.
  induction v as [s|l IH|l IH] using xval_ind'; intros name rest st kids N NA P.
  - cbn [to_xml elements rev app]. rewrite <- !app_assoc, parse_open by exact N. destruct P as (P1 & P2 & P3).
    rewrite parse_text; [|exact NA | exact P1 | exact P2 | exact P3]. rewrite parse_close by apply (name_free name N). rewrite app_nil_r.
    destruct s as [|c s]; [reflexivity|]. unfold flush. destruct (rev (c :: s)) as [|d t] eqn:R; [apply (f_equal (@length _)) in R; rewrite rev_length in R; discriminate|].
    rewrite <- R, rev_involutive. reflexivity.
  - cbn [to_xml elements]. cbn [nameable plain] in *. apply fold_and in NA. apply fold_and in P. revert kids. induction IH as [|v l IHv _ IHl]; intros kids; [reflexivity|].
    inversion NA; subst. inversion P; subst. cbn [flat_map]. rewrite <- app_assoc, IHv, IHl by assumption. now rewrite rev_app_distr, <- app_assoc.
  - cbn [to_xml elements]. cbn [nameable plain] in *. apply fold_and in NA. apply fold_and in P.
    assert (X : forall rest st kids, parse (flat_map (fun e => to_xml (snd e) (fst e)) l ++ rest) (InText []) st kids =
      parse rest (InText []) st (rev (flat_map (fun e => elements (fst e) (snd e)) l) ++ kids)).
    { clear rest st kids N. induction IH as [|[k v] l IHv _ IHl]; intros rest st kids; [reflexivity|]. inversion NA as [|? ? [NK NV] NA']; subst. inversion P; subst.
      cbn [flat_map fst snd] in *. rewrite <- app_assoc, IHv, IHl by assumption. now rewrite rev_app_distr, <- app_assoc. }
    rewrite <- !app_assoc, parse_open by exact N. rewrite X. rewrite parse_close by apply (name_free name N). unfold flush. rewrite app_nil_r, rev_involutive. reflexivity.
Qed.
Lemma xml_char_scalar c : xml_char c = true -> scalar c.
Proof. unfold xml_char, scalar, between. lia. Qed.
Lemma name_scalar n : is_name n = true -> Forall scalar n.
Proof.
  intros H. apply Forall_forall. intros c I. assert (X : name_char c = true).
  { destruct n as [|a r]; [destruct I|]. cbn [is_name] in H. apply andb_true_iff in H. destruct H as [A R]. destruct I as [<-|I]; [unfold name_char; now rewrite A|].
    rewrite forallb_forall in R. now apply R. }
  unfold name_char, name_start, between, scalar in *. lia.
Qed.
Lemma to_xml_scalar v : forall name, is_name name = true -> nameable v -> Forall scalar (to_xml v name).
Proof.
  assert (T : forall name s, is_name name = true -> Forall scalar s -> Forall scalar (open_tag name ++ s ++ close_tag name)).
  { intros name s N S. pose proof (name_scalar name N). unfold open_tag, close_tag. rewrite !Forall_app.
    assert (L : forall t : str, forallb (fun c => c <? 128) t = true -> Forall scalar t).
    { intros t F. apply Forall_forall. intros c I. rewrite forallb_forall in F. apply F in I. unfold scalar. lia. }
    repeat split; auto. }
  induction v as [s|l IH|l IH] using xval_ind'; intros name N NA; cbn [to_xml nameable] in *.
  - apply T; [exact N|]. rewrite forallb_forall in NA. apply Forall_forall. intros c I. now apply xml_char_scalar, NA.
  - apply fold_and in NA. rewrite Forall_flat_map, Forall_forall. rewrite !Forall_forall in *. auto.
  - apply T; [exact N|]. apply fold_and in NA. rewrite Forall_flat_map, Forall_forall. rewrite !Forall_forall in *. intros e I. destruct (NA e I). auto.
Qed.
Lemma xml_text_is v : xml_text v = to_xml v (u "root").
Proof. destruct v; reflexivity. Qed.

Theorem C112_document_partial : forall v, nameable v -> plain v ->
  exists b, xml_body (XVal v) = Some b /\ read_xml (utf8_dec b) = Some (elements (u "root") v) /\
    (forall l, v = XDict l -> read_document (utf8_dec b) = Some (Elem (u "root") (flat_map (fun e => elements (fst e) (snd e)) l))) /\
    (forall l, v = XList l -> (exists d, read_document (utf8_dec b) = Some d) <-> length (flat_map (elements (u "root")) l) = 1%nat).
Proof.
  intros v NA P. assert (S : Forall scalar (xml_text v)) by (rewrite xml_text_is; now apply to_xml_scalar).
  exists (utf8_enc (xml_text v)). split; [apply encode_some; split; [now apply scalar_unicode | reflexivity]|].
  rewrite dec_enc by now apply Forall_forall.
  assert (R : read_xml (xml_text v) = Some (elements (u "root") v)).
  { unfold read_xml. rewrite xml_text_is, <- (app_nil_r (to_xml _ _)), parse_value; [|reflexivity | exact NA | exact P]. cbn [parse flush]. now rewrite app_nil_r, rev_involutive. }
  refine (conj R (conj _ _)).
  - intros l ->. unfold read_document. rewrite R. reflexivity.
  - intros l ->. unfold read_document. rewrite R. cbn [elements].
    assert (A : forall v n, In n (elements (u "root") v) -> exists x k, n = Elem x k).
    { clear. intros v. generalize (u "root") as name. induction v as [s|l IH|l IH] using xval_ind'; intros name n I; cbn [elements] in I.
      - destruct I as [<-|[]]. eauto.
      - apply in_flat_map in I. destruct I as (v & V & I). rewrite Forall_forall in IH. now apply (IH v V name).
      - destruct I as [<-|[]]. eauto. }
    assert (A' : forall n, In n (flat_map (elements (u "root")) l) -> exists x k, n = Elem x k).
    { intros n I. apply in_flat_map in I. destruct I as (v & _ & I). now apply (A v). }
    destruct (flat_map (elements (u "root")) l) as [|n [|m r]]; cbn [length].
    + split; [intros [d D]; discriminate | discriminate].
    + destruct (A' n (or_introl eq_refl)) as (x & k & ->). split; [reflexivity | eauto].
    + split; [intros [d D]; destruct n; discriminate | discriminate].
Qed.
Print Assumptions C112_document_partial.
Example C112_case :
  let v := XDict [(u "title", XText (u "x > y, ""z""")); (u "tag", XList [XText (u "a"); XText (u "b")]); (u "none", XList []); (u "in", XDict [(u "n", XText (u "-1"))])] in
  xml_text v = u "<root><title>x > y, ""z""</title><tag>a</tag><tag>b</tag><in><n>-1</n></in></root>" /\ nameable v /\ plain v.
Proof.
  refine (conj _ (conj _ _)); [vm_compute; reflexivity | vm_compute; auto 12|]. cbn [plain map fold_right snd].
  assert (X : forall s : str, forallb (fun c => negb (N.eqb c 60) && negb (N.eqb c 38) && negb (N.eqb c 93)) s = true ->
    ~ In 60 s /\ ~ In 38 s /\ (forall a b, s <> a ++ u "]]>" ++ b)).
  { intros s F. rewrite forallb_forall in F. repeat split; [intros I; apply F in I; discriminate | intros I; apply F in I; discriminate|].
    intros a b ->. assert (I : In 93 (a ++ u "]]>" ++ b)) by (apply in_or_app; right; now left). apply F in I. discriminate. }
  repeat split; try apply X; reflexivity.
Qed.
(** Texts and bytes are passed on. *)
Theorem C112_passed_on : (forall s, Forall scalar s -> exists b, xml_body (XStr s) = Some b /\ utf8_dec b = s) /\ (forall b, xml_body (XBytes b) = Some b).
Proof.
  split; [|reflexivity]. intros s S. exists (utf8_enc s). split; [apply encode_some; split; [now apply scalar_unicode | reflexivity]|].
  apply dec_enc. now apply Forall_forall.
Qed.
Print Assumptions C112_passed_on.

(** * C113: a text given to a response is the text that is sent *)
Definition C113_statement : Prop := forall transform s, Forall scalar s ->
  exists b, body_of transform (CValue (JStr s)) = Some b /\ utf8_dec b = s.
Theorem C113_transformed_refuted : ~ C113_statement.
Proof.
  intros H. destruct (H true (u "say ""hi""")) as (b & E & D).
  - apply Forall_forall. intros c I. vm_compute in I. unfold scalar. lia.
  - assert (b = u "say \""hi\") as -> by (vm_compute in E; vm_compute; congruence). vm_compute in D. discriminate.
Qed.
Print Assumptions C113_transformed_refuted.

Lemma write_plain s : (forall c, In c s -> 32 <= c /\ c <> 34 /\ c <> 92) -> flat_map (write_char false) s = s.
Proof.
  induction s as [|c s IH]; intros H; [reflexivity|]. cbn [flat_map]. rewrite IH by (intros x I; apply H; now right).
  destruct (H c (or_introl eq_refl)) as (A & B & C). unfold write_char, short_escape.
  destruct (N.eqb_spec c 34); [contradiction|]. destruct (N.eqb_spec c 92); [contradiction|].
  destruct (N.eqb_spec c 10); [lia|]. destruct (N.eqb_spec c 13); [lia|]. destruct (N.eqb_spec c 9); [lia|]. destruct (N.eqb_spec c 12); [lia|].
  destruct (N.eqb_spec c 8); [lia|]. destruct (N.ltb_spec c 32); [lia|]. reflexivity.
Qed.
Lemma strip_quotes s : (forall c, In c s -> c <> 34) -> strip_by (fun c => c =? 34) (34 :: s ++ [34]) = s.
Proof.
  intros H. apply (strip_by_pad (fun c => c =? 34) [34] s [34]); [reflexivity | reflexivity | |].
  - destruct s as [|c s]; [exact Logic.I|]. apply N.eqb_neq. apply H. now left.
  - destruct (rev s) as [|c r] eqn:E; [exact Logic.I|]. apply N.eqb_neq. apply H. apply in_rev. rewrite E. now left.
Qed.
Lemma encode_scalar s : Forall scalar s -> encode s = Some (utf8_enc s).
Proof. intros S. apply encode_some. split; [now apply scalar_unicode | reflexivity]. Qed.

Theorem C113_text_partial : forall s, Forall scalar s ->
  (exists b, body_of false (CValue (JStr s)) = Some b /\ utf8_dec b = s) /\
  ((forall c, In c s -> 32 <= c /\ c <> 34 /\ c <> 92) -> exists b, body_of true (CValue (JStr s)) = Some b /\ utf8_dec b = s).
Proof.
  intros s S. split.
  - destruct s as [|c s]; [exists []; split; reflexivity|]. exists (utf8_enc (c :: s)). split; [|apply dec_enc; now apply Forall_forall].
    cbn [body_of falsy]. now apply encode_scalar.
  - intros P. exists (utf8_enc s). split; [|apply dec_enc; now apply Forall_forall].
    cbn [body_of]. unfold dumps. cbn [finite write]. unfold write_string. rewrite write_plain by exact P. rewrite strip_quotes by (intros c I; apply P, I).
    destruct s as [|c s]; [reflexivity|]. now apply encode_scalar.
Qed.
Print Assumptions C113_text_partial.
Example C113_case : body_of true (CValue (JStr (u "hello"))) = Some (u "hello") /\ body_of false (CValue (JStr (u "a""b"))) = Some (u "a""b").
Proof. vm_compute. split; reflexivity. Qed.

Lemma ends_id (s : str) : ~ In 34 s -> strip_by (fun c => c =? 34) s = s.
Proof.
  intros N. apply strip_by_id.
  - destruct s as [|c s]; [exact Logic.I|]. apply N.eqb_neq. intros ->. apply N. now left.
  - destruct (rev s) as [|c r] eqn:E; [exact Logic.I|]. apply N.eqb_neq. intros ->. apply N. apply in_rev. rewrite E. now left.
Qed.
Lemma framed_id a (s : str) b : a <> 34 -> b <> 34 -> strip_by (fun c => c =? 34) ([a] ++ s ++ [b]) = [a] ++ s ++ [b].
Proof.
  intros A B. apply strip_by_id; [cbn; now apply N.eqb_neq|]. rewrite app_assoc, rev_app_distr. apply N.eqb_neq. exact B.
Qed.
Lemma digits_free l : Forall digit l -> ~ In 34 l.
Proof. intros F I. rewrite Forall_forall in F. apply F in I. unfold digit in I. lia. Qed.
Lemma int_free i : int_part i -> ~ In 34 i.
Proof.
  intros [->|(c & r & -> & C & D)] I; [destruct I as [I|[]]; discriminate|]. destruct I as [E|I]; [lia|]. now apply (digits_free r).
Qed.
Lemma float_free t : float_literal t -> ~ In 34 t.
Proof.
  intros (sign & i & f & e & -> & S & I & FR & EX & _). rewrite !in_app_iff. intros [J|[J|[J|J]]].
  - destruct S as [<-|[<-|[]]]; cbn in J; intuition discriminate.
  - now apply int_free in J.
  - destruct FR as [->|(r & -> & _ & D)]; [destruct J|]. destruct J as [J|J]; [discriminate|]. now apply digits_free in J.
  - destruct EX as [->|(x & sg & r & -> & X & SG & _ & D)]; [destruct J|]. rewrite !in_app_iff in J. destruct J as [J|[J|J]].
    + destruct J as [->|[]]. cbn in X. intuition discriminate.
    + cbn in SG. destruct SG as [<-|[<-|[<-|[]]]]; cbn in J; intuition discriminate.
    + now apply digits_free in J.
Qed.
Lemma denotes_kept v t : denotes false v t -> (forall s, v <> JStr s) -> strip_by (fun c => c =? 34) t = t.
Proof.
  intros D N. destruct D as [| | |i I|i I|t F|t L _|s t S|w W|w l t W _|w W|w l t W _]; try reflexivity.
  - now apply ends_id, int_free.
  - apply ends_id. intros [J|J]; [discriminate|]. now apply int_free in J.
  - now apply ends_id, float_free.
  - discriminate.
  - now destruct (N s).
  - now apply (framed_id 91 w 93).
  - rewrite (app_assoc w). now apply (framed_id 91 (w ++ t) 93).
  - now apply (framed_id 123 w 125).
  - rewrite (app_assoc w). now apply (framed_id 123 (w ++ t) 125).
Qed.
(** Any other value becomes its JSON text when the response is built by [make_response]. *)
Theorem C113_values : forall v, proper v -> presentable v -> v <> JNull -> (forall s, v <> JStr s) ->
  exists b, body_of true (CValue v) = Some b /\ loads (utf8_dec b) = Some v.
Proof.
  intros v PR P N1 N2. destruct (presentable_writable v PR P) as [W F]. destruct (write_scalar v W) as [S _].
  exists (utf8_enc (write false v)). rewrite dec_enc by now apply Forall_forall. split; [|apply loads_json, write_json, W].
  assert (D := write_denotes false v W). assert (K := denotes_kept v _ D N2). assert (B := denotes_begins v _ D).
  assert (E : body_of true (CValue v) = match strip_by (fun c => c =? 34) (write false v) with [] => Some [] | t' => encode t' end).
  { unfold body_of, dumps. rewrite F. destruct v; try reflexivity. contradiction. }
  rewrite E, K. destruct (write false v) as [|c r] eqn:X; [destruct B|]. now apply encode_scalar.
Qed.
Print Assumptions C113_values.
(** Without transformation a value Python takes for false has an empty body, and nothing else has. *)
Theorem C113_falsy : forall v, body_of false (CValue v) = Some [] <->
  In v [JNull; JBool false; JInt 0; JFloat (u "0.0"); JFloat (u "-0.0"); JStr []; JArr []; JObj []].
Proof.
  intros v. split.
  - intros H. destruct v as [|[]|z|t|s|l|l]; cbn [body_of falsy negb] in H; [cbn; tauto | discriminate H | cbn; tauto | | | | |].
    + destruct (Z.eqb z 0) eqn:E; [|discriminate H]. apply Z.eqb_eq in E. rewrite E. cbn; tauto.
    + destruct (smem t [u "0.0"; u "-0.0"]) eqn:E; [|discriminate H]. apply smem_In in E. cbn [In] in E. destruct E as [<-|[<-|[]]]; cbn; tauto.
    + destruct s as [|c s]; [cbn; tauto|]. unfold encode in H. destruct (forallb _ _); [|discriminate H]. injection H as H. exfalso.
      cbn [utf8_enc flat_map] in H. apply app_eq_nil in H as (H & _). unfold enc1 in H. repeat (match type of H with context [if ?b then _ else _] => destruct b end; try discriminate H).
    + destruct l; [cbn; tauto | discriminate H].
    + destruct l; [cbn; tauto | discriminate H].
  - intros I. cbn [In] in I. repeat (destruct I as [<-|I]; [vm_compute; reflexivity|]). destruct I.
Qed.
Print Assumptions C113_falsy.
Example C113_values_case : body_of true (CValue (JObj [(u "a", JArr [JInt 1; JStr (u "x")])])) = Some (u "{""a"":[1,""x""]}") /\ body_of false (CValue (JInt 0)) = Some [] /\ body_of false (CValue (JInt 1)) = None.
Proof. vm_compute. repeat split. Qed.
