(** Theorems C19 and C20: urlencoded forms. *)
From Verif Require Import PyStr PyStrFacts Utf8 RequestModel RequestSpec RequestProofs RequestProps FormModel FormSpec FormProofs.

(** ** C19 *)
(** The fields of a body do not depend on the chunks it arrived in: two ways to cut the same body
    give the same fields (the stream ends with an empty chunk). *)
Theorem C19_chunks : forall chunks1 chunks2,
  Forall nonempty chunks1 -> Forall nonempty chunks2 -> concat chunks1 = concat chunks2 ->
  form_parse (chunks1 ++ [[]]) = form_parse (chunks2 ++ [[]]).
Proof. intros c1 c2 H1 H2 E. rewrite !form_parse_spec by assumption. rewrite E. reflexivity. Qed.
Print Assumptions C19_chunks.

(** They are those of the pieces between "&": one field per piece, in order, decoded. *)
Theorem C19_fields : forall chunks, Forall nonempty chunks ->
  Forall2 (fun piece f => exists k v, name_value piece k v /\
             f = (unquote_plus (unquote (utf8_dec k)), unquote_plus (unquote (utf8_dec v))))
          (pieces (concat chunks)) (form_parse (chunks ++ [[]])).
Proof.
  intros chunks H. rewrite form_parse_spec by exact H.
  induction (pieces (concat chunks)) as [|p ps IH]; constructor; [|exact IH].
  exists (fst (partition_eq p)), (snd (partition_eq p)). split; [apply partition_spec | reflexivity].
Qed.
Print Assumptions C19_fields.

(** Through a Request: after any history of sniff, body, stream and json calls that did not stream
    the body away, the form of a request is that of the whole body in one chunk, however the server
    delivered it (empty messages included). *)
Theorem C19_request : forall chunks last pre b,
  sent_body chunks last = Some b -> ~ streamed_away chunks last pre ->
  fst (get_form (snd (rrun (fresh_request chunks last) pre))) = inl (form_parse [b; []]).
Proof.
  intros chunks last pre b Hb Hs.
  pose proof (C18_stream chunks last pre []) as (ys & e & R1 & _ & R2). specialize (R2 Hs). rewrite Hb in R2.
  destruct R2 as (R2 & -> & _).
  assert (G : forall pre st ys e, nth_error (fst (rrun st (pre ++ [OStream]))) (length pre) = Some (RStream ys e) ->
    exists st', stream (snd (rrun st pre)) = (ys, e, st')).
  { clear. induction pre as [|o pre IH]; intros st ys e; cbn [app rrun length].
    - destruct st as (q, c). cbn [rstep]. destruct (stream (q, c)) as ((zs, e'), st') eqn:E. cbn [fst snd nth_error]. intros H.
      rewrite E. exists st'. congruence.
    - destruct (rstep st o) as (r, st1). specialize (IH st1 ys e).
      destruct (rrun st1 (pre ++ [OStream])) as (rs, st2). destruct (rrun st1 pre) as (rs', st3). cbn [fst snd nth_error] in *. exact IH. }
  destruct (G _ _ _ _ R1) as (st' & E). unfold get_form. rewrite E. cbn [fst].
  rewrite (stream_form _ _ _ E), R2. f_equal. destruct b as [|x b]; [reflexivity|].
  pose proof (form_parse_spec [x :: b]) as F. cbn [concat app] in F. rewrite app_nil_r in F. symmetry. apply F.
  constructor; [discriminate | constructor].
Qed.
Print Assumptions C19_request.

Example C19_chunks_ex :
  form_parse ([u "a=1&b"; u "c=%"; u "41&"; u "d"] ++ [[]]) = [(u "a", u "1"); (u "bc", u "A"); (u "d", [])] /\
  form_parse ([u "a=1&bc=%41&d"] ++ [[]]) = [(u "a", u "1"); (u "bc", u "A"); (u "d", [])].
Proof. vm_compute. split; reflexivity. Qed.
Example C19_request_ex :
  sent_body [u "a=1&"; []; u "b="] (Some []) = Some (u "a=1&b=") /\
  ~ streamed_away [u "a=1&"; []; u "b="] (Some []) [OSniff; OBody; OStream] /\
  fst (get_form (snd (rrun (fresh_request [u "a=1&"; []; u "b="] (Some [])) [OSniff; OBody; OStream]))) = inl [(u "a", u "1"); (u "b", [])].
Proof.
  split; [reflexivity|]. split; [|vm_compute; reflexivity].
  intros (_ & F & _). discriminate F.
Qed.

(** ** C20 *)
(** A standard encoding is parsed back to the pairs. *)
Definition C20_statement : Prop := forall pairs, texts pairs -> form_parse [std_encode pairs; []] = pairs.

(** Not so: a value "a+b" is read as "a b", and "100%41" as "100A" (the bodies "x=a%2Bb" and
    "x=100%2541"). *)
Theorem C20_refuted : ~ C20_statement.
Proof.
  intros H. specialize (H [(u "x", u "a+b")]).
  assert (T : texts [(u "x", u "a+b")]).
  { intros p [<-|[]]. split; intros c Hc; cbn in Hc; unfold scalar; repeat (destruct Hc as [<-|Hc]; [lia|]); contradiction. }
  specialize (H T). vm_compute in H. discriminate H.
Qed.
Print Assumptions C20_refuted.
Example C20_refuted_ex : std_encode [(u "x", u "100%41")] = u "x=100%2541" /\
  form_parse [u "x=100%2541"; []] = [(u "x", u "100A")].
Proof. vm_compute. split; reflexivity. Qed.

(** What is parsed is exactly the pairs decoded once more, so the round trip holds precisely for
    the pairs a second decoding leaves alone, in particular those without "+" and "%".
    Missing of the full statement: the pairs with such characters. *)
Theorem C20_round_trip_partial : forall pairs, texts pairs ->
  form_parse [std_encode pairs; []] = map (fun p => (unquote_plus (fst p), unquote_plus (snd p))) pairs /\
  ((forall p, In p pairs -> ~ In 43%N (fst p) /\ ~ In 37%N (fst p) /\ ~ In 43%N (snd p) /\ ~ In 37%N (snd p)) ->
   form_parse [std_encode pairs; []] = pairs).
Proof.
  intros pairs T.
  assert (E : form_parse [std_encode pairs; []] = map (fun p => (unquote_plus (fst p), unquote_plus (snd p))) pairs).
  { assert (X : form_parse [std_encode pairs; []] = map item (pieces (std_encode pairs))).
    { destruct (std_encode pairs) as [|x b]; [reflexivity|]. pose proof (form_parse_spec [x :: b]) as F. cbn [concat app] in F. rewrite app_nil_r in F.
      apply F. constructor; [discriminate | constructor]. }
    rewrite X, pieces_encode, map_map by exact T. apply map_ext_in. intros p Hp. destruct (T p Hp). apply item_encode; assumption. }
  split; [exact E|]. intros P. rewrite E. rewrite <- (map_id pairs) at 2. apply map_ext_in. intros (n, v) Hp.
  destruct (P _ Hp) as (P1 & P2 & P3 & P4). cbn [fst snd] in *. rewrite !unquote_plus_plain by assumption. reflexivity.
Qed.
Print Assumptions C20_round_trip_partial.

(** For every ASCII body, whoever encoded it: each field is the standard decoding, decoded again. *)
Theorem C20_decoded_twice : forall body, ascii_str body ->
  Forall2 (fun piece f => exists k v, name_value piece k v /\ f = (unquote_plus (std_decode k), unquote_plus (std_decode v)))
          (pieces body) (form_parse [body; []]).
Proof.
  intros body A.
  assert (X : form_parse [body; []] = map item (pieces body)).
  { destruct body as [|x b]; [reflexivity|]. pose proof (form_parse_spec [x :: b]) as F. cbn [concat app] in F. rewrite app_nil_r in F.
    apply F. constructor; [discriminate | constructor]. }
  rewrite X.
  assert (P : forall p, In p (pieces body) -> ascii_str p).
  { intros p Hp c Hc. apply A. rewrite <- (join_split_char 38 body).
    assert (In p (split_char 38 body)).
    { revert Hp. unfold pieces. generalize (split_char 38 body). induction l as [|y l IH]; [intros []|].
      destruct y as [|z y]; [destruct l; [intros [] |]|]; cbn [drop_last_empty]; intros [->|Hp]; try (left; reflexivity); right; apply IH; exact Hp. }
    revert H Hc. clear. generalize (split_char 38 body). induction l as [|y l IH]; [intros []|].
    intros Hi Hc. destruct l as [|z l].
    - cbn [join]. destruct Hi as [->|[]]. exact Hc.
    - change (In c (y ++ [38%N] ++ join [38%N] (z :: l))). rewrite !in_app_iff. destruct Hi as [->|Hi]; [left; exact Hc | right; right; apply IH; assumption]. }
  clear X. induction (pieces body) as [|p ps IH]; cbn [map]; constructor; [|apply IH; intros q Hq; apply P; right; exact Hq].
  exists (fst (partition_eq p)), (snd (partition_eq p)). split; [apply partition_spec|].
  apply item_ascii; [apply P; left; reflexivity | apply partition_spec].
Qed.
Print Assumptions C20_decoded_twice.

Example C20_partial_ex : texts [(u "name", u "J. Doe"); (u "n&m", u "=")] /\
  std_encode [(u "name", u "J. Doe"); (u "n&m", u "=")] = u "name=J.+Doe&n%26m=%3D" /\
  form_parse [u "name=J.+Doe&n%26m=%3D"; []] = [(u "name", u "J. Doe"); (u "n&m", u "=")].
Proof.
  split; [|vm_compute; split; reflexivity].
  intros p [<-|[<-|[]]]; split; intros c Hc; cbn in Hc; unfold scalar; repeat (destruct Hc as [<-|Hc]; [lia|]); contradiction.
Qed.
(** The empty piece between two "&" is a field. *)
Example C19_empty_piece : form_parse [u "a=1&&b=2"; []] = [(u "a", u "1"); ([], []); (u "b", u "2")].
Proof. vm_compute. reflexivity. Qed.
