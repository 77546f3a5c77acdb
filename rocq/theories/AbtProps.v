(** C217-C222: aborting a request, http exceptions and the response shortcuts. *)
From Coq Require Import ZArith Lia.
From Verif Require Import PyStr PyStrFacts Utf8 Asgi HeaderModel HeaderSpec HeaderProofs HeaderProps CookieModel CookieSpec CookieProofs CookieProps JsonModel JsonSpec
  JsonProofs JsonProps OutModel OutSpec OutProps ExcModel ExcSpec ExcProofs ExcProps AbtModel.

(** ** Helpers *)
Lemma wire_has order h k v : set_order order -> In (k, v) h -> In (k, v) (wire order h).
Proof.
  intros O I. unfold wire, multi_items. apply in_flat_map. exists k. split.
  - apply (O (map fst h)). apply in_map_iff. exists (k, v). split; [reflexivity | exact I].
  - apply in_map. unfold hgetall. apply in_map_iff. exists (k, v). split; [reflexivity|]. apply filter_In. split; [exact I|].
    unfold same_name. cbn [fst]. apply seqb_refl.
Qed.
Lemma setdefault_keeps k v a b d : In (k, v) d -> In (k, v) (setdefault a b d).
Proof. intros I. destruct (setdefault_app a b d) as [(_ & ->)|(_ & ->)]; [apply in_or_app; now left | exact I]. Qed.
Lemma made_has st body cs media g k v : st <> 304%Z -> st <> 412%Z -> In (k, v) g -> In (k, v) (fst (make_headers st body cs media g)).
Proof.
  intros A B I. unfold make_headers. cbn [fst]. assert (E : has_entity_header_status st = false).
  { unfold has_entity_header_status. apply Bool.orb_false_iff. split; now apply Z.eqb_neq. }
  rewrite E. destruct (has_body_message st); [|exact I]. destruct (get_content_type cs media); repeat apply setdefault_keeps; exact I.
Qed.
(** The default handler answers when the user has none. *)
Lemma default_chosen t e ms : NoDup (map fst t) -> e_mro e = k_mro HTTPException -> e_response e = Some ms ->
  (forall n z, status_of e z -> ~ In (KStatus z, n) t) -> (forall n, ~ In (KClass cHTTP, n) t) -> chosen t e HttpDefault.
Proof.
  intros N M R S C. apply (ch_class t e [] cHTTP [3; cException]).
  - intros n (_ & z & Z & I). exact (S n z Z I).
  - exact M.
  - intros c' h' [].
  - apply hc_http; [reflexivity | exact C].
Qed.
Lemma answered en debug intercept wrapped t e ms : NoDup (map fst t) -> e_mro e = k_mro HTTPException -> e_response e = Some ms ->
  (forall n z, status_of e z -> ~ In (KStatus z, n) t) -> (forall n, ~ In (KClass cHTTP, n) t) ->
  application en debug intercept wrapped t [] ([], Some e) = (ms, None).
Proof.
  intros N M R S C. unfold application. cbn [fold_left].
  assert (N' := other_nodup t N).
  assert (H : chosen (other_handlers t) e HttpDefault).
  { apply (default_chosen _ _ ms N' M R).
    - intros n z Z I. unfold other_handlers in I. apply filter_In in I. exact (S n z Z (proj1 I)).
    - intros n I. unfold other_handlers in I. apply filter_In in I. exact (C n (proj1 I)). }
  assert (NS : ~ has_started []) by (intros (? & ? & [])).
  assert (A : act en HttpDefault e = Gives ms None) by (unfold act, http_default; now rewrite R).
  destruct wrapped.
  - destruct (C32_endpoint en (other_handlers t) (error_handler t) [] e N') as (_ & _ & X). rewrite (X HttpDefault NS H), A. cbn [app exception_middleware].
    destruct intercept; reflexivity.
  - destruct (C32_middleware en (other_handlers t) [] e N') as (_ & X). rewrite (X HttpDefault NS H), A. cbn [app]. destruct intercept; reflexivity.
Qed.

(** * C217: abort ends the request with the status, the body and the headers it is given *)
(** The details with a meaning: none, a text, or a dict or list that has a JSON text. *)
Definition sendable (detail : jvalue) : Prop :=
  match detail with
  | JNull => True
  | JStr s => Forall scalar s
  | JArr _ | JObj _ => proper detail /\ presentable detail
  | _ => False
  end.
(** What a client reads. *)
Definition says (st : Z) (detail : jvalue) (b : str) : Prop :=
  match detail with
  | JNull => if Z.eqb st 204 || Z.eqb st 304 then b = [] else In (st, utf8_dec b) phrases
  | JStr s => utf8_dec b = s
  | _ => request_json b = Some detail
  end.

Lemma phrase_in st p : phrase st = Some p -> In (st, p) phrases.
Proof.
  unfold phrase. destruct (List.find _ phrases) as [[z q]|] eqn:E; [|discriminate]. apply List.find_some in E. destruct E as [I E]. cbn [fst] in E. apply Z.eqb_eq in E. subst z.
  cbn [option_map snd]. intros X. assert (q = p) as <- by congruence. exact I.
Qed.
Lemma phrase_some st : In st (map fst phrases) -> exists p, phrase st = Some p.
Proof.
  intros I. unfold phrase. destruct (List.find (fun e => Z.eqb (fst e) st) phrases) as [e|] eqn:E; [exists (snd e); reflexivity|].
  exfalso. apply in_map_iff in I. destruct I as ([z q] & Z & I). cbn [fst] in Z. subst z.
  pose proof (List.find_none _ _ E _ I) as X. cbn [fst] in X. now rewrite Z.eqb_refl in X.
Qed.
Lemma phrase_none st : ~ In st (map fst phrases) -> phrase st = None.
Proof.
  intros N. unfold phrase. destruct (List.find _ phrases) as [e|] eqn:E; [|reflexivity]. exfalso. apply List.find_some in E. destruct E as [I E]. apply Z.eqb_eq in E.
  apply N. apply in_map_iff. exists e. auto.
Qed.
Lemma phrases_plain : Forall (fun e => Forall scalar (snd e) /\ snd e <> []) phrases.
Proof.
  assert (H : forallb (fun e => match snd e with [] => false | _ => forallb (fun c => (c <? 128)%N) (snd e) end) phrases = true) by (vm_compute; reflexivity).
  rewrite forallb_forall in H. apply Forall_forall. intros e I. specialize (H e I). destruct (snd e) as [|c r]; [discriminate|]. split; [|discriminate].
  apply Forall_forall. intros x X. rewrite forallb_forall in H. specialize (H x X). apply N.ltb_lt in H. unfold scalar. lia.
Qed.
Lemma body_text s : Forall scalar s -> exists b, body_of false (CValue (JStr s)) = Some b /\ utf8_dec b = s.
Proof. intros S. exact (proj1 (C113_text_partial s S)). Qed.
Lemma or_given st k : st <> 0%Z -> or_status (Some st) k = st.
Proof. intros N. unfold or_status. destruct (Z.eqb_spec st 0); [contradiction | reflexivity]. Qed.
Lemma construct_known st headers r : st <> 0%Z -> In st (map fst phrases) ->
  exists p, phrase st = Some p /\
  construct HTTPException [] (Some st) JNull headers r = Some {| x_mro := k_mro HTTPException; x_status := st; x_detail := JStr p; x_headers := headers; x_response := r |}.
Proof.
  intros N I. destruct (phrase_some st I) as (p & P). exists p. split; [exact P|]. unfold construct. cbn [falsy k_detail HTTPException]. rewrite or_given by exact N. now rewrite P.
Qed.
Lemma construct_text st d headers r : st <> 0%Z -> falsy d = false ->
  construct HTTPException [] (Some st) d headers r = Some {| x_mro := k_mro HTTPException; x_status := st; x_detail := d; x_headers := headers; x_response := r |}.
Proof. intros N F. unfold construct. rewrite F. cbn [k_detail HTTPException]. rewrite F. now rewrite or_given by exact N. Qed.
Lemma construct_empty st headers r : st <> 0%Z -> In st (map fst phrases) ->
  exists p, construct HTTPException [] (Some st) (JStr []) headers r = Some {| x_mro := k_mro HTTPException; x_status := st; x_detail := JStr p; x_headers := headers; x_response := r |}.
Proof. intros N I. destruct (construct_known st headers r N I) as (p & P & E). exists p. exact E. Qed.

Theorem C217_abort : forall order en debug intercept wrapped t st detail headers,
  set_order order -> (100 <= st <= 599)%Z -> sendable detail ->
  In st (map fst phrases) \/ (exists s, detail = JStr s /\ s <> []) ->
  NoDup (map fst t) -> (forall n, ~ In (KStatus st, n) t) -> (forall n, ~ In (KClass cHTTP, n) t) ->
  exists x e h b, abort order st detail headers = Some x /\ exc_of order x = Some e /\
    application en debug intercept wrapped t [] ([], Some e) = ([AStart st h; ABody b false], None) /\
    says st detail b /\
    (forall k v, st <> 304%Z -> st <> 412%Z -> In (k, v) (given headers) -> In (k, v) h).
Proof.
  intros order en debug intercept wrapped t st detail headers O R S K N T1 T2.
  assert (NZ : st <> 0%Z) by lia.
  assert (FIN : forall x ms, exc_of order x = Some {| e_id := 0; e_mro := k_mro HTTPException; e_status := Has st; e_text := []; e_response := Some ms |} ->
    exists e, exc_of order x = Some e /\ application en debug intercept wrapped t [] ([], Some e) = (ms, None)).
  { intros x ms E. eexists. split; [exact E|]. apply answered; [exact N | reflexivity | reflexivity | | exact T2].
    intros n z Z I. inversion Z as [w W _|W|W]; cbn [e_status] in W; [| |destruct W; discriminate].
    - injection W as <-. exact (T1 n I).
    - injection W as W. lia. }
  assert (HEAD : forall body media k v, st <> 304%Z -> st <> 412%Z -> In (k, v) (given headers) ->
    In (k, v) (wire order (fst (make_headers st body (u "utf-8") media (given headers))))).
  { intros body media k v A B I. apply wire_has; [exact O|]. now apply made_has. }
  destruct detail as [| | | |s|l|l]; try contradiction.
  - destruct K as [K|(s & E & _)]; [|discriminate]. destruct (construct_known st headers None NZ K) as (p & P & E).
    pose proof (phrase_in st p P) as I.
    assert (PL := phrases_plain). rewrite Forall_forall in PL. specialize (PL _ I). cbn [snd] in PL. destruct PL as [SC NE].
    destruct (Z.eqb st 204 || Z.eqb st 304) eqn:Q.
    + destruct (FIN {| x_mro := k_mro HTTPException; x_status := st; x_detail := JStr p; x_headers := headers; x_response := None |} (fst (response order st [] None headers)) ltac:(unfold exc_of, default_response; cbn [x_response x_status x_headers]; rewrite Q; reflexivity)) as (e & E1 & E2).
      eexists _, e, _, []. split; [exact E|]. split; [exact E1|]. split; [rewrite E2; reflexivity|]. split; [unfold says; rewrite Q; reflexivity|]. apply HEAD.
    + destruct (body_text p SC) as (b & B & D).
      destruct (FIN {| x_mro := k_mro HTTPException; x_status := st; x_detail := JStr p; x_headers := headers; x_response := None |} (fst (response order st b (Some (u "text/plain")) headers))) as (e & E1 & E2).
      { unfold exc_of, default_response. cbn [x_response x_status x_headers x_detail]. rewrite Q. replace (body_of false (CValue (JStr p))) with (Some b) by (symmetry; exact B). reflexivity. }
      eexists _, e, _, b. split; [exact E|]. split; [exact E1|]. split; [rewrite E2; reflexivity|]. split; [|apply HEAD].
      unfold says. rewrite Q, D. exact I.
  - destruct (body_text s S) as (b & B & D).
    set (ms := fst (response order st b None headers)). set (after := snd (response order st b None headers)).
    assert (C : exists p, construct HTTPException [] (Some st) (JStr s) after (Some ms) =
                          Some {| x_mro := k_mro HTTPException; x_status := st; x_detail := JStr p; x_headers := after; x_response := Some ms |}).
    { destruct s as [|c s].
      - destruct K as [K|(s & E & NE)]; [apply (construct_empty st after (Some ms) NZ K) | congruence].
      - exists (c :: s). now apply construct_text. }
    destruct C as (p & C). destruct (FIN {| x_mro := k_mro HTTPException; x_status := st; x_detail := JStr p; x_headers := after; x_response := Some ms |} ms eq_refl) as (e & E1 & E2).
    eexists _, e, _, b. split.
    { change (abort order st (JStr s) headers) with (match body_of false (CValue (JStr s)) with
        | Some b => let '(ms, after) := response order st b None headers in construct HTTPException [] (Some st) (JStr s) after (Some ms) | None => None end).
      rewrite B. rewrite (surjective_pairing (response order st b None headers)). exact C. }
    split; [exact E1|]. split; [rewrite E2; reflexivity|]. split; [exact D | apply HEAD].
  - destruct S as [PR PS]. destruct K as [K|(s & E & _)]; [|discriminate]. destruct (C105_json_written (JArr l) PR) as ((J & _) & RD & _).
    destruct (json_body (JArr l)) as [b|] eqn:B; [|exfalso; now apply J]. destruct (RD b eq_refl) as (_ & _ & _ & RJ).
    set (ms := fst (response order st b (Some (u "application/json")) headers)). set (after := snd (response order st b (Some (u "application/json")) headers)).
    destruct (construct_known st after (Some ms) NZ K) as (p & P & C).
    destruct (FIN {| x_mro := k_mro HTTPException; x_status := st; x_detail := JStr p; x_headers := after; x_response := Some ms |} ms eq_refl) as (e & E1 & E2).
    eexists _, e, _, b. split.
    { unfold abort. rewrite B. rewrite (surjective_pairing (response order st b _ headers)). exact C. }
    split; [exact E1|]. split; [rewrite E2; reflexivity|]. split; [exact RJ | apply HEAD].
  - destruct S as [PR PS]. destruct K as [K|(s & E & _)]; [|discriminate]. destruct (C105_json_written (JObj l) PR) as ((J & _) & RD & _).
    destruct (json_body (JObj l)) as [b|] eqn:B; [|exfalso; now apply J]. destruct (RD b eq_refl) as (_ & _ & _ & RJ).
    set (ms := fst (response order st b (Some (u "application/json")) headers)). set (after := snd (response order st b (Some (u "application/json")) headers)).
    destruct (construct_known st after (Some ms) NZ K) as (p & P & C).
    destruct (FIN {| x_mro := k_mro HTTPException; x_status := st; x_detail := JStr p; x_headers := after; x_response := Some ms |} ms eq_refl) as (e & E1 & E2).
    eexists _, e, _, b. split.
    { unfold abort. rewrite B. rewrite (surjective_pairing (response order st b _ headers)). exact C. }
    split; [exact E1|]. split; [rewrite E2; reflexivity|]. split; [exact RJ | apply HEAD].
Qed.
Print Assumptions C217_abort.
Example C217_case :
  (exists x e, abort dedup 404 JNull None = Some x /\ exc_of dedup x = Some e /\
     application plain false true true [(KStatus 403, 1)] [] ([], Some e) =
       ([AStart 404 [(u "content-length", u "9"); (u "content-type", u "text/plain; charset=utf-8")]; ABody (u "Not Found") false], None)) /\
  (exists x e, abort dedup 400 (JObj [(u "error", JInt 7)]) (Some [(u "x-a", u "1")]) = Some x /\ exc_of dedup x = Some e /\
     application plain false false false [] [] ([], Some e) =
       ([AStart 400 [(u "x-a", u "1"); (u "content-length", u "11"); (u "content-type", u "application/json")]; ABody (u "{""error"":7}") false], None)) /\
  sendable (JObj [(u "error", JInt 7)]) /\ In 400%Z (map fst phrases).
Proof.
  refine (conj _ (conj _ (conj _ _))).
  - eexists _, _. split; [vm_compute; reflexivity|]. split; vm_compute; reflexivity.
  - eexists _, _. split; [vm_compute; reflexivity|]. split; vm_compute; reflexivity.
  - cbn [sendable proper presentable]. unfold points, unicode. cbn.
    refine (conj (conj _ (conj (conj _ Logic.I) Logic.I)) (conj (conj _ Logic.I) Logic.I)).
    + constructor; [intros [] | constructor].
    + intros c H. repeat (destruct H as [<-|H]; [lia|]). contradiction.
    + intros c H. repeat (destruct H as [<-|H]; [lia|]). contradiction.
  - vm_compute. tauto.
Qed.

(** * C218: abort takes every status *)
Definition C218_statement : Prop := forall order st detail headers, set_order order -> (100 <= st <= 599)%Z -> sendable detail ->
  exists x, abort order st detail headers = Some x /\ x_status x = st.
(** A status that Python does not list, without a detail, is a ValueError; the client gets a 500. *)
Theorem C218_refuted : ~ C218_statement.
Proof. intros H. destruct (H dedup 599%Z JNull None dedup_order ltac:(lia) Logic.I) as (x & E & _). vm_compute in E. discriminate. Qed.
Print Assumptions C218_refuted.
Theorem C218_json_refuted : ~ C218_statement.
Proof.
  intros H. destruct (H dedup 499%Z (JArr [JInt 1]) None dedup_order ltac:(lia) ltac:(cbn; tauto)) as (x & E & _). vm_compute in E. discriminate.
Qed.
Print Assumptions C218_json_refuted.
(** Exactly when it works, and then the exception has the status. *)
Theorem C218_partial : forall order st detail headers, (100 <= st <= 599)%Z -> sendable detail ->
  ((exists x, abort order st detail headers = Some x) <-> In st (map fst phrases) \/ (exists s, detail = JStr s /\ s <> [])) /\
  (forall x, abort order st detail headers = Some x -> x_status x = st /\ x_mro x = k_mro HTTPException).
Proof.
  intros order st detail headers R S. assert (NZ : st <> 0%Z) by lia.
  assert (KN : forall h r d, falsy d = true -> (exists x, construct HTTPException [] (Some st) d h r = Some x) <-> In st (map fst phrases)).
  { intros h r d F. unfold construct. rewrite F. cbn [k_detail HTTPException falsy]. rewrite or_given by exact NZ. split.
    - intros (x & E). destruct (in_dec Z.eq_dec st (map fst phrases)) as [I|I]; [exact I|]. now rewrite (phrase_none st I) in E.
    - intros I. destruct (phrase_some st I) as (p & ->). eexists. reflexivity. }
  assert (ST : forall h r d x, construct HTTPException [] (Some st) d h r = Some x -> x_status x = st /\ x_mro x = k_mro HTTPException).
  { intros h r d x. unfold construct. rewrite or_given by exact NZ. destruct (falsy (if falsy d then _ else d)).
    - destruct (phrase st); [|discriminate]. intros E. assert (X := f_equal (option_map x_status) E). assert (Y := f_equal (option_map x_mro) E). cbn in X, Y. split; cbn; congruence.
    - intros E. assert (X := f_equal (option_map x_status) E). assert (Y := f_equal (option_map x_mro) E). cbn in X, Y. split; cbn; congruence. }
  destruct detail as [| | | |s|l|l]; try contradiction.
  - change (abort order st JNull headers) with (construct HTTPException [] (Some st) JNull headers None).
    split; [|intros x; apply ST]. rewrite KN by reflexivity. split; [now left|]. intros [I|(s & E & _)]; [exact I | discriminate].
  - destruct (body_text s S) as (b & B & D). change (abort order st (JStr s) headers) with (match body_of false (CValue (JStr s)) with
      | Some b => let '(ms, after) := response order st b None headers in construct HTTPException [] (Some st) (JStr s) after (Some ms) | None => None end).
    rewrite B. rewrite (surjective_pairing (response order st b None headers)). split; [|intros x; apply ST].
    destruct s as [|c s].
    + rewrite KN by reflexivity. split; [now left|]. intros [I|(s & E & NE)]; [exact I | congruence].
    + split; [intros _; right; exists (c :: s); split; [reflexivity | discriminate]|]. intros _. rewrite construct_text by (exact NZ || reflexivity). eexists. reflexivity.
  - destruct S as [PR PS]. destruct (C105_json_written (JArr l) PR) as ((J & _) & _). unfold abort. destruct (json_body (JArr l)) as [b|]; [|exfalso; now apply J].
    rewrite (surjective_pairing (response order st b _ headers)). split; [|intros x; apply ST].
    rewrite KN by reflexivity. split; [now left|]. intros [I|(s & E & _)]; [exact I | discriminate].
  - destruct S as [PR PS]. destruct (C105_json_written (JObj l) PR) as ((J & _) & _). unfold abort. destruct (json_body (JObj l)) as [b|]; [|exfalso; now apply J].
    rewrite (surjective_pairing (response order st b _ headers)). split; [|intros x; apply ST].
    rewrite KN by reflexivity. split; [now left|]. intros [I|(s & E & _)]; [exact I | discriminate].
Qed.
Print Assumptions C218_partial.
Example C218_case : sendable (JStr (u "Slow down")) /\ In 429%Z (map fst phrases) /\ ~ In 499%Z (map fst phrases) /\ abort dedup 499 (JStr (u "closed")) None <> None.
Proof.
  refine (conj _ (conj _ (conj _ _))).
  - apply Forall_forall. intros c I. vm_compute in I. unfold scalar. lia.
  - vm_compute. tauto.
  - vm_compute. intuition discriminate.
  - vm_compute. discriminate.
Qed.
(** What the client gets then. *)
Theorem C218_answer : forall order headers intercept wrapped,
  abort order 599 JNull headers = None /\
  exists h b, fst (application plain false intercept wrapped [] [] ([], Some (py_error plain))) = [AStart 500 h; ABody b false].
Proof. intros order headers intercept wrapped. split; [reflexivity|]. destruct intercept, wrapped; vm_compute; eauto. Qed.
Print Assumptions C218_answer.

(** * C219: the detail of an http exception is the text of the answer *)
(** The status an exception is to have: the one given, else that of its class, else 500. *)
Inductive asked (c : cls) : option Z -> Z -> Prop :=
| as_given z : z <> 0%Z -> asked c (Some z) z
| as_class z : k_status c = Some z -> z <> 0%Z -> asked c None z
| as_default : k_status c = None -> asked c None 500.
Lemma asked_status c status st : asked c status st -> or_status status (k_status c) = st.
Proof.
  intros [z Z|z K Z|K]; unfold or_status.
  - destruct (Z.eqb_spec z 0); [contradiction | reflexivity].
  - rewrite K. destruct (Z.eqb_spec z 0); [contradiction | reflexivity].
  - now rewrite K.
Qed.
Lemma plain_answer order x s : x_response x = None -> x_detail x = JStr s -> Forall scalar s -> x_status x <> 204%Z -> x_status x <> 304%Z ->
  exists h b, default_response order x = Some [AStart (x_status x) h; ABody b false] /\ utf8_dec b = s.
Proof.
  intros R D S A B. destruct (body_text s S) as (b & E & T). unfold default_response. rewrite R. apply Z.eqb_neq in A, B. rewrite A, B. cbn [orb]. rewrite D.
  replace (body_of false (CValue (JStr s))) with (Some b) by (symmetry; exact E). eexists _, b. split; [reflexivity | exact T].
Qed.
Theorem C219_detail : forall order c args status st s headers, asked c status st -> Forall scalar s -> s <> [] ->
  exists x, construct c args status (JStr s) headers None = Some x /\ x_status x = st /\ x_detail x = JStr s /\ x_headers x = headers /\ x_mro x = k_mro c /\
    (st <> 204%Z -> st <> 304%Z -> exists h b, default_response order x = Some [AStart st h; ABody b false] /\ utf8_dec b = s).
Proof.
  intros order c args status st s headers A S NE. apply asked_status in A. destruct s as [|k s]; [congruence|].
  exists {| x_mro := k_mro c; x_status := st; x_detail := JStr (k :: s); x_headers := headers; x_response := None |}.
  split; [unfold construct; cbn [falsy]; now rewrite A|]. cbn [x_status x_detail x_headers x_mro]. refine (conj eq_refl (conj eq_refl (conj eq_refl (conj eq_refl _)))).
  intros B C. now apply plain_answer.
Qed.
Print Assumptions C219_detail.
(** Without any text the phrase of the status is sent, or the text of the class. *)
Theorem C219_default : forall order c status st headers, asked c status st -> In st (map fst phrases) -> (forall t, k_detail c = Some t -> Forall scalar t /\ t <> []) ->
  exists x s, construct c [] status JNull headers None = Some x /\ x_status x = st /\ x_detail x = JStr s /\
    (k_detail c = Some s \/ k_detail c = None /\ In (st, s) phrases) /\
    (st <> 204%Z -> st <> 304%Z -> exists h b, default_response order x = Some [AStart st h; ABody b false] /\ utf8_dec b = s).
Proof.
  intros order c status st headers A I T. apply asked_status in A. destruct (k_detail c) as [[|k t]|] eqn:K.
  - destruct (T [] eq_refl) as [_ X]. congruence.
  - destruct (T _ eq_refl) as [S _].
    exists {| x_mro := k_mro c; x_status := st; x_detail := JStr (k :: t); x_headers := headers; x_response := None |}, (k :: t).
    split; [unfold construct; cbn [falsy]; rewrite K; cbn [falsy]; now rewrite A|].
    refine (conj eq_refl (conj eq_refl (conj (or_introl eq_refl) _))). intros B C. now apply plain_answer.
  - destruct (phrase_some st I) as (p & P). pose proof (phrase_in st p P) as J. pose proof phrases_plain as PL. rewrite Forall_forall in PL. destruct (PL _ J) as [S _].
    exists {| x_mro := k_mro c; x_status := st; x_detail := JStr p; x_headers := headers; x_response := None |}, p.
    split; [unfold construct; cbn [falsy]; rewrite K; cbn [falsy]; rewrite A, P; reflexivity|].
    refine (conj eq_refl (conj eq_refl (conj (or_intror (conj eq_refl J)) _))). intros B C. now apply plain_answer.
Qed.
Print Assumptions C219_default.
Example C219_case :
  asked NotFound None 404 /\ asked HTTPException (Some 418%Z) 418 /\ asked HTTPException None 500 /\
  option_map (default_response dedup) (construct PermissionDenied [] None (JStr (u "Not yours")) None None) =
    Some (Some [AStart 403 [(u "content-length", u "9"); (u "content-type", u "text/plain; charset=utf-8")]; ABody (u "Not yours") false]).
Proof. refine (conj _ (conj _ (conj _ _))); [now apply as_class | now apply as_given | now apply as_default | vm_compute; reflexivity]. Qed.

(** * C220: the message given first is the text of the answer *)
Definition lilya_classes : list cls := [HTTPException; ImproperlyConfigured; NotAuthorized; NotFound; MethodNotAllowed; PermissionDenied; UnprocessableEntity].
Definition C220_statement : Prop := forall c s more, In c lilya_classes -> Forall scalar s -> s <> [] ->
  exists x, construct c (JStr s :: more) None JNull None None = Some x /\ x_detail x = JStr s.
(** The classes with a text of their own drop the message. *)
Theorem C220_refuted : ~ C220_statement.
Proof.
  intros H. destruct (H NotFound (u "No such user") [] ltac:(cbn; tauto)) as (x & E & D).
  - apply Forall_forall. intros c I. vm_compute in I. unfold scalar. lia.
  - discriminate.
  - assert (X := f_equal (option_map x_detail) E). cbn [option_map] in X. rewrite D in X. vm_compute in X. discriminate.
Qed.
Print Assumptions C220_refuted.
Theorem C220_partial : forall order c s more status st headers, asked c status st -> Forall scalar s -> s <> [] ->
  (k_detail c = None -> exists x, construct c (JStr s :: more) status JNull headers None = Some x /\ x_status x = st /\ x_detail x = JStr s /\
     (st <> 204%Z -> st <> 304%Z -> exists h b, default_response order x = Some [AStart st h; ABody b false] /\ utf8_dec b = s)) /\
  (forall t, k_detail c = Some t -> t <> [] -> exists x, construct c (JStr s :: more) status JNull headers None = Some x /\ x_status x = st /\ x_detail x = JStr t).
Proof.
  intros order c s more status st headers A S NE. apply asked_status in A. split.
  - intros K. exists {| x_mro := k_mro c; x_status := st; x_detail := JStr s; x_headers := headers; x_response := None |}.
    split; [unfold construct; cbn [falsy]; rewrite K; cbn [falsy]; now rewrite A|]. refine (conj eq_refl (conj eq_refl _)). intros B C. now apply plain_answer.
  - intros [|k t] K T; [congruence|]. exists {| x_mro := k_mro c; x_status := st; x_detail := JStr (k :: t); x_headers := headers; x_response := None |}.
    split; [unfold construct; cbn [falsy]; rewrite K; cbn [falsy]; now rewrite A|]. split; reflexivity.
Qed.
Print Assumptions C220_partial.
Example C220_case : map (fun c => match construct c [JStr (u "msg")] None JNull None None with Some x => x_detail x | None => JNull end) lilya_classes =
  [JStr (u "msg"); JStr (u "msg"); JStr (u "Not Authorized."); JStr (u "The resource cannot be found."); JStr (u "msg");
   JStr (u "You do not have permission to perform this action."); JStr (u "msg")].
Proof. vm_compute. reflexivity. Qed.

(** * C221: the JSON shortcuts send what they are given *)
(** The value a call of jsonify stands for. *)
Inductive stands_for : list jvalue -> dict jvalue -> jvalue -> Prop :=
| sf_one v : stands_for [v] [] v
| sf_many a b r : stands_for (a :: b :: r) [] (JArr (a :: b :: r))
| sf_named kw : stands_for [] kw (JObj kw).
Lemma dumps_body v : proper v -> presentable v -> exists t b, dumps v = Some t /\ body_of false (CValue (JStr t)) = Some b /\ request_json b = Some v.
Proof.
  intros P PS. destruct (C105_json_written v P) as ((J & _) & RD & _). specialize (J PS). unfold json_body in *. destruct (dumps v) as [t|]; [|congruence].
  destruct (encode t) as [b|] eqn:E; [|congruence]. destruct (RD b eq_refl) as (_ & _ & _ & R). exists t, b. split; [reflexivity|]. split; [|exact R].
  unfold body_of. destruct t as [|c t]; [exact E | exact E].
Qed.
Lemma cookies_perform cookies : forall o, fold_left add_cookie cookies o = fold_left perform (map (fun kv => Put (plain_cookie kv)) cookies) o.
Proof. induction cookies as [|kv r IH]; intros o; [reflexivity|]. cbn [fold_left map]. rewrite IH. f_equal. Qed.
Lemma cookies_expect cookies : forall d, NoDup (dkeys d ++ dkeys cookies) -> fold_left expect (map (fun kv => Put (plain_cookie kv)) cookies) d = d ++ cookies.
Proof.
  induction cookies as [|[k v] r IH]; intros d N; [symmetry; apply app_nil_r|]. cbn [map fold_left expect plain_cookie c_key c_value fst snd].
  assert (X : ~ In k (dkeys d)). { cbn [dkeys map fst] in N. apply NoDup_remove in N. intros I. apply (proj2 N). apply in_or_app. now left. }
  rewrite dset_new by exact X. rewrite IH; [now rewrite <- app_assoc|]. unfold dkeys in *. rewrite map_app, <- app_assoc. exact N.
Qed.
Theorem C221_jsonify : forall order args kwargs v st headers cookies, set_order order ->
  stands_for args kwargs v -> proper v -> presentable v ->
  NoDup (dkeys cookies) -> Forall (fun kv => usable_name (fst kv) /\ ~ In 37%N (snd kv)) cookies ->
  (forall k, In k (dkeys (given headers)) -> lower k <> u "set-cookie") ->
  exists h b, jsonify order args kwargs st headers cookies = Some [AStart st h; ABody b false] /\
    request_json b = Some v /\
    request_cookies order (client_send (fold_left client_store (values (u "set-cookie") h) [])) = cookies.
Proof.
  intros order args kwargs v st headers cookies O SF P PS ND CK HK.
  destruct (dumps_body v P PS) as (t & b & D & B & R).
  assert (HK' : forall k, In k (map fst (fst (make_headers st b (u "utf-8") (Some (u "application/json")) (given headers)))) -> lower k <> u "set-cookie").
  { intros k I. apply in_map_iff in I. destruct I as ((k', w) & E & I). cbn [fst] in E. subst k'. apply made_keys in I. destruct I as [I|(_ & [-> | ->])].
    - apply HK. apply in_map_iff. exists (k, w). auto.
    - vm_compute. discriminate.
    - vm_compute. discriminate. }
  destruct (C24_round_trip_partial order (map (fun kv => Put (plain_cookie kv)) cookies) (fst (make_headers st b (u "utf-8") (Some (u "application/json")) (given headers))) O) as (h & F & E).
  - apply Forall_forall. intros c I. apply in_map_iff in I. destruct I as (kv & <- & I). rewrite Forall_forall in CK. destruct (CK kv I) as [U _].
    exact (plain_usable (fst kv) (snd kv) U).
  - intros c I. apply in_map_iff in I. destruct I as (kv & Q & I). assert (plain_cookie kv = c) as <- by congruence. rewrite Forall_forall in CK. exact (proj2 (CK kv I)).
  - exact HK'.
  - exists (wire order h), b. split; [|split; [exact R | rewrite E; now apply cookies_expect]].
    assert (J : jsonify order args kwargs st headers cookies = match dumps v with
      | Some t => match body_of false (CValue (JStr t)) with
          | Some b => match fold_left add_cookie cookies (Some (fst (make_headers st b (u "utf-8") (Some (u "application/json")) (given headers)))) with
                      | Some h => Some (HeaderModel.respond order st h b) | None => None end
          | None => None end
      | None => None end).
    { destruct SF as [w|a c r|kw]; [reflexivity | reflexivity | destruct kw; reflexivity]. }
    rewrite J, D, B. rewrite cookies_perform. match goal with |- match ?f with _ => _ end = _ => replace f with (Some h) by (symmetry; exact F) end. reflexivity.
Qed.
Print Assumptions C221_jsonify.
(** Positional and named values together are refused. *)
Theorem C221_not_both : forall order a args kv kwargs st headers cookies, jsonify order (a :: args) (kv :: kwargs) st headers cookies = None.
Proof. reflexivity. Qed.
Print Assumptions C221_not_both.
Example C221_case :
  jsonify dedup [] [(u "id", JInt 7)] 201 None [(u "sid", u "a b")] =
    Some [AStart 201 [(u "content-length", u "8"); (u "content-type", u "application/json"); (u "set-cookie", u "sid=""a b""; Path=/; SameSite=lax")];
          ABody (u "{""id"":7}") false] /\
  option_map (fun ms => abytes ms) (jsonify dedup [JInt 1; JStr (u "x")] [] 200 None []) = Some (u "[1,""x""]") /\ usable_name (u "sid").
Proof. refine (conj _ (conj _ _)); [vm_compute; reflexivity | vm_compute; reflexivity | apply name_usable; [discriminate | reflexivity | reflexivity]]. Qed.
(** The error shortcuts: the message under "error", or the object itself, with their status. *)
Theorem C221_errors : forall order headers st,
  (forall v, proper v -> presentable v -> exists h b, AbtModel.send_json order v st headers = Some [AStart st h; ABody b false] /\ request_json b = Some v) /\
  (forall v, proper v -> presentable v -> (forall s, v <> JStr s) -> exists h b, json_error order v st headers = Some [AStart st h; ABody b false] /\ request_json b = Some v) /\
  (forall m, Forall scalar m ->
     (exists h b, json_error order (JStr m) st headers = Some [AStart st h; ABody b false] /\ request_json b = Some (JObj [(u "error", JStr m)])) /\
     (exists h b, unauthorized order m headers = Some [AStart 401 h; ABody b false] /\ request_json b = Some (JObj [(u "error", JStr m)])) /\
     (exists h b, forbidden order m headers = Some [AStart 403 h; ABody b false] /\ request_json b = Some (JObj [(u "error", JStr m)])) /\
     (exists h b, not_found order m headers = Some [AStart 404 h; ABody b false] /\ request_json b = Some (JObj [(u "error", JStr m)]))).
Proof.
  intros order headers st.
  assert (SJ : forall st v, proper v -> presentable v -> exists h b, AbtModel.send_json order v st headers = Some [AStart st h; ABody b false] /\ request_json b = Some v).
  { intros st' v P PS. destruct (C105_json_written v P) as ((J & _) & RD & _). specialize (J PS). unfold AbtModel.send_json. destruct (json_body v) as [b|]; [|congruence].
    destruct (RD b eq_refl) as (_ & _ & _ & R). eexists _, b. split; [reflexivity | exact R]. }
  refine (conj (SJ st) (conj _ _)).
  - intros v P PS N. destruct v as [| | | |s|l|l]; try (exact (SJ st _ P PS)). now destruct (N s).
  - intros m S. assert (PP : proper (JObj [(u "error", JStr m)]) /\ presentable (JObj [(u "error", JStr m)])).
    { cbn [proper presentable map fst snd fold_right]. rewrite Forall_forall in S. split.
      - split; [constructor; [intros [] | constructor]|]. refine (conj (conj _ _) Logic.I); intros c I; [vm_compute in I; lia | destruct (S c I); lia].
      - refine (conj (conj _ _) Logic.I); intros c I; [vm_compute in I; lia | destruct (S c I); lia]. }
    destruct PP as [P PS]. refine (conj (SJ st _ P PS) (conj (SJ 401%Z _ P PS) (conj (SJ 403%Z _ P PS) (SJ 404%Z _ P PS)))).
Qed.
Print Assumptions C221_errors.

(** * C222: send_file names the download *)
(** The last component of a path: after it come only empty components and single dots. *)
Definition last_component (p name : str) : Prop :=
  exists front back, p = front ++ name ++ back /\ (front = [] \/ exists f, front = f ++ u "/") /\ ~ In 47%N name /\
    name <> [] /\ name <> u "." /\ (back = [] \/ exists l, l <> [] /\ back = u "/" ++ join (u "/") l /\ Forall (fun c => c = [] \/ c = u ".") l).
Lemma split_front f s : split_char 47%N (f ++ 47%N :: s) = split_char 47%N f ++ split_char 47%N s.
Proof.
  remember (split_char 47%N f) as l eqn:E. assert (J : f = join [47%N] l) by (subst l; symmetry; apply join_split_char).
  assert (F : forall w, In w l -> ~ In 47%N w) by (intros w I; subst l; now apply (split_char_parts_free 47%N f)).
  assert (N : l <> []) by (subst l; apply split_char_nonnil). clear E. subst f. induction l as [|w l IH]; [congruence|].
  destruct l as [|w' l].
  - cbn [join]. rewrite split_char_app by (apply F; now left). reflexivity.
  - change (join [47%N] (w :: w' :: l)) with (w ++ [47%N] ++ join [47%N] (w' :: l)). rewrite <- !app_assoc. cbn [app]. rewrite split_char_app by (apply F; now left).
    f_equal. apply IH; [intros x I; apply F; now right | discriminate].
Qed.
Lemma name_found p name : last_component p name -> path_name p = name.
Proof.
  intros (front & back & -> & FR & F & NE & ND & BK). unfold path_name.
  set (keep := fun c => negb (seqb c []) && negb (seqb c (u "."))).
  assert (KN : keep name = true). { unfold keep. rewrite (proj2 (seqb_neq name []) NE), (proj2 (seqb_neq name (u ".")) ND). reflexivity. }
  assert (B : filter keep (split_char 47%N (name ++ back)) = [name]).
  { destruct BK as [-> | (l & LN & -> & J)].
    - rewrite app_nil_r, split_char_free by exact F. cbn [filter]. now rewrite KN.
    - change (u "/") with [47%N]. cbn [app]. rewrite split_char_app by exact F. cbn [filter]. rewrite KN. f_equal.
      rewrite split_char_join.
      + rewrite Forall_forall in J. clear -J. induction l as [|w l IH]; [reflexivity|]. cbn [filter].
        assert (keep w = false) as -> by (destruct (J w (or_introl eq_refl)) as [-> | ->]; reflexivity). apply IH. intros x I. apply J. now right.
      + exact LN.
      + rewrite Forall_forall in J. intros w I. destruct (J w I) as [-> | ->]; [intros [] | intros [X|[]]; discriminate]. }
  destruct FR as [-> | (f & ->)].
  - cbn [app]. now rewrite B.
  - rewrite <- app_assoc. change (u "/" ++ name ++ back) with (47%N :: name ++ back). rewrite split_front, filter_app, B. apply last_last.
Qed.
Theorem C222_names : forall s chosen max_age name,
  (exists n, chosen = Some n /\ n <> [] /\ name = n) \/
  (chosen = None /\ match s with Path p => last_component p name | _ => name = u "download" end) ->
  Forall scalar name -> ~ In 47%N name ->
  exists h, dget (u "content-disposition") (snd (send_file s true chosen max_age)) = Some h /\ header_text h /\ understand [] h = Some (u "attachment", Some name).
Proof.
  intros s chosen max_age name W S F.
  assert (E : text_or chosen (match s with Path p => path_name p | _ => u "download" end) = name).
  { destruct W as [(n & -> & NE & ->)|(-> & W)].
    - destruct n; [congruence | reflexivity].
    - cbn [text_or]. destruct s; try (symmetry; exact W). now apply name_found. }
  destruct (C111_filename_partial (Some (u "attachment")) name ltac:(cbn; tauto) S) as (h & D & T & _ & U). exists h.
  split; [|split; [exact T | apply U; now left]]. unfold send_file. cbn [snd]. rewrite E.
  destruct (C111_header_kept (Some (u "attachment")) (Some name) (match max_age with Some n => [(u "Cache-Control", u "public, max-age=" ++ decz n)] | None => [] end) (u "x")) as [_ X].
  etransitivity; [apply X | exact D]. destruct max_age; reflexivity.
Qed.
Print Assumptions C222_names.
(** Without [as_attachment] the content is shown; [max_age] is the only cache header; and paths and named files allow
    range requests, bytes and other files do not. *)
Theorem C222_rest : forall s chosen max_age as_attachment,
  dget (u "content-disposition") (snd (send_file s false chosen max_age)) = Some (u "inline") /\
  dget (u "Cache-Control") (snd (send_file s as_attachment chosen max_age)) = option_map (fun n => u "public, max-age=" ++ decz n) max_age /\
  (fst (send_file s as_attachment chosen max_age) = FileResponse <-> exists p, s = Path p \/ s = Named).
Proof.
  intros s chosen max_age att. unfold send_file. cbn [fst snd]. refine (conj _ (conj _ _)).
  - destruct max_age; reflexivity.
  - match goal with |- dget _ (add_disposition ?t ?f ?h) = _ => destruct (C111_header_kept t f h (u "Cache-Control")) as [X _] end.
    etransitivity; [apply X; left; vm_compute; discriminate | destruct max_age; reflexivity].
  - destruct s; cbn [simple_file]; split; intros H; try discriminate; try (destruct H as (q & [H|H]); discriminate); try reflexivity; exists p || exists []; tauto.
Qed.
Print Assumptions C222_rest.
Example C222_case :
  last_component (u "/srv/files/report.pdf/./") (u "report.pdf") /\
  send_file (Path (u "/srv/files/r 1.pdf")) true None (Some 60%Z) =
    (FileResponse, [(u "Cache-Control", u "public, max-age=60"); (u "content-disposition", u "attachment; filename*=utf-8''r%201.pdf")]).
Proof.
  split; [|vm_compute; reflexivity]. exists (u "/srv/files/"), (u "/./"). refine (conj eq_refl (conj _ (conj _ (conj _ (conj _ _))))).
  - right. exists (u "/srv/files"). reflexivity.
  - apply cmem_not_In. reflexivity.
  - discriminate.
  - discriminate.
  - right. exists [u "."; []]. refine (conj _ (conj eq_refl _)); [discriminate|]. constructor; [now right|]. constructor; [now left | constructor].
Qed.
