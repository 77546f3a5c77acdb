(** Properties of the AI client. *)
From Coq Require Import QArith Lia.
From Verif Require Import PyStr PyStrFacts Utf8 JsonModel JsonSpec JsonProofs SseModel SseSpec SseProofs AiModel AiSpec AiProofs.
Local Open Scope N_scope.

(** * C165: the reader of event streams *)
Definition C165_statement : Prop := forall text, iter_sse [] (splitlines text) true = map ev_data (snd (es_parse text es_init)).
Theorem C165_indent_refuted : ~ C165_statement.
Proof. intros H. specialize (H (u "data:   x" ++ [10; 10])). vm_compute in H. discriminate H. Qed.
(** A line separator inside a JSON text cuts the event. *)
Theorem C165_separator_refuted : exists text, iter_sse [] (splitlines text) true = [u "{""a"":""x"] /\
  map ev_data (snd (es_parse text es_init)) = [u "{""a"":""x" ++ [8232] ++ u "y""}"].
Proof. exists (u "data: {""a"":""x" ++ [8232] ++ u "y""}" ++ [10; 10]). vm_compute. split; reflexivity. Qed.
(** An event that is cut off is delivered. *)
Theorem C165_cut_refuted : exists text, iter_sse [] (splitlines text) true = [u "{""a"":"] /\ map ev_data (snd (es_parse text es_init)) = [].
Proof. exists (u "data: {""a"":"). vm_compute. split; reflexivity. Qed.
Theorem C165_events_partial : forall text,
  (forall c, In c text -> ~ odd_break c) ->
  (text <> [] -> List.last text 0 = 10 \/ List.last text 0 = 13) ->
  (forall l, In l (es_lines [] text) -> l <> u "data" /\ forall v c r, l = u "data:" ++ v -> drop_space v = c :: r -> is_space c = false) ->
  iter_sse [] (splitlines text) true = map ev_data (snd (es_parse text es_init)) ++
    match es_data (fst (es_parse text es_init)) with Some d => [d] | None => [] end.
Proof.
  intros text B E F. unfold splitlines, es_parse. rewrite (lines_agree (length text)); auto. apply run_agrees; [reflexivity|].
  apply Forall_forall. intros l I. destruct (F l I) as [N V]. split; [exact N|]. intros v EQ. specialize (V v). destruct (drop_space v) as [|c r] eqn:D; [exact Logic.I|]. apply (V c r EQ eq_refl).
Qed.
Print Assumptions C165_events_partial.
Example C165_case :
  let text := u ": hi" ++ [13; 10] ++ u "event: x" ++ [10] ++ u "data:{""a"":" ++ [10] ++ u "data: 1}" ++ [10; 10] ++ u "id: 7" ++ [10; 10] ++ u "data: z" ++ [10; 13] in
  iter_sse [] (splitlines text) true = [u "{""a"":" ++ [10] ++ u "1}"; u "z"] /\ es_data (fst (es_parse text es_init)) = None.
Proof. vm_compute. split; reflexivity. Qed.

(** * C166: the request a client makes *)
Definition acceptable (c : client) (ms : list message) (o : options) : Prop :=
  ms <> [] /\ (exists m, preferred (o_model o) (c_model c) m) /\ good_limit (o_max_tokens o) /\ good_temperature (o_temperature o) /\ good_top_p (o_top_p o).
Definition request_of (c : client) (ms : list message) (o : options) (r : request) : Prop :=
  r_messages r = ms /\ (exists m, r_model r = Some m /\ preferred (o_model o) (c_model c) m) /\
  (forall s, given (r_system r) s <-> preferred (o_system o) (c_system c) s) /\
  r_temperature r = o_temperature o /\ r_max_tokens r = o_max_tokens o /\ r_top_p r = o_top_p o /\
  (forall l, o_stop o = Some l -> r_stop r = l) /\ (o_stop o = None -> r_stop r = []) /\
  (forall d, o_metadata o = Some d -> r_metadata r = d) /\ (o_metadata o = None -> r_metadata r = []) /\
  (forall d, o_extra o = Some d -> r_extra r = d) /\ (o_extra o = None -> r_extra r = []).
Lemma preferred_or a b s : given (or_else a b) s <-> preferred a b s.
Proof.
  unfold preferred, given. destruct a as [[|x a]|]; cbn [or_else].
  - split; [intros H; right; split; [intros t [E N]; apply N; congruence | exact H] | intros [[E N]|[_ H]]; [exfalso; apply N; congruence | exact H]].
  - split; [intros [E N]; left; auto | intros [H|[H _]]; [exact H | exfalso; apply (H (x :: a)); split; [reflexivity | discriminate]]].
  - split; [intros H; right; split; [intros t [E _]; discriminate E | exact H] | intros [[E _]|[_ H]]; [discriminate E | exact H]].
Qed.
Lemma limit_ok o : match o with Some n => (n <=? 0)%Z | None => false end = false <-> good_limit o.
Proof. unfold good_limit. destruct o as [n|]; split; intros H; [intros m [= <-]; lia | specialize (H n eq_refl); lia | discriminate | reflexivity]. Qed.
Lemma temperature_ok o : match o with Some t => below t 0 | None => false end = false <-> good_temperature o.
Proof.
  unfold good_temperature. destruct o as [[| n |q]|]; cbn [below]; split; intros H.
  - split; [discriminate | intros q [=]].
  - reflexivity.
  - subst n. split; [discriminate | intros q [=]].
  - destruct H as [H _]. destruct n; [congruence | reflexivity].
  - split; [discriminate|]. intros p [= <-]. apply negb_false_iff in H. now apply Qle_bool_iff.
  - apply negb_false_iff, Qle_bool_iff, H. reflexivity.
  - split; [discriminate | intros q [=]].
  - reflexivity.
Qed.
Lemma top_p_ok o : match o with Some t => negb (within01 t) | None => false end = false <-> good_top_p o.
Proof.
  unfold good_top_p. destruct o as [x|]; [|split; [discriminate | reflexivity]]. rewrite negb_false_iff. split.
  - intros H y [= <-]. destruct x as [| |q]; try discriminate H. cbn [within01] in H. apply andb_true_iff in H. destruct H as [A B]. exists q. rewrite <- !Qle_bool_iff. auto.
  - intros H. destruct (H x eq_refl) as (q & -> & A & B). cbn [within01]. apply andb_true_iff. split; now apply Qle_bool_iff.
Qed.
Theorem C166_client : forall R (c : client) (provider : request -> result R) ms o,
  (acceptable c ms o /\ exists r, request_of c ms o r /\ chat c provider ms o = ([r], provider r)) \/
  (~ acceptable c ms o /\ chat c provider ms o = ([], Raises AIConfigurationError)).
Proof.
  intros R c prov ms o. unfold chat, build_request, acceptable. destruct ms as [|m0 ms]; [right; split; [tauto | reflexivity]|].
  destruct (or_else (o_model o) (c_model c)) as [[|x m]|] eqn:OE.
  - right. split; [|reflexivity]. intros (_ & (m & P) & _). apply preferred_or in P. rewrite OE in P. destruct P as [P1 P2]. injection P1 as <-. now apply P2.
  - assert (P : preferred (o_model o) (c_model c) (x :: m)) by (apply preferred_or; rewrite OE; split; [reflexivity | discriminate]).
    unfold post_init. cbn [r_messages r_max_tokens r_temperature r_top_p].
    destruct (match o_max_tokens o with Some n => (n <=? 0)%Z | None => false end) eqn:E1.
    { right. split; [|reflexivity]. intros (_ & _ & L & _). apply limit_ok in L. congruence. }
    destruct (match o_temperature o with Some t => below t 0 | None => false end) eqn:E2.
    { right. split; [|reflexivity]. intros (_ & _ & _ & L & _). apply temperature_ok in L. congruence. }
    destruct (match o_top_p o with Some t => negb (within01 t) | None => false end) eqn:E3.
    { right. split; [|reflexivity]. intros (_ & _ & _ & _ & L). apply top_p_ok in L. congruence. }
    left. split.
    + refine (conj _ (conj _ (conj _ (conj _ _)))); [discriminate | eauto | now apply limit_ok | now apply temperature_ok | now apply top_p_ok].
    + eexists. split; [|reflexivity]. unfold request_of. cbn [r_messages r_model r_system r_temperature r_max_tokens r_top_p r_stop r_metadata r_extra].
      refine (conj eq_refl (conj _ (conj _ (conj eq_refl (conj eq_refl (conj eq_refl _)))))); [eauto | intros s; apply preferred_or|].
      refine (conj _ (conj _ (conj _ (conj _ (conj _ _))))); intros; match goal with H : _ = _ |- _ => rewrite H; reflexivity end.
  - right. split; [|reflexivity]. intros (_ & (m & P) & _). apply preferred_or in P. rewrite OE in P. destruct P. discriminate.
Qed.
Print Assumptions C166_client.
(** A prompt is a chat of one message of the user, and a new system prompt changes nothing else. *)
Theorem C166_prompt : forall R (c : client) (provider : request -> result R) text o,
  prompt c provider text o = chat c provider [mkMsg (u "user") text None None] o.
Proof. reflexivity. Qed.
Theorem C166_system_prompt : forall c ms o r s, build_request c ms o = Fine r ->
  exists r', with_system_prompt r s = Fine r' /\ r_system r' = s /\ r_messages r' = r_messages r /\ r_model r' = r_model r /\ r_temperature r' = r_temperature r /\
    r_max_tokens r' = r_max_tokens r /\ r_top_p r' = r_top_p r /\ r_stop r' = r_stop r /\ r_metadata r' = r_metadata r /\ r_extra r' = r_extra r.
Proof.
  intros c ms o r s E. unfold build_request in E. destruct ms as [|m0 ms]; [discriminate|].
  destruct (or_else (o_model o) (c_model c)) as [[|x m]|]; try discriminate. unfold post_init in E. cbn [r_messages r_max_tokens r_temperature r_top_p] in E.
  destruct (match o_max_tokens o with Some n => (n <=? 0)%Z | None => false end) eqn:E1; [discriminate|].
  destruct (match o_temperature o with Some t => below t 0 | None => false end) eqn:E2; [discriminate|].
  destruct (match o_top_p o with Some t => negb (within01 t) | None => false end) eqn:E3; [discriminate|].
  injection E as <-. unfold with_system_prompt, post_init. cbn [r_messages r_model r_system r_temperature r_max_tokens r_top_p r_stop r_metadata r_extra]. rewrite E1, E2, E3.
  eexists. split; [reflexivity|]. repeat split.
Qed.
Print Assumptions C166_system_prompt.
Example C166_case : forall R (p : request -> result R),
  let c := mkClient (Some (u "m1")) (Some (u "be brief")) in
  (exists r, chat c p [user (u "hi")] (mkOpt None (Some []) (Some (Num 0)) (Some 5%Z) (Some (Num 1)) None None None) = ([r], p r) /\ r_model r = Some (u "m1") /\ r_system r = Some (u "be brief")) /\
  chat c p [user (u "hi")] (mkOpt None None None (Some 0%Z) None None None None) = ([], Raises AIConfigurationError) /\
  chat c p [user (u "hi")] (mkOpt None None None None (Some NaN) None None None) = ([], Raises AIConfigurationError) /\
  chat c p [] (mkOpt None None None None None None None None) = ([], Raises AIConfigurationError).
Proof. intros R p c. split; [eexists; split; [reflexivity | split; reflexivity] | repeat split]. Qed.
(** A temperature that is not a number is let through, and a default system prompt cannot be turned off by the empty one. *)
Example C166_nan : exists r, build_request (mkClient (Some (u "m")) None) [user (u "hi")] (mkOpt None None (Some NaN) None None None None None) = Fine r.
Proof. eexists. reflexivity. Qed.

(** * C167: what is sent to a chat completions API *)
Section Payload.
Context (fj : float -> jvalue).
Lemma openai_message_says m : openai_says m (openai_message m).
Proof.
  unfold openai_says, openai_message. eexists. split; [reflexivity|].
  assert (G : forall k o d, (forall v, dget k d <> Some v) -> forall v, dget k (set_if k JStr (text_set o) d) = Some v <-> exists s, given o s /\ v = JStr s).
  { intros k o d N v. rewrite get_set_if, seqb_refl. destruct (text_set o) as [s|] eqn:T.
    - apply text_set_given in T. split; [intros [= <-]; eauto | intros (s' & G & ->); destruct T, G; congruence].
    - split; [intros E; now apply N in E | intros (s & G & _); apply text_set_given in G; congruence]. }
  refine (conj _ (conj _ (conj _ (conj _ (conj _ _))))).
  - destruct (text_set (m_name m)); destruct (text_set (m_tool m)); cbn [set_if]; vm_compute; repeat (constructor; [cbn; intuition discriminate|]); constructor.
  - intros k. destruct (text_set (m_name m)); destruct (text_set (m_tool m)); cbn [set_if]; vm_compute; tauto.
  - rewrite !get_set_if. reflexivity.
  - rewrite !get_set_if. reflexivity.
  - intros v. rewrite get_set_if. change (seqb (u "name") (u "tool_call_id")) with false. cbv iota. apply G. intros v'. vm_compute. discriminate.
  - intros v. apply G. intros v'. rewrite get_set_if. vm_compute. discriminate.
Qed.
Lemma anthropic_message_says m : anthropic_says m (anthropic_message m).
Proof.
  unfold anthropic_says, anthropic_message. eexists. split; [reflexivity|].
  refine (conj _ (conj _ (conj _ (conj _ _)))).
  - destruct (text_set (m_name m)); cbn [set_if]; vm_compute; repeat (constructor; [cbn; intuition discriminate|]); constructor.
  - intros k. destruct (text_set (m_name m)); cbn [set_if]; vm_compute; tauto.
  - rewrite !get_set_if. reflexivity.
  - rewrite !get_set_if. reflexivity.
  - intros v. rewrite get_set_if, seqb_refl. destruct (text_set (m_name m)) as [s|] eqn:T.
    + apply text_set_given in T. split; [intros [= <-]; eauto | intros (s' & G & ->); destruct T, G; congruence].
    + split; [vm_compute; discriminate | intros (s & G & _); apply text_set_given in G; congruence].
Qed.
Lemma all_say {A B} (P : A -> B -> Prop) f l : (forall x, P x (f x)) -> Forall2 P l (map f l).
Proof. intros H. induction l; cbn; constructor; auto. Qed.
Lemma openai_payload_fine r stream p : openai_payload fj r stream = Fine p -> exists model,
  given (r_model r) model /\ p = dupdate (
    set_if (u "metadata") JObj (nonempty (r_metadata r)) (set_if (u "stop") (fun l => JArr (map JStr l)) (nonempty (r_stop r))
      (set_if (u "top_p") fj (r_top_p r) (set_if (u "max_tokens") JInt (r_max_tokens r) (set_if (u "temperature") fj (r_temperature r)
        [(u "model", JStr model); (u "messages", JArr (openai_messages (r_messages r) (r_system r))); (u "stream", JBool stream)]))))) (r_extra r).
Proof.
  unfold openai_payload. destruct (text_set (r_model r)) as [model|] eqn:T; [|discriminate]. intros E. injection E as <-. exists model. split; [now apply text_set_given | reflexivity].
Qed.
Lemma dget_in k v (d : dict jvalue) : NoDup (map fst d) -> In (k, v) d -> dget k d = Some v.
Proof.
  induction d as [|[k' v'] d IH]; intros ND I; [destruct I|]. cbn [map fst] in ND. inversion ND; subst.
  cbn [dget]. destruct I as [I|I]; [injection I as -> ->; now rewrite seqb_refl|]. destruct (seqb_spec k k') as [EQ|NE]; [|now apply IH].
  subst. exfalso. apply H1. apply in_map_iff. now exists (k', v).
Qed.
Lemma some_inj {A} (x y : A) : Some x = Some y -> x = y.
Proof. congruence. Qed.
Theorem C167_payload : forall r stream, NoDup (map fst (r_extra r)) ->
  ((forall m, ~ given (r_model r) m) -> openai_payload fj r stream = Raises AIConfigurationError) /\
  (forall m, given (r_model r) m -> exists p, openai_payload fj r stream = Fine p /\
     (forall k v, In (k, v) (r_extra r) -> dget k p = Some v) /\
     (forall k v, ~ In k (map fst (r_extra r)) -> k <> u "messages" -> (dget k p = Some v <-> openai_asks fj r stream k v)) /\
     (~ In (u "messages") (map fst (r_extra r)) -> exists l, dget (u "messages") p = Some (JArr l) /\ openai_conversation r l)).
Proof.
  intros r stream ND. split.
  - intros H. unfold openai_payload. rewrite (proj2 (text_set_none _) H). reflexivity.
  - intros m G. destruct (openai_payload fj r stream) as [p|e] eqn:E; [|unfold openai_payload in E; rewrite (proj2 (text_set_given _ _) G) in E; discriminate].
    exists p. split; [reflexivity|]. apply openai_payload_fine in E. destruct E as (m' & G' & ->). assert (m' = m) by (destruct G, G'; congruence). subst m'.
    refine (conj _ (conj _ _)).
    + intros k v I. rewrite dget_over by exact ND. now rewrite (dget_in k v).
    + intros k v NI NM. rewrite dget_over by exact ND. rewrite (proj2 (dget_None_keys k (r_extra r)) NI). rewrite !get_set_if. cbn [dget]. split.
      * destruct (seqb_spec k (u "metadata")) as [EQ|N1]; [subst k; destruct (nonempty (r_metadata r)) as [x|] eqn:NE; [apply nonempty_some in NE; destruct NE as [NE ->]; intros E; injection E as <-; now constructor | vm_compute; discriminate]|].
        destruct (seqb_spec k (u "stop")) as [EQ|N2]; [subst k; destruct (nonempty (r_stop r)) as [x|] eqn:NE; [apply nonempty_some in NE; destruct NE as [NE ->]; intros E; injection E as <-; now constructor | vm_compute; discriminate]|].
        destruct (seqb_spec k (u "top_p")) as [EQ|N3]; [subst k; destruct (r_top_p r) as [x|] eqn:NE; [intros E; injection E as <-; now constructor | vm_compute; discriminate]|].
        destruct (seqb_spec k (u "max_tokens")) as [EQ|N4]; [subst k; destruct (r_max_tokens r) as [x|] eqn:NE; [intros E; injection E as <-; now constructor | vm_compute; discriminate]|].
        destruct (seqb_spec k (u "temperature")) as [EQ|N5]; [subst k; destruct (r_temperature r) as [x|] eqn:NE; [intros E; injection E as <-; now constructor | vm_compute; discriminate]|].
        destruct (seqb_spec k (u "model")) as [EQ|N6]; [subst k; intros E; injection E as <-; constructor; apply G|].
        destruct (seqb_spec k (u "messages")) as [EQ|N7]; [congruence|].
        destruct (seqb_spec k (u "stream")) as [EQ|N8]; [subst k; intros E; injection E as <-; constructor | discriminate].
      * intros A. destruct A as [m' A| |t A|n A|t A|A|A]; cbv [seqb u]; cbn -[u].
        -- destruct G as [G _]. assert (m' = m) by congruence. subst. reflexivity.
        -- reflexivity.
        -- rewrite A. reflexivity.
        -- rewrite A. reflexivity.
        -- rewrite A. reflexivity.
        -- destruct (r_stop r); [congruence | reflexivity].
        -- destruct (r_metadata r); [congruence | reflexivity].
    + intros NI. rewrite dget_over by exact ND. rewrite (proj2 (dget_None_keys _ (r_extra r)) NI). rewrite !get_set_if.
      exists (openai_messages (r_messages r) (r_system r)). split; [reflexivity|]. unfold openai_conversation, openai_messages.
      destruct (text_set (r_system r)) as [s|] eqn:T.
      * right. exists s, (map openai_message (r_messages r)). refine (conj (proj1 (text_set_given _ _) T) (conj eq_refl _)). apply all_say, openai_message_says.
      * left. split; [now apply text_set_none|]. apply all_say, openai_message_says.
Qed.

(** * C168: what is sent to a messages API *)
Lemma parts_texts r : filter not_empty (match text_set (r_system r) with Some s => [s] | None => [] end ++ map m_content (filter is_system (r_messages r))) = system_texts r.
Proof.
  unfold system_texts. assert (E : forall l, filter not_empty l = filter (fun s : str => negb (seqb s [])) l) by (intros l; apply filter_ext; now intros [|c s]).
  rewrite E, !filter_app. f_equal. destruct (r_system r) as [[|c s]|]; reflexivity.
Qed.
Lemma system_text l : Forall (fun s : str => s <> []) l -> text_set (Some (join [10; 10] l)) = match l with [] => None | _ => Some (join [10; 10] l) end.
Proof. intros F. destruct F as [|x l X F]; [reflexivity|]. destruct x as [|c x]; [congruence|]. rewrite join_cons_hd. reflexivity. Qed.
Lemma anthropic_payload_fine dm r stream p : anthropic_payload fj dm r stream = Fine p -> exists model,
  given (r_model r) model /\ p = dupdate (
    set_if (u "metadata") JObj (nonempty (r_metadata r)) (set_if (u "stop_sequences") (fun l => JArr (map JStr l)) (nonempty (r_stop r))
      (set_if (u "top_p") fj (r_top_p r) (set_if (u "temperature") fj (r_temperature r)
        (set_if (u "system") JStr (match system_texts r with [] => None | _ => Some (join [10; 10] (system_texts r)) end)
        [(u "model", JStr model); (u "messages", JArr (map anthropic_message (filter (fun m => negb (is_system m)) (r_messages r))));
         (u "max_tokens", JInt (match r_max_tokens r with Some n => if (n =? 0)%Z then dm else n | None => dm end)); (u "stream", JBool stream)]))))) (r_extra r).
Proof.
  unfold anthropic_payload. destruct (text_set (r_model r)) as [model|] eqn:T; [|discriminate]. unfold split_system. rewrite split_loop_all. cbn [app]. rewrite parts_texts.
  rewrite system_text by (unfold system_texts; apply Forall_forall; intros s I; apply filter_In in I; destruct I as [_ I]; destruct s; [discriminate I | discriminate]).
  intros E. injection E as <-. exists model. split; [now apply text_set_given | reflexivity].
Qed.
Theorem C168_payload : forall default_max r stream, NoDup (map fst (r_extra r)) ->
  ((forall m, ~ given (r_model r) m) -> anthropic_payload fj default_max r stream = Raises AIConfigurationError) /\
  (forall m, given (r_model r) m -> exists p, anthropic_payload fj default_max r stream = Fine p /\
     (forall k v, In (k, v) (r_extra r) -> dget k p = Some v) /\
     (forall k v, ~ In k (map fst (r_extra r)) -> k <> u "messages" -> (dget k p = Some v <-> anthropic_asks fj default_max r stream k v)) /\
     (~ In (u "messages") (map fst (r_extra r)) -> exists l, dget (u "messages") p = Some (JArr l) /\
        Forall2 anthropic_says (filter (fun m => negb (is_system m)) (r_messages r)) l)).
Proof.
  intros dm r stream ND. split.
  - intros H. unfold anthropic_payload. rewrite (proj2 (text_set_none _) H). reflexivity.
  - intros m G. destruct (anthropic_payload fj dm r stream) as [p|e] eqn:E;
      [|unfold anthropic_payload in E; rewrite (proj2 (text_set_given _ _) G) in E; destruct (split_system _ _); discriminate].
    exists p. split; [reflexivity|]. apply anthropic_payload_fine in E. destruct E as (m' & G' & ->). assert (m' = m) by (destruct G, G'; congruence). subst m'.
    refine (conj _ (conj _ _)).
    + intros k v I. rewrite dget_over by exact ND. now rewrite (dget_in k v).
    + intros k v NI NM. rewrite dget_over by exact ND. rewrite (proj2 (dget_None_keys k (r_extra r)) NI). rewrite !get_set_if. cbn [dget]. split.
      * destruct (seqb_spec k (u "metadata")) as [EQ|N1]; [subst k; destruct (nonempty (r_metadata r)) as [x|] eqn:NE; [apply nonempty_some in NE; destruct NE as [NE ->]; intros E; injection E as <-; now constructor | vm_compute; discriminate]|].
        destruct (seqb_spec k (u "stop_sequences")) as [EQ|N2]; [subst k; destruct (nonempty (r_stop r)) as [x|] eqn:NE; [apply nonempty_some in NE; destruct NE as [NE ->]; intros E; injection E as <-; now constructor | vm_compute; discriminate]|].
        destruct (seqb_spec k (u "top_p")) as [EQ|N3]; [subst k; destruct (r_top_p r) as [x|] eqn:NE; [intros E; injection E as <-; now constructor | vm_compute; discriminate]|].
        destruct (seqb_spec k (u "temperature")) as [EQ|N4]; [subst k; destruct (r_temperature r) as [x|] eqn:NE; [intros E; injection E as <-; now constructor | vm_compute; discriminate]|].
        destruct (seqb_spec k (u "system")) as [EQ|N5]; [subst k; destruct (system_texts r) as [|x l] eqn:NE; [vm_compute; discriminate | intros E; apply some_inj in E; subst v; rewrite <- NE; constructor; rewrite NE; discriminate]|].
        destruct (seqb_spec k (u "model")) as [EQ|N6]; [subst k; intros E; injection E as <-; constructor; apply G|].
        destruct (seqb_spec k (u "messages")) as [EQ|N7]; [congruence|].
        destruct (seqb_spec k (u "max_tokens")) as [EQ|N8].
        { subst k. intros E. apply some_inj in E. subst v. destruct (r_max_tokens r) as [n|] eqn:MT; [destruct (Z.eqb_spec n 0) as [Z|Z]|].
          - subst n. apply aa_default. auto.
          - now apply aa_max.
          - apply aa_default. auto. }
        destruct (seqb_spec k (u "stream")) as [EQ|N9]; [subst k; intros E; injection E as <-; constructor | discriminate].
      * intros A. destruct A as [m' A| |n A Z|A|A|t A|t A|A|A]; cbv [seqb u]; cbn -[u system_texts join].
        -- destruct G as [G _]. assert (m' = m) by congruence. subst. reflexivity.
        -- reflexivity.
        -- rewrite A. destruct (Z.eqb_spec n 0); [congruence | reflexivity].
        -- destruct A as [-> | ->]; reflexivity.
        -- destruct (system_texts r); [congruence | reflexivity].
        -- rewrite A. reflexivity.
        -- rewrite A. reflexivity.
        -- destruct (r_stop r); [congruence | reflexivity].
        -- destruct (r_metadata r); [congruence | reflexivity].
    + intros NI. rewrite dget_over by exact ND. rewrite (proj2 (dget_None_keys _ (r_extra r)) NI). rewrite !get_set_if.
      eexists. split; [reflexivity|]. apply all_say, anthropic_message_says.
Qed.
End Payload.
Print Assumptions C167_payload.
Print Assumptions C168_payload.
Definition sample : request :=
  mkReq [mkMsg (u "system") (u "s2") None None; mkMsg (u "user") (u "hi") (Some (u "ann")) None; mkMsg (u "system") [] None None; mkMsg (u "tool") (u "42") None (Some (u "call_1"))]
    (Some (u "m")) (Some (u "s1")) (Some (Num 0)) None None [u "END"] [] [(u "stream", JBool true); (u "seed", JInt 7)].
Example C167_case : openai_payload (fun _ => JFloat (u "0.0")) sample false = Fine
  [(u "model", JStr (u "m"));
   (u "messages", JArr [JObj [(u "role", JStr (u "system")); (u "content", JStr (u "s1"))]; JObj [(u "role", JStr (u "system")); (u "content", JStr (u "s2"))];
      JObj [(u "role", JStr (u "user")); (u "content", JStr (u "hi")); (u "name", JStr (u "ann"))]; JObj [(u "role", JStr (u "system")); (u "content", JStr [])];
      JObj [(u "role", JStr (u "tool")); (u "content", JStr (u "42")); (u "tool_call_id", JStr (u "call_1"))]]);
   (u "stream", JBool true); (u "temperature", JFloat (u "0.0")); (u "stop", JArr [JStr (u "END")]); (u "seed", JInt 7)].
Proof. vm_compute. reflexivity. Qed.
Example C168_case : anthropic_payload (fun _ => JFloat (u "0.0")) 1024 sample false = Fine
  [(u "model", JStr (u "m"));
   (u "messages", JArr [JObj [(u "role", JStr (u "user")); (u "content", JStr (u "hi")); (u "name", JStr (u "ann"))]; JObj [(u "role", JStr (u "tool")); (u "content", JStr (u "42"))]]);
   (u "max_tokens", JInt 1024); (u "stream", JBool true); (u "system", JStr (u "s1" ++ [10; 10] ++ u "s2")); (u "temperature", JFloat (u "0.0")); (u "stop_sequences", JArr [JStr (u "END")]); (u "seed", JInt 7)].
Proof. vm_compute. reflexivity. Qed.

(** * C169: the text that is streamed *)
(** A server that writes one JSON object on a line for each event: [escape] is whether it writes characters outside ASCII as escapes. *)
Definition written (escape : bool) (e : delta) : str := write escape (d_event e).
Definition sound_event (escape : bool) (e : delta) : Prop :=
  proper (d_event e) /\ presentable (d_event e) /\ (escape = true \/ forall c, In c (written escape e) -> ~ odd_break c).
Definition text_of (cs : list chunk) : str := flat_map (fun c => match ch_text c with JStr s => s | _ => [] end) cs.
Lemma run_events {parse} {says : delta -> Prop} {shown : delta -> bool} escape evs done name ended :
  (forall e, says e -> exists o, parse (d_event e) = Fine o /\ Forall2 (chunk_for name) (if shown e then [e] else []) (olist o)) ->
  (forall e, says e -> exists top, d_event e = JObj top) -> (done = None \/ done = Some (u "[DONE]")) ->
  Forall says evs -> Forall (sound_event escape) evs ->
  exists cs, Forall2 (chunk_for name) (filter shown evs) cs /\ forall rest,
    consume done parse (iter_sse [] (splitlines (sse_text (map (written escape) evs) ++ rest)) ended) ended =
      (cs ++ fst (consume done parse (iter_sse [] (splitlines rest) ended) ended), snd (consume done parse (iter_sse [] (splitlines rest) ended) ended)).
Proof.
  intros PS OB DN S W.
  assert (L : Forall (fun e => one_line (written escape e) /\ decode_json (written escape e) = Fine (d_event e) /\ written escape e <> u "[DONE]") evs).
  { rewrite Forall_forall in *. intros e I. destruct (W e I) as (P & PR & A). destruct (OB e (S e I)) as (top & T). unfold written in *. rewrite T in *. apply object_line; [apply presentable_writable; assumption | exact A]. }
  assert (K : exists outs, Forall2 (chunk_for name) (filter shown evs) (flat_map olist outs) /\
    Forall2 (fun e o => (forall d, done = Some d -> e <> d) /\ bind (decode_json e) parse = Fine o) (map (written escape) evs) outs).
  { clear W. induction evs as [|e evs IH]; [exists []; split; constructor|]. inversion S; subst. inversion L as [|? ? (L1 & L2 & L3) L']; subst. destruct (IH H2 L') as (outs & A & B). destruct (PS e H1) as (o & O & C).
    exists (o :: outs). split.
    - cbn [filter flat_map]. destruct (shown e).
      + change (e :: filter shown evs) with ([e] ++ filter shown evs). now apply Forall2_app.
      + inversion C as [EQ EQ2|]. cbn. exact A.
    - cbn [map]. constructor; [|exact B]. rewrite L2. split; [|exact O]. intros d D. destruct DN as [-> | ->]; [discriminate|]. injection D as <-. exact L3. }
  destruct K as (outs & A & B). exists (flat_map olist outs). split; [exact A|]. intros rest.
  rewrite iter_events by (apply Forall_map; eapply Forall_impl; [|exact L]; intros e (X & _); exact X). now apply consume_run.
Qed.
Lemma shown_text name shown evs cs : (forall e, shown e = false -> d_text e = []) -> Forall2 (chunk_for name) (filter shown evs) cs -> text_of cs = flat_map d_text evs.
Proof.
  intros Q. revert cs. induction evs as [|e evs IH]; intros cs F; cbn [filter] in F; [inversion F; reflexivity|]. destruct (shown e) eqn:E.
  - inversion F as [|? c ? cs' C F']; subst. cbn [flat_map]. unfold text_of. cbn [flat_map]. destruct C as (C & _). rewrite C. f_equal. now apply IH.
  - cbn [flat_map]. rewrite (Q e E). now apply IH.
Qed.
Lemma text_app a b : sse_text (a ++ b) = sse_text a ++ sse_text b.
Proof. apply flat_map_app. Qed.
Theorem C169_openai : forall fj name r p escape evs ended, openai_payload fj r true = Fine p -> Forall openai_delta evs -> Forall (sound_event escape) evs ->
  exists cs, Forall2 (chunk_for name) (filter speaks evs) cs /\ text_of cs = flat_map d_text evs /\
    (forall rest, openai_stream fj name r (Answered (splitlines (sse_text (map (written escape) evs ++ [u "[DONE]"]) ++ rest), ended)) = ([p], (cs, None))) /\
    openai_stream fj name r (Answered (splitlines (sse_text (map (written escape) evs)), ended)) = ([p], (cs, if ended then None else Some AIProviderError)).
Proof.
  intros fj name r p escape evs ended P D W.
  destruct (run_events escape evs (Some (u "[DONE]")) name ended (openai_event_delta name)
    (fun e H => match H with ex_intro _ top (ex_intro _ _ (ex_intro _ _ (conj E _))) => ex_intro _ top E end) (or_intror eq_refl) D W) as (cs & F & C).
  exists cs. refine (conj F (conj (shown_text name speaks evs cs _ F) (conj _ _))).
  - intros e S. unfold speaks in S. apply negb_false_iff, andb_true_iff in S. destruct S as [S _]. now apply seqb_eq in S.
  - intros rest. unfold openai_stream, run_stream. rewrite P, text_app, <- app_assoc, C. rewrite (iter_events [u "[DONE]"] rest ended).
    + cbn [app consume]. change (seqb (u "[DONE]") (u "[DONE]")) with true. cbv iota. cbn [fst snd]. now rewrite app_nil_r.
    + constructor; [|constructor]. split; [|reflexivity]. intros c I. vm_compute in I. repeat (destruct I as [<-|I]; [reflexivity|]). destruct I.
  - unfold openai_stream, run_stream. rewrite P. specialize (C []). rewrite app_nil_r in C. rewrite C. unfold splitlines. cbn [splitlines_aux iter_sse].
    destruct ended; cbn [consume fst snd]; now rewrite app_nil_r.
Qed.
Print Assumptions C169_openai.
Theorem C169_anthropic : forall fj default_max r p escape evs ended, anthropic_payload fj default_max r true = Fine p -> Forall anthropic_delta evs -> Forall (sound_event escape) evs ->
  exists cs, Forall2 (chunk_for (u "anthropic")) (filter (fun e => speaks e || ends_message e) evs) cs /\ text_of cs = flat_map d_text evs /\
    anthropic_stream fj default_max r (Answered (splitlines (sse_text (map (written escape) evs)), ended)) = ([p], (cs, if ended then None else Some AIProviderError)).
Proof.
  intros fj dm r p escape evs ended P D W.
  destruct (run_events escape evs None (u "anthropic") ended anthropic_event_delta
    (fun e H => match H with ex_intro _ top (ex_intro _ _ (conj E _)) => ex_intro _ top E end) (or_introl eq_refl) D W) as (cs & F & C).
  exists cs. refine (conj F (conj (shown_text _ _ evs cs _ F) _)).
  - intros e S. apply orb_false_iff in S. destruct S as [S _]. unfold speaks in S. apply negb_false_iff, andb_true_iff in S. destruct S as [S _]. now apply seqb_eq in S.
  - unfold anthropic_stream, run_stream. rewrite P. specialize (C []). rewrite app_nil_r in C. rewrite C. unfold splitlines. cbn [splitlines_aux iter_sse].
    destruct ended; cbn [consume fst snd]; now rewrite app_nil_r.
Qed.
Print Assumptions C169_anthropic.
Definition spoken (t f : str) : delta :=
  mkDelta (JObj [(u "choices", JArr [JObj [(u "delta", JObj [(u "content", JStr t)]); (u "finish_reason", match f with [] => JNull | _ => JStr f end)]]); (u "model", JStr (u "m"))]) t f.
Example C169_case :
  let evs := [spoken (u "Hel") []; spoken [] []; spoken [108; 111; 8232] []; spoken [] (u "stop")] in
  Forall openai_delta evs /\ Forall (sound_event true) evs /\
  map ch_text (fst (snd (openai_stream (fun _ => JNull) (u "openai") sample (Answered (splitlines (sse_text (map (written true) evs ++ [u "[DONE]"]) ++ u "junk"), true))))) =
    [JStr (u "Hel"); JStr [108; 111; 8232]; JStr []].
Proof.
  cbv zeta. refine (conj _ (conj _ _)).
  - repeat constructor; (eexists; eexists; eexists; split; [reflexivity|]; split; [reflexivity|]; split; [unfold text_at; vm_compute; auto|]; left; eexists; split; [reflexivity|]; unfold text_at; vm_compute; auto).
  - repeat constructor; cbn; try (left; reflexivity); try (intros c I; cbn in I; intuition (subst; lia)); try (unfold unicode, points; cbn; intros; intuition (subst; lia)); try (intuition discriminate).
  - vm_compute. reflexivity.
Qed.

(** * C170: a stream that fails *)
(** What the server reports as an error is reported to the caller; what is not an error is not. *)
Definition C170_statement : Prop := forall fj default_max name r lines d p,
  (anthropic_payload fj default_max r true = Fine p -> In (write true (JObj d)) (iter_sse [] lines true) -> dget (u "type") d = Some (JStr (u "error")) ->
     snd (snd (anthropic_stream fj default_max r (Answered (lines, true)))) = Some AIProviderError) /\
  (openai_payload fj r true = Fine p -> Forall (fun e => exists o, loads e = Some (JObj o) /\ dmem (u "error") o = false /\ dmem (u "choices") o = true) (iter_sse [] lines true) ->
     snd (snd (openai_stream fj name r (Answered (lines, true)))) = None).
Theorem C170_error_event_refuted : ~ C170_statement.
Proof.
  intros H. destruct (H (fun _ => JNull) 1024%Z [] sample (splitlines (sse_text [write true (JObj [(u "type", JStr (u "error"))])])) [(u "type", JStr (u "error"))]
    (match anthropic_payload (fun _ => JNull) 1024 sample true with Fine p => p | Raises _ => [] end)) as [A _].
  assert (X : snd (snd (anthropic_stream (fun _ => JNull) 1024 sample (Answered (splitlines (sse_text [write true (JObj [(u "type", JStr (u "error"))])]), true)))) = Some AIProviderError).
  { apply A; [vm_compute; reflexivity | vm_compute; left; reflexivity | vm_compute; reflexivity]. }
  vm_compute in X. discriminate X.
Qed.
(** The event with the usage, which has no choices, ends a stream of chat completions with an error. *)
Theorem C170_usage_event_refuted : exists text cs p,
  text = sse_text [u "{""choices"":[{""delta"":{""content"":""hi""}}]}"; u "{""choices"":[],""usage"":{""total_tokens"":3}}"; u "[DONE]"] /\
  openai_stream (fun _ => JNull) (u "openai") sample (Answered (splitlines text, true)) = ([p], (cs, Some AIProviderError)) /\ text_of cs = u "hi".
Proof. eexists. eexists. eexists. split; [reflexivity|]. split; vm_compute; reflexivity. Qed.
(** After the chunks of the events before it, an event that is not a JSON object, or has no choice, ends the stream with an error; so does a
    request that gets no answer, and a connection that breaks. *)
Theorem C170_failures_partial : forall fj default_max name r p escape evs bad after ended,
  one_line bad -> bad <> u "[DONE]" -> (forall d, loads bad = Some (JObj d) -> False) ->
  (openai_payload fj r true = Fine p -> Forall openai_delta evs -> Forall (sound_event escape) evs ->
     exists cs, Forall2 (chunk_for name) (filter speaks evs) cs /\
       openai_stream fj name r (Answered (splitlines (sse_text (map (written escape) evs ++ [bad]) ++ after), ended)) = ([p], (cs, Some AIProviderError))) /\
  (anthropic_payload fj default_max r true = Fine p -> Forall anthropic_delta evs -> Forall (sound_event escape) evs ->
     exists cs, Forall2 (chunk_for (u "anthropic")) (filter (fun e => speaks e || ends_message e) evs) cs /\
       anthropic_stream fj default_max r (Answered (splitlines (sse_text (map (written escape) evs ++ [bad]) ++ after), ended)) = ([p], (cs, Some AIProviderError))).
Proof.
  intros fj dm name r p escape evs bad after ended OL ND NO.
  assert (DJ : decode_json bad = Raises AIProviderError) by (unfold decode_json; destruct (loads bad) as [[]|] eqn:E; try reflexivity; destruct (NO _ eq_refl)).
  split; intros P D W.
  - destruct (run_events escape evs (Some (u "[DONE]")) name ended (openai_event_delta name)
      (fun e H => match H with ex_intro _ top (ex_intro _ _ (ex_intro _ _ (conj E _))) => ex_intro _ top E end) (or_intror eq_refl) D W) as (cs & F & C).
    exists cs. split; [exact F|]. unfold openai_stream, run_stream. rewrite P, text_app, <- app_assoc, C, (iter_events [bad]) by (repeat constructor; apply OL).
    cbn [app consume]. destruct (seqb_spec bad (u "[DONE]")); [congruence|]. rewrite DJ. cbn [bind fst snd]. now rewrite app_nil_r.
  - destruct (run_events escape evs None (u "anthropic") ended anthropic_event_delta
      (fun e H => match H with ex_intro _ top (ex_intro _ _ (conj E _)) => ex_intro _ top E end) (or_introl eq_refl) D W) as (cs & F & C).
    exists cs. split; [exact F|]. unfold anthropic_stream, run_stream. rewrite P, text_app, <- app_assoc, C, (iter_events [bad]) by (repeat constructor; apply OL).
    cbn [app consume]. rewrite DJ. cbn [bind fst snd]. now rewrite app_nil_r.
Qed.
Print Assumptions C170_failures_partial.
(** No failure of a stream is anything but an error of the package. *)
Theorem C170_only_ai_errors : forall fj default_max name r a e,
  snd (snd (openai_stream fj name r a)) = Some e \/ snd (snd (anthropic_stream fj default_max r a)) = Some e -> ai_error e.
Proof.
  assert (C : forall done parse events ended e, snd (consume done parse events ended) = Some e -> e = AIProviderError).
  { intros done parse events ended e. induction events as [|x events IH]; cbn [consume].
    - destruct ended; cbn; congruence.
    - destruct (match done with Some d => seqb x d | None => false end); [discriminate|]. destruct (bind (decode_json x) parse) as [[c|]|]; [|exact IH|cbn; congruence].
      destruct (consume done parse events ended) as [cs y]. cbn [snd] in *. exact IH. }
  assert (S : forall done parse payload a e, (forall x, payload = Raises x -> x = AIConfigurationError) -> snd (snd (run_stream done parse payload a)) = Some e -> ai_error e).
  { intros done parse payload a e N. unfold run_stream, ai_error. destruct payload as [p|x].
    - cbn [snd]. destruct a as [|[lines ended]]; cbn [snd]; [intros [= <-]; cbn; tauto|]. intros E. apply C in E. subst. cbn. tauto.
    - cbn [snd]. intros [= <-]. rewrite (N x eq_refl). cbn. tauto. }
  intros fj dm name r a e [E|E]; (eapply S; [|exact E]); intros x.
  - unfold openai_payload. destruct (text_set (r_model r)); congruence.
  - unfold anthropic_payload. destruct (text_set (r_model r)); [destruct (split_system _ _)|]; congruence.
Qed.
Print Assumptions C170_only_ai_errors.
Example C170_case : one_line (u "oops") /\ loads (u "oops") = None /\
  openai_stream (fun _ => JNull) (u "openai") sample Failed = (fst (openai_stream (fun _ => JNull) (u "openai") sample Failed), ([], Some AIProviderError)).
Proof. refine (conj _ (conj _ _)); [split; [intros c I; vm_compute in I; repeat (destruct I as [<-|I]; [reflexivity|]); destruct I | reflexivity] | vm_compute; reflexivity | vm_compute; reflexivity]. Qed.

(** * C171: complete replies *)
Definition C171_statement : Prop := forall fj trunc default_max name r a e,
  snd (openai_complete fj trunc name r a) = Raises e \/ snd (anthropic_complete fj trunc default_max r a) = Raises e -> ai_error e.
Theorem C171_null_message_refuted : ~ C171_statement.
Proof.
  intros H. specialize (H (fun _ => JNull) (fun _ => None) 1024%Z (u "openai") sample (Answered (Some (JObj [(u "choices", JArr [JObj [(u "message", JNull)]])]))) AttributeError).
  assert (X : ai_error AttributeError) by (apply H; left; vm_compute; reflexivity). cbn in X. intuition discriminate.
Qed.
Theorem C171_not_json_refuted : forall fj trunc name r p, openai_payload fj r false = Fine p -> openai_complete fj trunc name r (Answered None) = ([p], Raises ValueError).
Proof. intros fj trunc name r p E. unfold openai_complete, run_complete. now rewrite E. Qed.
Lemma tokens_int trunc k d n : tokens k d n -> int_or_zero trunc k (JInt 0) (JObj d) = Fine n.
Proof.
  intros [E | [-> [E|E]]]; unfold int_or_zero; cbn [get]; rewrite E; cbn [bind]; try reflexivity.
  unfold orv. cbn [truthy]. destruct (Z.eqb_spec n 0) as [Z|Z]; [subst; reflexivity | reflexivity].
Qed.
Definition finish_is (finish : str) (v : jvalue) : Prop := v = JStr finish \/ (finish = [] /\ v = JNull).
Lemma finish_get k d s : text_at k d s -> exists v, get k JNull (JObj d) = Fine v /\ finish_is s v.
Proof. intros T. destruct (get_text k d s T) as (v & G & _ & F & _). eauto. Qed.
Theorem C171_openai_partial : forall fj trunc name r p,
  (openai_payload fj r false = Raises AIConfigurationError -> forall a, openai_complete fj trunc name r a = ([], Raises AIConfigurationError)) /\
  (openai_payload fj r false = Fine p ->
     openai_complete fj trunc name r Failed = ([p], Raises AIProviderError) /\
     (forall data, (forall top x, data = JObj top -> dget (u "choices") top = Some x -> x = JArr [] \/ x = JStr [] \/ x = JNull) ->
        openai_complete fj trunc name r (Answered (Some data)) = ([p], Raises AIResponseError)) /\
     (forall data text finish us, openai_reply data text finish us -> exists res,
        openai_complete fj trunc name r (Answered (Some data)) = ([p], Fine res) /\
        re_text res = JStr text /\ re_provider res = name /\ finish_is finish (re_finish res) /\ re_usage res = us /\ re_raw res = data)).
Proof.
  intros fj trunc name r p. unfold openai_complete, run_complete. split; [intros -> a; reflexivity|]. intros ->. refine (conj eq_refl (conj _ _)).
  - intros data H. f_equal. unfold openai_response. destruct data as [| | | | | |top]; try reflexivity. cbn [item].
    destruct (dget (u "choices") top) as [x|] eqn:E; [|reflexivity]. destruct (H top x eq_refl E) as [-> | [-> | ->]]; reflexivity.
  - intros data text finish us (top & choice & more & msg & -> & C & M & TX & F & U). unfold openai_response. cbn [item]. rewrite C. cbn [first item]. rewrite M.
    destruct (get_text _ _ _ TX) as (v & G & O & _). rewrite G. cbn [bind]. destruct (finish_get _ _ _ F) as (fv & FG & FI).
    assert (X : exists w, get (u "usage") JNull (JObj top) = Fine w /\ from_mapping trunc w = Fine us).
    { destruct U as [(-> & [E|E]) | (d & i & o & t & E & NE & -> & TI & TO & TT)]; cbn [get]; rewrite E.
      - exists JNull. auto.
      - exists JNull. auto.
      - exists (JObj d). split; [reflexivity|]. unfold from_mapping. assert (T : truthy (JObj d) = true) by (destruct d; [congruence | reflexivity]). rewrite T.
        rewrite (tokens_int _ _ _ _ TI). cbn [bind]. rewrite (tokens_int _ _ _ _ TO). cbn [bind].
        assert (K : int_or_zero trunc (u "total_tokens") (JInt (i + o)) (JObj d) = Fine t).
        { unfold int_or_zero. cbn [get]. assert (OZ : forall z, to_int trunc (orv (JInt z) (JInt 0)) = Fine z) by (intros z; unfold orv; cbn [truthy]; destruct (Z.eqb_spec z 0); [subst|]; reflexivity).
          destruct TT as [-> | [-> ->]]; cbn [bind]; apply OZ. }
        rewrite K. reflexivity. }
    destruct X as (w & W1 & W2). rewrite W1. cbn [bind]. rewrite W2. cbn [bind]. destruct (model_of top) as (m & MG & _). rewrite MG. cbn [bind]. rewrite FG. cbn [bind].
    eexists. split; [reflexivity|]. cbn [re_text re_provider re_finish re_usage re_raw]. auto.
Qed.
Print Assumptions C171_openai_partial.
Lemma blocks_texts bs texts : Forall2 adds bs texts -> join_texts (flat_map block_text bs) = Some (concat texts).
Proof.
  induction 1 as [|b s bs texts (d & t & -> & TY & K) F IH]; [reflexivity|]. cbn [flat_map block_text concat]. rewrite TY. destruct K as [(-> & TX) | (NE & ->)].
  - change (seqb (u "text") (u "text")) with true. cbv iota. rewrite TX. cbn [app join_texts]. now rewrite IH.
  - destruct (seqb_spec t (u "text")); [congruence|]. exact IH.
Qed.
Theorem C171_anthropic_partial : forall fj trunc default_max r p,
  (anthropic_payload fj default_max r false = Raises AIConfigurationError -> forall a, anthropic_complete fj trunc default_max r a = ([], Raises AIConfigurationError)) /\
  (anthropic_payload fj default_max r false = Fine p ->
     anthropic_complete fj trunc default_max r Failed = ([p], Raises AIProviderError) /\
     (forall top, dget (u "content") top = None \/ dget (u "content") top = Some JNull \/ dget (u "content") top = Some (JArr []) ->
        anthropic_complete fj trunc default_max r (Answered (Some (JObj top))) = ([p], Raises AIResponseError)) /\
     (forall data texts finish i o, anthropic_reply data texts finish i o -> exists res,
        anthropic_complete fj trunc default_max r (Answered (Some data)) = ([p], Fine res) /\
        re_text res = JStr (concat texts) /\ re_provider res = u "anthropic" /\ finish_is finish (re_finish res) /\ re_usage res = Some (mkUsage i o (i + o)%Z) /\ re_raw res = data)).
Proof.
  intros fj trunc dm r p. unfold anthropic_complete, run_complete. split; [intros -> a; reflexivity|]. intros ->. refine (conj eq_refl (conj _ _)).
  - intros top H. f_equal. unfold anthropic_response. cbn [get]. destruct H as [-> | [-> | ->]]; reflexivity.
  - intros data texts finish i o (top & bs & -> & C & NE & F & FI & U). unfold anthropic_response.
    assert (G : get (u "content") JNull (JObj top) = Fine (JArr bs)) by (cbn [get]; now rewrite C). rewrite G. cbn [bind].
    assert (O : orv (JArr bs) (JArr []) = JArr bs) by (destruct bs; reflexivity). rewrite O. cbn [blocks bind].
    assert (T : truthy (JArr bs) = true) by (destruct bs; [congruence | reflexivity]). rewrite T. cbn [negb andb].
    assert (X : exists w, get (u "usage") JNull (JObj top) = Fine w /\ int_or_zero trunc (u "input_tokens") (JInt 0) (orv w (JObj [])) = Fine i /\
              int_or_zero trunc (u "output_tokens") (JInt 0) (orv w (JObj [])) = Fine o).
    { destruct U as [(d & E & TI & TO) | (E & -> & ->)].
      - exists (JObj d). cbn [get]. rewrite E. split; [reflexivity|]. assert (OD : orv (JObj d) (JObj []) = JObj d) by (destruct d; reflexivity). rewrite OD.
        split; apply tokens_int; assumption.
      - exists JNull. cbn [get]. destruct E as [-> | ->]; repeat split. }
    destruct X as (w & W1 & W2 & W3). rewrite W1. cbn [bind]. cbv zeta. rewrite W2. cbn [bind]. rewrite W3. cbn [bind]. rewrite (blocks_texts _ _ F).
    destruct (model_of top) as (m & MG & _). rewrite MG. cbn [bind]. destruct (finish_get _ _ _ FI) as (fv & FG & FV). rewrite FG. cbn [bind].
    eexists. split; [reflexivity|]. cbn [re_text re_provider re_finish re_usage re_raw]. auto.
Qed.
Print Assumptions C171_anthropic_partial.
Example C171_case :
  (exists data, loads (u "{""choices"":[{""message"":{""content"":""hi""},""finish_reason"":""stop""}],""usage"":{""prompt_tokens"":3,""completion_tokens"":4}}") = Some data /\
     openai_reply data (u "hi") (u "stop") (Some (mkUsage 3 4 7))) /\
  (exists data, loads (u "{""content"":[{""type"":""text"",""text"":""a""},{""type"":""tool_use""},{""type"":""text"",""text"":""b""}],""stop_reason"":null}") = Some data /\
     anthropic_reply data [u "a"; []; u "b"] [] 0 0).
Proof.
  split.
  - eexists. split; [vm_compute; reflexivity|]. do 4 eexists. split; [reflexivity|]. split; [vm_compute; reflexivity|]. split; [vm_compute; reflexivity|].
    refine (conj (or_introl _) (conj (or_introl _) (or_intror _))); [vm_compute; reflexivity | vm_compute; reflexivity|]. do 4 eexists. split; [vm_compute; reflexivity|].
    split; [discriminate|]. split; [reflexivity|]. split; [left; vm_compute; reflexivity|]. split; [left; vm_compute; reflexivity|]. right. vm_compute. split; reflexivity.
  - eexists. split; [vm_compute; reflexivity|]. do 2 eexists. split; [reflexivity|]. split; [vm_compute; reflexivity|]. split; [discriminate|]. split; [|split].
    + constructor; [|constructor; [|constructor; [|constructor]]]; do 2 eexists; (split; [reflexivity|]); (split; [vm_compute; reflexivity|]).
      * left. split; vm_compute; reflexivity.
      * right. split; [vm_compute; discriminate | reflexivity].
      * left. split; vm_compute; reflexivity.
    + right. split; [reflexivity|]. right. vm_compute. reflexivity.
    + right. split; [left; vm_compute; reflexivity | split; reflexivity].
Qed.

(** * C172: the result of a tool names its call *)
Definition C172_statement : Prop := forall fj default_max r r' stream m m',
  r_messages r = [m] -> r_messages r' = [m'] -> m_tool m <> m_tool m' -> (exists s, given (m_tool m) s) -> (exists s, given (m_tool m') s) ->
  r_extra r = [] -> r_extra r' = [] -> (exists s, given (r_model r) s) ->
  openai_payload fj r stream <> openai_payload fj r' stream /\ anthropic_payload fj default_max r stream <> anthropic_payload fj default_max r' stream.
Theorem C172_refuted : ~ C172_statement.
Proof.
  intros H. set (mk := fun id => mkReq [mkMsg (u "tool") (u "42") None (Some id)] (Some (u "m")) None None None None [] [] []).
  destruct (H (fun _ => JNull) 5%Z (mk (u "a")) (mk (u "b")) false (mkMsg (u "tool") (u "42") None (Some (u "a"))) (mkMsg (u "tool") (u "42") None (Some (u "b")))) as [_ X];
    try reflexivity; try (eexists; split; [reflexivity | discriminate]); [vm_compute; discriminate|]. apply X. vm_compute. reflexivity.
Qed.
(** For the chat completions API each message can be told from what is sent: the payloads of two lists of messages are equal only when these agree, up to
    names and ids that are absent or empty. *)
Definition same_text (a b : option str) : Prop := forall s, given a s <-> given b s.
Theorem C172_openai_partial : forall fj r r' stream p, openai_payload fj r stream = Fine p -> openai_payload fj r' stream = Fine p ->
  r_extra r = [] -> r_extra r' = [] -> r_system r = r_system r' ->
  Forall2 (fun m m' => m_role m = m_role m' /\ m_content m = m_content m' /\ same_text (m_name m) (m_name m') /\ same_text (m_tool m) (m_tool m')) (r_messages r) (r_messages r').
Proof.
  intros fj r r' stream p E E' X X' S. apply openai_payload_fine in E, E'. destruct E as (m & G & E), E' as (m' & G' & E'). rewrite X in E. rewrite X' in E'. cbn [dupdate fold_left] in E, E'.
  assert (K : openai_messages (r_messages r) (r_system r) = openai_messages (r_messages r') (r_system r')).
  { assert (A : dget (u "messages") p = Some (JArr (openai_messages (r_messages r) (r_system r)))) by (rewrite E; unfold dupdate; cbn [fold_left]; rewrite !get_set_if; reflexivity).
    assert (B : dget (u "messages") p = Some (JArr (openai_messages (r_messages r') (r_system r')))) by (rewrite E'; unfold dupdate; cbn [fold_left]; rewrite !get_set_if; reflexivity).
    rewrite A in B. injection B as B. exact B. }
  unfold openai_messages in K. rewrite S in K. apply app_inv_head in K. clear - K. revert K. generalize (r_messages r) (r_messages r'). intros l. induction l as [|a l IH]; intros [|b l'] K; try discriminate K; [constructor|].
  cbn [map] in K. assert (H1 := f_equal (hd JNull) K). assert (H2 := f_equal (@tl jvalue) K). cbn [hd tl] in H1, H2. constructor; [|now apply IH].
  destruct (openai_message_says a) as (d & D & _ & _ & R & C & NM & TL). destruct (openai_message_says b) as (d' & D' & _ & _ & R' & C' & NM' & TL').
  assert (d' = d) by congruence. subst d'. refine (conj _ (conj _ (conj _ _))); [congruence | congruence | |].
  - intros s. split; intros G; [specialize (proj2 (NM (JStr s)) (ex_intro _ s (conj G eq_refl))) as Y; apply NM' in Y | specialize (proj2 (NM' (JStr s)) (ex_intro _ s (conj G eq_refl))) as Y; apply NM in Y];
      destruct Y as (s' & Y & E); injection E as <-; exact Y.
  - intros s. split; intros G; [specialize (proj2 (TL (JStr s)) (ex_intro _ s (conj G eq_refl))) as Y; apply TL' in Y | specialize (proj2 (TL' (JStr s)) (ex_intro _ s (conj G eq_refl))) as Y; apply TL in Y];
      destruct Y as (s' & Y & E); injection E as <-; exact Y.
Qed.
Print Assumptions C172_openai_partial.
Example C172_case : exists p, openai_payload (fun _ => JNull) (mkReq [mkMsg (u "tool") (u "42") None (Some (u "a"))] (Some (u "m")) None None None None [] [] []) false = Fine p /\ p <> [].
Proof. eexists. split; [vm_compute; reflexivity | discriminate]. Qed.

(** * C173: the HTTP client of a provider *)
(** Whenever no shutdown is under way the open clients are the one in use; whenever one is, the client calls get is open. *)
Definition C173_statement : Prop := forall l, (p_waiting (pool_run l) = 0%nat -> p_open (pool_run l) = match p_client (pool_run l) with Some c => [c] | None => [] end) /\
  (forall c, p_client (pool_run (l ++ [Get])) = Some c -> In c (p_open (pool_run (l ++ [Get])))).
Theorem C173_leak_refuted : ~ C173_statement.
Proof. intros H. destruct (H [Get; ShutdownBegins; ShutdownBegins; ShutdownEnds; Get; ShutdownEnds]) as [A _]. specialize (A eq_refl). discriminate A. Qed.
Theorem C173_closed_client_refuted : exists l c, serial l /\ p_client (pool_run (l ++ [Get])) = Some c /\ ~ In c (p_open (pool_run (l ++ [Get]))).
Proof. exists [Get; ShutdownBegins], 0%nat. split; [apply se_get, (se_open 0)|]. split; [reflexivity | cbn; tauto]. Qed.
Definition idle (s : pool) : Prop := p_waiting s = 0%nat /\ p_open s = match p_client s with Some c => [c] | None => [] end.
Definition closing (s : pool) : Prop := p_waiting s = 1%nat /\ p_open s = [] /\ exists c, p_client s = Some c.
Lemma idle_get s : idle s -> idle (pool_step s Get).
Proof. intros [W O]. unfold pool_step. destruct (p_client s) as [c|] eqn:C; [split; [exact W | now rewrite C]|]. split; [exact W|]. cbn. now rewrite O. Qed.
Lemma closing_gets n : forall s, closing s -> fold_left pool_step (repeat Get n) s = s.
Proof. induction n as [|n IH]; intros s K; [reflexivity|]. cbn [repeat fold_left]. destruct K as (W & O & c & C). assert (E : pool_step s Get = s) by (unfold pool_step; now rewrite C). rewrite E. apply IH. split; eauto. Qed.
Lemma idle_gets n : forall s, idle s -> idle (fold_left pool_step (repeat Get n) s).
Proof. induction n as [|n IH]; intros s K; [exact K|]. cbn [repeat fold_left]. now apply IH, idle_get. Qed.
Lemma begins s : idle s -> (p_client s = None /\ pool_step s ShutdownBegins = s) \/ closing (pool_step s ShutdownBegins).
Proof.
  intros [W O]. unfold pool_step. destruct (p_client s) as [c|] eqn:C; [right | left; auto]. split; [cbn; now rewrite W|]. split; [|cbn; eauto]. cbn. rewrite O. cbn. now rewrite Nat.eqb_refl.
Qed.
Lemma ends s : idle s \/ closing s -> idle (pool_step s ShutdownEnds).
Proof. intros [I | (W & O & c & C)]; unfold pool_step; [destruct I as [W O]; rewrite W; split; assumption|]. rewrite W. split; cbn; auto. Qed.
Lemma serial_run l : serial l -> forall s, idle s -> idle (fold_left pool_step l s) \/ closing (fold_left pool_step l s).
Proof.
  induction 1 as [|l S IH|n|n l S IH]; intros s I.
  - now left.
  - cbn [fold_left]. apply IH, idle_get, I.
  - cbn [fold_left]. destruct (begins s I) as [[_ E]|K]; [rewrite E; left; now apply idle_gets | right; now rewrite closing_gets].
  - cbn [fold_left]. rewrite fold_left_app. cbn [fold_left]. apply IH, ends. destruct (begins s I) as [[_ E]|K]; [rewrite E; left; now apply idle_gets | right; now rewrite closing_gets].
Qed.
Theorem C173_pool_partial : forall l, serial l ->
  (p_waiting (pool_run l) = 0%nat -> p_open (pool_run l) = match p_client (pool_run l) with Some c => [c] | None => [] end) /\
  (p_waiting (pool_run l) <> 0%nat -> p_open (pool_run l) = []) /\
  (p_waiting (pool_run l) = 0%nat -> exists c, p_client (pool_run (l ++ [Get])) = Some c /\ p_open (pool_run (l ++ [Get])) = [c]) /\
  (p_waiting (pool_run l) = 0%nat -> p_client (pool_run (l ++ [ShutdownBegins; ShutdownEnds])) = None /\ p_open (pool_run (l ++ [ShutdownBegins; ShutdownEnds])) = []).
Proof.
  intros l S. assert (I : idle fresh) by (split; reflexivity). pose proof (serial_run l S fresh I) as K. unfold pool_run in *. rewrite !fold_left_app. cbn [fold_left].
  set (s := fold_left pool_step l fresh) in *. clearbody s. destruct K as [K | (W & O & c & C)].
  - destruct K as [W O]. refine (conj (fun _ => O) (conj _ (conj _ _))); [lia| |].
    + intros _. pose proof (idle_get s (conj W O)) as [_ O']. assert (X : exists c, p_client (pool_step s Get) = Some c) by (unfold pool_step; destruct (p_client s) eqn:C; [eauto | cbn; eauto]).
      destruct X as (c & X). rewrite X in O'. eauto.
    + intros _. destruct (begins s (conj W O)) as [[E1 E2]|(W' & O' & _)].
      * rewrite E2. unfold pool_step. rewrite W. rewrite E1 in O. auto.
      * unfold pool_step at 1 3. rewrite W'. cbn. auto.
  - rewrite W. refine (conj _ (conj (fun _ => O) (conj _ _))); discriminate.
Qed.
Print Assumptions C173_pool_partial.
Example C173_case : serial [Get; Get; ShutdownBegins; Get; ShutdownEnds; Get] /\ p_client (pool_run [Get; Get; ShutdownBegins; Get; ShutdownEnds; Get]) = Some 1%nat.
Proof. split; [apply se_get, se_get, (se_shut 1), se_get, se_nil | reflexivity]. Qed.
Example C169_anthropic_case :
  let ev := fun t => mkDelta (JObj [(u "type", JStr (u "content_block_delta")); (u "delta", JObj [(u "type", JStr (u "text_delta")); (u "text", JStr t)])]) t [] in
  let evs := [mkDelta (JObj [(u "type", JStr (u "ping"))]) [] []; ev (u "Hi"); ev []; ev [233]; mkDelta (JObj [(u "type", JStr (u "message_stop"))]) [] []] in
  Forall anthropic_delta evs /\
  map ch_text (fst (snd (anthropic_stream (fun _ => JNull) 9 sample (Answered (splitlines (sse_text (map (written false) evs)), true))))) = [JStr (u "Hi"); JStr [233]; JStr []].
Proof.
  cbv zeta. split; [|vm_compute; reflexivity]. repeat constructor.
  - do 2 eexists. split; [reflexivity|]. split; [vm_compute; reflexivity|]. right. right. repeat split; vm_compute; discriminate.
  - do 2 eexists. split; [reflexivity|]. split; [vm_compute; reflexivity|]. left. repeat split. eexists. split; [vm_compute; reflexivity|]. left. vm_compute. reflexivity.
  - do 2 eexists. split; [reflexivity|]. split; [vm_compute; reflexivity|]. left. repeat split. eexists. split; [vm_compute; reflexivity|]. left. vm_compute. reflexivity.
  - do 2 eexists. split; [reflexivity|]. split; [vm_compute; reflexivity|]. left. repeat split. eexists. split; [vm_compute; reflexivity|]. left. vm_compute. reflexivity.
  - do 2 eexists. split; [reflexivity|]. split; [vm_compute; reflexivity|]. right. left. repeat split. right. split; [reflexivity|]. left. vm_compute. reflexivity.
Qed.
