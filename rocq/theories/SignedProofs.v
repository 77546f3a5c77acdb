(** Lemmas for C42. *)
From Verif Require Import PyStr PyStrFacts Utf8 UrlModel UrlSpec UrlProofs PathNestProofs RouterDeferProofs CookieProofs SignedModel SignedSpec.

(** ** Decoding keeps texts non-empty *)
Lemma dec_nonnil s : s <> [] -> utf8_dec s <> [].
Proof.
  destruct s as [|b r]; [contradiction|]. intros _. cbn [utf8_dec].
  repeat match goal with |- context [if ?x then _ else _] => destruct x | |- context [match ?x with [] => _ | _ :: _ => _ end] => is_var x; destruct x end; discriminate.
Qed.
Lemma bytes_nonnil s : s <> [] -> unquote_bytes s <> [].
Proof.
  destruct s as [|c r]; [contradiction|]. intros _. cbn [unquote_bytes]. destruct (N.eqb c 37); [|discriminate].
  destruct r as [|a [|b r]]; try discriminate. destruct (hexval a), (hexval b); discriminate.
Qed.
Lemma go_nonnil s : forall run, run ++ s <> [] -> unquote_go run s <> [].
Proof.
  induction s as [|c s IH]; intros run H; cbn [unquote_go].
  - apply dec_nonnil, bytes_nonnil. intros E. apply H. rewrite app_nil_r. destruct run; [reflexivity|]. cbn [rev] in E. destruct (rev run); discriminate E.
  - destruct (is_ascii c); [apply IH; discriminate|]. intros E. apply app_eq_nil in E. destruct E; discriminate.
Qed.
Lemma unquote_plus_nil s : empty (unquote_plus s) = empty s.
Proof.
  destruct s as [|c s]; [reflexivity|]. cbn [empty]. unfold unquote_plus, unquote.
  assert (X : plus_to_space (c :: s) <> []) by discriminate.
  destruct (cmem 37 (plus_to_space (c :: s))).
  - assert (G := go_nonnil (plus_to_space (c :: s)) [] X). destruct (unquote_go [] _); [contradiction|reflexivity].
  - reflexivity.
Qed.
Lemma filter_swap {A} (f g : A -> bool) l : filter f (filter g l) = filter g (filter f l).
Proof. induction l as [|x l IH]; [reflexivity|]. cbn [filter]. destruct (g x) eqn:G, (f x) eqn:F; cbn [filter]; rewrite ?F, ?G, ?IH; reflexivity. Qed.
Lemma read_parse q : read_query q = filter (fun e => negb (empty (snd e))) (parse_qsl q).
Proof.
  unfold read_query, parse_qsl. induction (filter (fun p => negb (empty p)) (split_char 38 q)) as [|p l IH]; [reflexivity|].
  cbn [filter map]. assert (E : empty (snd (qsl_pair p)) = empty (snd (partition 61 p))).
  { unfold qsl_pair. destruct (partition 61 p) as (a, b). cbn [snd]. apply unquote_plus_nil. }
  rewrite E. destruct (negb (empty (snd (partition 61 p)))); cbn [map]; rewrite IH; reflexivity.
Qed.

(** ** The parameters of the last segment *)
Lemma split_params_slash a b : ~ In 47%N b -> split_params (a ++ u "/" ++ b) = match split1 59 b with Some (x, y) => (a ++ u "/" ++ x, y) | None => (a ++ u "/" ++ b, []) end.
Proof. intros H. unfold split_params. change (u "/" ++ b) with (47%N :: b). rewrite rsplit1_app by exact H. destruct (split1 59 b) as [(x, y)|]; reflexivity. Qed.
Lemma last_char (c : N) (s : str) : In c s -> exists a b, s = a ++ c :: b /\ ~ In c b.
Proof.
  induction s as [|x s IH]; [intros []|]. intros I. destruct (in_dec N.eq_dec c s) as [J|J].
  - destruct (IH J) as (a & b & -> & B). exists (x :: a), b. split; [reflexivity|exact B].
  - destruct I as [->|I]; [|contradiction]. exists [], s. split; [reflexivity|exact J].
Qed.
Definition joined (p seg : str) : str := if empty seg then p else p ++ u ";" ++ seg.
Lemma last_semicolon a b x y : a ++ u "/" ++ b = x ++ u ";" ++ y -> ~ In 47%N y -> ~ In 59%N b -> False.
Proof.
  intros E Y B. change (u "/" ++ b) with (47%N :: b) in E. change (u ";" ++ y) with (59%N :: y) in E.
  revert x E. induction a as [|c a IH]; intros x E.
  - destruct x as [|d x]; [discriminate E|]. cbn [app] in E. injection E as _ E. apply B. rewrite E. apply in_or_app. right. left. reflexivity.
  - destruct x as [|d x].
    + cbn [app] in E. injection E as _ E. apply Y. rewrite <- E. apply in_or_app. right. left. reflexivity.
    + cbn [app] in E. injection E as _ E. exact (IH x E).
Qed.
Lemma split_path path : good_path path -> exists p seg,
  split_params path = (p, seg) /\ before_semicolon path p /\ good_path p /\ good_path (joined p seg) /\ split_params (joined p seg) = (p, seg)
  /\ (forall c, In c p -> In c path) /\ (forall c, In c (joined p seg) -> In c path).
Proof.
  intros (S & F & M). destruct S as [->|(r & ->)].
  - exists [], []. split; [reflexivity|]. split.
    { left. split; [reflexivity|]. intros (a & b & E & _). destruct a; discriminate E. }
    assert (G : good_path []) by (split; [left; reflexivity|split; [intros c []|apply smooth_nil]]). refine (conj G (conj G (conj eq_refl (conj _ _)))); intros c [].
  - assert (D : exists a b, u "/" ++ r = a ++ u "/" ++ b /\ ~ In 47%N b).
    { apply (last_char 47 (u "/" ++ r)). left. reflexivity. }
    destruct D as (a & b & E & B). rewrite E in *.
    assert (GP : forall w, (forall c, In c w -> In c (a ++ u "/" ++ b)) -> good_path (a ++ u "/" ++ w)).
    { intros w W. split.
      - right. destruct a as [|c a]; [exists w; reflexivity|]. exists (a ++ u "/" ++ w). cbn [app] in E. injection E as <- _. reflexivity.
      - assert (I : forall c, In c (a ++ u "/" ++ w) -> In c (a ++ u "/" ++ b)).
        { intros c I. apply in_app_or in I as [I|I]; [apply in_or_app; left; exact I|]. apply in_app_or in I as [I|I]; [apply in_or_app; right; apply in_or_app; left; exact I|exact (W c I)]. }
        split; [intros c Ic; exact (F c (I c Ic))|intros c Ic; exact (M c (I c Ic))]. }
    assert (SUB : forall w, (forall c, In c w -> In c b) -> forall c, In c (a ++ u "/" ++ w) -> In c (a ++ u "/" ++ b)).
    { intros w W c I. apply in_app_or in I as [I|I]; [apply in_or_app; left; exact I|]. apply in_app_or in I as [I|I]; [apply in_or_app; right; apply in_or_app; left; exact I|].
      apply in_or_app. right. apply in_or_app. right. exact (W c I). }
    assert (BIN : forall c, In c b -> In c (a ++ u "/" ++ b)) by (intros c I; apply in_or_app; right; apply in_or_app; right; exact I).
    rewrite split_params_slash by exact B. destruct (split1 59 b) as [(x, y)|] eqn:S1.
    + apply split1_some in S1. destruct S1 as [-> X].
      assert (X47 : ~ In 47%N x) by (intros I; apply B; apply in_or_app; left; exact I).
      assert (Y47 : ~ In 47%N y) by (intros I; apply B; apply in_or_app; right; right; exact I).
      exists (a ++ u "/" ++ x), y. split; [reflexivity|]. split.
      { right. exists y. split; [rewrite <- !app_assoc; reflexivity|]. split; [exact Y47|]. intros (x' & y' & E' & Y'). exact (last_semicolon a x x' y' E' Y' X). }
      assert (JX : joined (a ++ u "/" ++ x) y = a ++ u "/" ++ joined x y) by (unfold joined; destruct (empty y); [reflexivity|rewrite <- !app_assoc; reflexivity]).
      assert (JB : forall c, In c (joined x y) -> In c (x ++ 59%N :: y)).
      { intros c. unfold joined. destruct (empty y); [intros I; apply in_or_app; left; exact I|]. exact (fun I => I). }
      rewrite JX. refine (conj _ (conj _ (conj _ (conj _ _)))).
      * apply GP. intros c I. apply BIN, in_or_app. left. exact I.
      * apply GP. intros c I. apply BIN, JB, I.
      * unfold joined. destruct y as [|c0 y]; cbn [empty].
        -- rewrite split_params_slash by exact X47. destruct (split1 59 x) as [(p, q)|] eqn:S2; [|reflexivity]. apply split1_some in S2. destruct S2 as [-> _]. exfalso. apply X. apply in_or_app. right. left. reflexivity.
        -- rewrite split_params_slash; [|exact B]. change (u ";" ++ c0 :: y) with (59%N :: c0 :: y). rewrite split1_app by exact X. reflexivity.
      * apply SUB. intros c I. apply in_or_app. left. exact I.
      * apply SUB. exact JB.
    + apply split1_none in S1. exists (a ++ u "/" ++ b), []. split; [reflexivity|]. split.
      { left. split; [reflexivity|]. intros (x & y & E' & Y'). exact (last_semicolon a b x y E' Y' S1). }
      change (joined (a ++ u "/" ++ b) []) with (a ++ u "/" ++ b). refine (conj (GP b BIN) (conj (GP b BIN) (conj _ (conj (fun c I => I) (fun c I => I))))).
      rewrite split_params_slash by exact B. destruct (split1 59 b) as [(p, q)|] eqn:S2; [|reflexivity]. apply split1_some in S2. destruct S2 as [-> _]. exfalso. apply S1. apply in_or_app. right. left. reflexivity.
Qed.

(** ** Parsing *)
Lemma http_scheme s : s = u "http" \/ s = u "https" -> scheme_name s /\ smem s uses_params = true /\ s <> [].
Proof.
  assert (G : forall x : str, forallb (fun c => between 97 122 c) x = true -> x <> [] -> scheme_name x).
  { intros x F Nn. destruct x as [|c x]; [contradiction|]. cbn [forallb] in F. apply andb_prop in F. destruct F as [F1 F2]. exists c, x. split; [reflexivity|]. split; [apply between_spec; exact F1|].
    intros y I. left. apply between_spec. exact (proj1 (forallb_forall _ _) F2 y I). }
  intros [-> | ->]; (split; [apply G; [reflexivity|discriminate]|split; [reflexivity|discriminate]]).
Qed.
Lemma parse_address ip_ok a : good_address ip_ok a -> exists p seg,
  urlparse ip_ok (address_text a) = Some ({| p_scheme := a_scheme a; p_netloc := authority (a_user a) (a_pass a) (a_host a) (a_port a); p_path := p; p_query := a_query a; p_fragment := a_fragment a |}, seg)
  /\ before_semicolon (a_path a) p /\ good_path p /\ good_path (joined p seg) /\ split_params (joined p seg) = (p, seg)
  /\ (forall c, In c p -> In c (a_path a)) /\ (forall c, In c (joined p seg) -> In c (a_path a)).
Proof.
  intros G. destruct (http_scheme _ (g_scheme _ _ G)) as (SN & SM & _). destruct (split_path _ (g_path _ _ G)) as (p & seg & E & B & R). exists p, seg. split; [|split; [exact B|exact R]].
  unfold urlparse, address_text. rewrite split_text; [|exact SN|exact (proj1 (authority_net _ _ _ _ _ (g_authority _ _ G)))|exact (g_path _ _ G)|exact (g_query _ _ G)|exact (g_fragment _ _ G)].
  cbn [p_scheme p_netloc p_path p_query p_fragment]. rewrite SM, E. reflexivity.
Qed.

(** ** Values *)
Lemma param_rev n l : rev (param n l) = param n (rev l).
Proof.
  unfold param. rewrite <- map_rev. f_equal. induction l as [|e l IH]; [reflexivity|]. cbn [filter rev]. rewrite filter_app. cbn [filter].
  destruct (seqb (fst e) n); cbn [rev]; rewrite IH; [reflexivity|rewrite app_nil_r; reflexivity].
Qed.
Definition read (a : address) : dict str := dupdate [] (read_query (a_query a)).
Lemma last_read n a : last_value n a = dget n (read a).
Proof.
  unfold last_value, read, pairs. rewrite dget_dupdate_rev, read_parse, param_rev. set (l := parse_qsl (a_query a)). clearbody l.
  assert (R : rev (filter (fun e : str * str => negb (empty (snd e))) l) = filter (fun e => negb (empty (snd e))) (rev l)).
  { induction l as [|e l IH]; [reflexivity|]. cbn [rev filter]. rewrite filter_app. cbn [filter]. rewrite <- IH. destruct (negb (empty (snd e))); [reflexivity|rewrite app_nil_r; reflexivity]. }
  etransitivity; [|exact (f_equal (dget n) (eq_sym R))]. clear R; induction (rev l) as [|(k, v) m IH]; [reflexivity|]. unfold param in IH |- *. cbn [filter fst snd].
  destruct (seqb k n) eqn:K.
  - cbn [map filter snd]. destruct (negb (empty v)); [|exact IH]. cbn [dget]. rewrite seqb_sym, K. reflexivity.
  - rewrite IH. destruct (negb (empty v)); [|reflexivity]. cbn [dget]. rewrite seqb_sym, K. reflexivity.
Qed.
Lemma read_nodup a : NoDup (dkeys (read a)).
Proof. unfold read. apply NoDup_dupdate. constructor. Qed.
Lemma dset_in {V} k (v : V) d e : In e (dset k v d) -> e = (k, v) \/ In e d.
Proof.
  induction d as [|(a, b) d IH]; cbn [dset]; [intros [<-|[]]; auto|]. destruct (seqb_spec k a) as [->|N].
  - intros [<-|I]; [auto|right; right; exact I].
  - intros [<-|I]; [right; left; reflexivity|]. destruct (IH I) as [->|J]; [auto|right; right; exact J].
Qed.
Lemma dupdate_in {V} (l d : dict V) e : In e (dupdate d l) -> In e d \/ In e l.
Proof.
  revert d. induction l as [|(k, v) l IH]; intros d I; [left; exact I|]. cbn [dupdate fold_left fst snd] in I. destruct (IH _ I) as [J|J].
  - apply dset_in in J. destruct J as [->|J]; [right; left; reflexivity|left; exact J].
  - right. right. exact J.
Qed.
Definition filled (l : list (str * str)) : Prop := forall k v, In (k, v) l -> v <> [].
Lemma read_facts a : plain_text (a_query a) -> texts (read a) /\ filled (read a).
Proof.
  intros T. assert (X : forall k v, In (k, v) (read a) -> In (k, v) (parse_qsl (a_query a)) /\ v <> []).
  { intros k v I. apply dupdate_in in I. destruct I as [[]|I]. rewrite read_parse in I. apply filter_In in I. destruct I as [I E]. split; [exact I|]. intros ->. discriminate E. }
  split; intros k v I; destruct (X k v I) as [J N]; [exact (parsed_texts _ T k v J)|exact N].
Qed.
Lemma ddel_texts k d : texts d -> texts (ddel k d).
Proof. intros T a b I. apply T. exact (ddel_sub _ _ _ I). Qed.
Lemma dset_texts k v d : (forall c, In c k -> scalar c) -> (forall c, In c v -> scalar c) -> texts d -> texts (dset k v d).
Proof. intros K V T a b I. apply dset_in in I. destruct I as [I|I]; [injection I as -> ->; auto|exact (T a b I)]. Qed.
Lemma filled_read l : texts l -> filled l -> read_query (urlencode l) = l.
Proof.
  intros T F. rewrite read_parse, parse_encode by exact T. clear T. induction l as [|(k, v) l IH]; [reflexivity|]. cbn [filter snd].
  destruct v as [|c v]; [contradiction (F k [] (or_introl eq_refl)); reflexivity|]. cbn [empty negb]. rewrite IH; [reflexivity|]. intros a b I. exact (F a b (or_intror I)).
Qed.

(** ** What is signed determines the path and the parameters *)
Lemma encoded_scalar l : texts l -> forall c, In c (urlencode l) -> scalar c.
Proof.
  intros T c I. unfold urlencode in I. revert T c I. induction l as [|e l IH]; intros T c I; [destruct I|]. destruct (texts_cons _ _ T) as (K & V & T').
  assert (O : forall x, In x (quote_plus (fst e) ++ u "=" ++ quote_plus (snd e)) -> scalar x).
  { intros x X. apply in_app_or in X as [X|X]; [|apply in_app_or in X as [X|X]].
    - left. apply quote_plus_ascii in X; [lia|exact K].
    - destruct X as [<-|[]]. left. reflexivity.
    - left. apply quote_plus_ascii in X; [lia|exact V]. }
  destruct l as [|e2 l]; [exact (O c I)|]. cbn [map join] in I. apply in_app_or in I as [I|I]; [exact (O c I)|]. apply in_app_or in I as [I|I].
  - destruct I as [<-|[]]. left. reflexivity.
  - apply (IH T'). exact I.
Qed.
Lemma to_sign_inj p q l m : (forall c, In c p -> scalar c) -> (forall c, In c q -> scalar c) -> texts l -> texts m -> ~ In 63%N p -> ~ In 63%N q ->
  to_sign p l = to_sign q m -> p = q /\ l = m.
Proof.
  intros P Q L M NP NQ E. unfold to_sign in E.
  assert (SC : forall r k, (forall c, In c r -> scalar c) -> texts k -> forall c, In c (r ++ u "?" ++ urlencode k) -> scalar c).
  { intros r k R K c I. apply in_app_or in I as [I|I]; [exact (R c I)|]. apply in_app_or in I as [I|I]; [destruct I as [<-|[]]; left; reflexivity|exact (encoded_scalar k K c I)]. }
  assert (E2 : p ++ u "?" ++ urlencode l = q ++ u "?" ++ urlencode m).
  { rewrite <- (dec_enc (p ++ u "?" ++ urlencode l)) by (apply SC; assumption). rewrite <- (dec_enc (q ++ u "?" ++ urlencode m)) by (apply SC; assumption). rewrite E. reflexivity. }
  assert (S1 : split1 63 (p ++ u "?" ++ urlencode l) = Some (p, urlencode l)) by (apply (split1_app 63 p (urlencode l)); exact NP).
  rewrite E2 in S1. assert (S2 : split1 63 (q ++ u "?" ++ urlencode m) = Some (q, urlencode m)) by (apply (split1_app 63 q (urlencode m)); exact NQ).
  rewrite S2 in S1. injection S1 as H1 H2. split; [congruence|]. rewrite <- (parse_encode l), <- (parse_encode m) by assumption. rewrite H2. reflexivity.
Qed.

(** ** A code as text *)
Lemma quote_tag m : (forall c, In c m -> unreserved c = true) -> quote_plus m = m.
Proof.
  intros H. assert (A : ascii_str m) by (intros c I; exact (proj1 (unreserved_range c (H c I)))). unfold quote_plus. rewrite enc_ascii by exact A. clear A.
  induction m as [|c m IH]; [reflexivity|]. cbn [flat_map]. rewrite IH by (intros x I; apply H; right; exact I).
  assert (U := H c (or_introl eq_refl)). destruct (unreserved_range c U) as (_ & _ & _ & N32 & _). unfold quote_plus_byte, quote_byte. rewrite U.
  destruct (N.eqb_spec c 32); [contradiction|]. reflexivity.
Qed.
Lemma encode_snoc l k v : l <> [] -> urlencode (l ++ [(k, v)]) = urlencode l ++ u "&" ++ quote_plus k ++ u "=" ++ quote_plus v.
Proof.
  unfold urlencode. induction l as [|e l IH]; [contradiction|]. intros _. destruct l as [|e2 l]; [cbn [app map join fst snd]; rewrite <- !app_assoc; reflexivity|].
  assert (X : e2 :: l <> []) by discriminate. specialize (IH X). cbn [app map join] in IH |- *. rewrite IH, <- !app_assoc. reflexivity.
Qed.
Lemma tag_scalar m : (forall c, In c m -> unreserved c = true) -> forall c, In c m -> scalar c.
Proof. intros H c I. left. destruct (unreserved_range c (H c I)). lia. Qed.
Lemma tag_ascii m : (forall c, In c m -> unreserved c = true) -> forallb (fun c => c <? 128)%N m = true.
Proof. intros H. apply forallb_forall. intros c I. apply N.ltb_lt. exact (proj1 (unreserved_range c (H c I))). Qed.

Lemma rsplit1_split c s a b : rsplit1 c s = Some (a, b) -> s = a ++ c :: b.
Proof.
  unfold rsplit1. destruct (split1 c (rev s)) as [(x, y)|] eqn:E; [|discriminate]. intros H. assert (a = rev y /\ b = rev x) by (split; congruence). destruct H0 as [-> ->].
  apply split1_some in E. destruct E as [E _]. rewrite <- (rev_involutive s), E, rev_app_distr. cbn [rev]. rewrite <- app_assoc. reflexivity.
Qed.
Lemma split_params_join path p seg : path = [] \/ (exists r, path = u "/" ++ r) -> split_params path = (p, seg) -> (p = path /\ seg = []) \/ path = p ++ u ";" ++ seg.
Proof.
  intros _ E. unfold split_params in E. destruct (rsplit1 47 path) as [(a, b)|] eqn:R.
  - destruct (split1 59 b) as [(x, y)|] eqn:S1; [|left; split; congruence]. right. apply split1_some in S1. destruct S1 as [-> _].
    apply rsplit1_split in R. assert (p = a ++ u "/" ++ x /\ seg = y) by (split; congruence). destruct H as [-> ->]. rewrite R, <- !app_assoc. reflexivity.
  - destruct (split1 59 path) as [(x, y)|] eqn:S1; [|left; split; congruence]. right. apply split1_some in S1. destruct S1 as [-> _]. assert (p = x /\ seg = y) by (split; congruence). destruct H as [-> ->]. reflexivity.
Qed.
