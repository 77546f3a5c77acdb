(** Lemmas for C69 and C70, also used for the middlewares that redirect. *)
From Coq Require Import Permutation.
From Verif Require Import PyStr PyStrFacts Utf8 UrlModel UrlSpec.

Ltac inv H := inversion H; subst; clear H.

(** ** Texts *)
Lemma in_u (c : N) (l : str) : cmem c l = true -> In c l.
Proof. intros H. exact (proj1 (cmem_In c l) H). Qed.
Lemma free_of_not l s c : free_of l s -> cmem c l = true -> ~ In c s.
Proof. intros F M I. exact (F c I (in_u c l M)). Qed.
Ltac nope F := apply (free_of_not _ _ _ F); reflexivity.
Lemma free_of_app l a b : free_of l (a ++ b) <-> free_of l a /\ free_of l b.
Proof.
  unfold free_of. split.
  - intros H. split; intros c I; apply H; apply in_or_app; auto.
  - intros [A B] c I. apply in_app_or in I as [I|I]; auto.
Qed.
Lemma smooth_app a b : smooth (a ++ b) <-> smooth a /\ smooth b.
Proof.
  unfold smooth. split.
  - intros H. split; intros c I; apply H; apply in_or_app; auto.
  - intros [A B] c I. apply in_app_or in I as [I|I]; auto.
Qed.
Lemma smooth_nil : smooth [].
Proof. intros c []. Qed.
Lemma smooth_lit (s : str) : forallb (fun c => negb (unsafe c)) s = true -> smooth s.
Proof.
  intros H c I. rewrite forallb_forall in H. specialize (H c I). unfold unsafe in H.
  rewrite negb_true_iff, !orb_false_iff, !N.eqb_neq in H. tauto.
Qed.
Lemma smooth_dec n : smooth (dec n).
Proof. intros c I. assert (D := proj1 (forallb_forall _ _) (dec_digits n) c I). unfold is_digit in D. lia. Qed.

Lemma filter_smooth s : smooth s -> filter (fun c => negb (unsafe c)) s = s.
Proof.
  intros H. induction s as [|c s IH]; [reflexivity|]. cbn [filter].
  destruct (H c (or_introl eq_refl)) as (A & B & C). unfold unsafe at 1.
  rewrite (proj2 (N.eqb_neq _ _) A), (proj2 (N.eqb_neq _ _) B), (proj2 (N.eqb_neq _ _) C). cbn [orb negb]. f_equal. apply IH.
  intros x X. apply H. right. exact X.
Qed.
Lemma clean_id s : smooth s -> (forall c r, s = c :: r -> (32 < c)%N) -> clean s = s.
Proof.
  intros H F. unfold clean. destruct s as [|c r]; [reflexivity|]. cbn [lstrip_by].
  specialize (F c r eq_refl). destruct (N.leb_spec c 32); [lia|]. apply filter_smooth. exact H.
Qed.

Lemma span_app stop a b : (forall c, In c a -> stop c = false) -> (forall c r, b = c :: r -> stop c = true) ->
  span stop (a ++ b) = (a, b).
Proof.
  intros A B. induction a as [|c a IH]; cbn [app].
  - destruct b as [|c b]; [reflexivity|]. cbn [span]. rewrite (B c b eq_refl). reflexivity.
  - cbn [span]. rewrite (A c (or_introl eq_refl)), IH; [reflexivity|]. intros x X. apply A. right. exact X.
Qed.

Lemma partition_hit c a b : ~ In c a -> partition c (a ++ c :: b) = (a, b).
Proof. intros H. unfold partition. rewrite split1_app by exact H. reflexivity. Qed.
Lemma partition_miss c a : ~ In c a -> partition c a = (a, []).
Proof. intros H. unfold partition. rewrite (proj2 (split1_none c a) H). reflexivity. Qed.
Lemma after_last_hit c a b : ~ In c b -> after_last c (a ++ c :: b) = b.
Proof. intros H. unfold after_last. rewrite rsplit1_app by exact H. reflexivity. Qed.
Lemma after_last_miss c a : ~ In c a -> after_last c a = a.
Proof. intros H. unfold after_last. rewrite (proj2 (rsplit1_none c a) H). reflexivity. Qed.

(** ** Splitting and joining *)
Lemma scheme_facts s : scheme_name s -> scheme_ok s = true /\ lower s = s /\ ~ In 58%N s /\ smooth s /\ s <> [] /\ (forall c r, s = c :: r -> (32 < c)%N).
Proof.
  intros (c & r & -> & C & R).
  assert (X : forall x, In x (c :: r) -> (97 <= x <= 122 \/ 48 <= x <= 57 \/ x = 43 \/ x = 45 \/ x = 46)%N).
  { intros x [<-|I]; [tauto|]. destruct (R x I) as [?|[?|I']]; [tauto|tauto|]. cbn in I'. destruct I' as [<-|[<-|[<-|[]]]]; tauto. }
  refine (conj _ (conj _ (conj _ (conj _ (conj _ _))))).
  - unfold scheme_ok. apply andb_true_intro. split.
    + unfold is_letter, between. apply orb_true_iff. right. apply andb_true_intro. split; apply N.leb_le; lia.
    + apply forallb_forall. intros x I. specialize (X x I). unfold scheme_char, is_letter, is_digit, between.
      destruct X as [?|[?|[-> | [-> | -> ]]]]; [| |reflexivity..].
      * replace ((97 <=? x) && (x <=? 122))%N with true; [rewrite orb_true_r; reflexivity|].
        symmetry. apply andb_true_intro. split; apply N.leb_le; lia.
      * replace ((48 <=? x) && (x <=? 57))%N with true; [rewrite orb_true_r; reflexivity|].
        symmetry. apply andb_true_intro. split; apply N.leb_le; lia.
  - unfold lower. rewrite <- (map_id (c :: r)) at 2. apply map_ext_in. intros x I. specialize (X x I). unfold lower_c.
    destruct (N.leb_spec 65 x), (N.leb_spec x 90); cbn [andb]; lia.
  - intros I. specialize (X _ I). lia.
  - intros x I. specialize (X _ I). lia.
  - discriminate.
  - intros c' r' E. injection E as <- <-. lia.
Qed.

Lemma net_end_spec c : net_end c = true <-> In c (u "/?#").
Proof. unfold net_end. rewrite !orb_true_iff, !N.eqb_eq. cbn. split; [intros [[A|A]|A]; subst; tauto | intros [A|[A|[A|[]]]]; subst; tauto]. Qed.

(** The tail of a URL: path, query and fragment. *)
Definition tail (path query fragment : str) : str :=
  path ++ match query with [] => [] | _ => u "?" ++ query end ++ match fragment with [] => [] | _ => u "#" ++ fragment end.
Lemma tail_starts path query fragment : good_path path -> forall c r, tail path query fragment = c :: r -> net_end c = true.
Proof.
  intros (E & _ & _) c r H. unfold tail in H. destruct E as [->|(p & ->)].
  - cbn [app] in H. destruct query; [destruct fragment|]; cbn in H; [discriminate| |]; injection H as <- _; reflexivity.
  - cbn in H. injection H as <- _. reflexivity.
Qed.
Lemma tail_split path query fragment : good_path path -> good_query query ->
  partition 35 (tail path query fragment) = (path ++ match query with [] => [] | _ => u "?" ++ query end, fragment)
  /\ partition 63 (path ++ match query with [] => [] | _ => u "?" ++ query end) = (path, query).
Proof.
  intros (_ & P & _) (Q & _).
  assert (NP : ~ In 35%N path) by (apply (free_of_not _ _ _ P); reflexivity).
  assert (NQ : ~ In 35%N query) by (apply (free_of_not _ _ _ Q); reflexivity).
  assert (NP' : ~ In 63%N path) by (apply (free_of_not _ _ _ P); reflexivity).
  split.
  - unfold tail. rewrite app_assoc.
    assert (N : ~ In 35%N (path ++ match query with [] => [] | _ => u "?" ++ query end)).
    { intros I. apply in_app_or in I as [I|I]; [contradiction|]. destruct query; [destruct I|]. cbn [u] in I.
      apply in_app_or in I as [I|I]; [|contradiction]. cbn in I. destruct I as [I|[]]. discriminate. }
    destruct fragment as [|f fr].
    + rewrite app_nil_r. apply partition_miss. exact N.
    + change (u "#" ++ f :: fr) with (35%N :: f :: fr). apply partition_hit. exact N.
  - destruct query as [|q qr].
    + rewrite app_nil_r. apply partition_miss. exact NP'.
    + change (u "?" ++ q :: qr) with (63%N :: q :: qr). apply partition_hit. exact NP'.
Qed.
Lemma tail_smooth path query fragment : good_path path -> good_query query -> smooth fragment -> smooth (tail path query fragment).
Proof.
  intros (_ & _ & P) (_ & Q) F. unfold tail. apply smooth_app. split; [exact P|]. apply smooth_app. split.
  - destruct query; [apply smooth_nil|]. apply smooth_app. split; [apply smooth_lit; reflexivity | exact Q].
  - destruct fragment; [apply smooth_nil|]. apply smooth_app. split; [apply smooth_lit; reflexivity | exact F].
Qed.

Definition good_net (ip_ok : str -> bool) (n : str) : Prop :=
  free_of (u "/?#") n /\ smooth n /\ brackets_ok ip_ok n = true.

(** Splitting the text of a URL gives back its parts. *)
Lemma split_text ip_ok scheme net path query fragment :
  scheme_name scheme -> good_net ip_ok net -> good_path path -> good_query query -> smooth fragment ->
  urlsplit ip_ok (url_text scheme net path query fragment)
  = Some {| p_scheme := scheme; p_netloc := net; p_path := path; p_query := query; p_fragment := fragment |}.
Proof.
  intros S (NF & NS & NB) P Q F. destruct (scheme_facts _ S) as (SO & SL & S58 & SS & SN & S32).
  assert (T : url_text scheme net path query fragment = scheme ++ 58%N :: u "//" ++ net ++ tail path query fragment) by reflexivity.
  rewrite T. unfold urlsplit. rewrite clean_id.
  2:{ apply smooth_app. split; [exact SS|]. change (58%N :: u "//" ++ net ++ tail path query fragment) with (u "://" ++ net ++ tail path query fragment).
      apply smooth_app. split; [apply smooth_lit; reflexivity|]. apply smooth_app. split; [exact NS|]. apply tail_smooth; assumption. }
  2:{ intros c r E. destruct scheme as [|s sr]; [contradiction|]. cbn [app] in E. injection E as <- _. exact (S32 s sr eq_refl). }
  rewrite split1_app by exact S58. rewrite SO, SL.
  rewrite (proj2 (prefixb_iff (u "//") _) ltac:(exists (net ++ tail path query fragment); reflexivity)).
  change (skipn 2 (u "//" ++ net ++ tail path query fragment)) with (net ++ tail path query fragment).
  rewrite span_app.
  2:{ intros c I. destruct (net_end c) eqn:E; [|reflexivity]. exfalso. apply (NF c I). exact (proj1 (net_end_spec c) E). }
  2:{ apply tail_starts. exact P. }
  rewrite NB. cbn [negb]. destruct (tail_split path query fragment P Q) as [A B]. rewrite A, B. reflexivity.
Qed.

Lemma unsplit_text scheme net path query fragment : scheme <> [] -> net <> [] -> good_path path ->
  urlunsplit {| p_scheme := scheme; p_netloc := net; p_path := path; p_query := query; p_fragment := fragment |}
  = url_text scheme net path query fragment.
Proof.
  intros S N (P & _ & _). unfold urlunsplit. cbn [p_scheme p_netloc p_path p_query p_fragment].
  destruct scheme as [|s sr]; [contradiction|]. destruct net as [|n nr]; [contradiction|]. cbn [empty negb orb].
  assert (X : (if negb (empty path) && negb (prefixb (u "/") path) then u "/" ++ path else path) = path).
  { destruct P as [->|(r & ->)]; [reflexivity|]. change (prefixb (u "/") (u "/" ++ r)) with true. cbn [negb]. rewrite andb_false_r. reflexivity. }
  rewrite X. unfold url_text.
  destruct query as [|q qr], fragment as [|f fr]; cbn [empty]; cbv iota; rewrite ?app_nil_r, <- ?app_assoc; reflexivity.
Qed.

(** ** Authorities *)
Lemma host_brackets ip_ok h : good_host ip_ok h ->
  free_of (u "@/?#") h /\ smooth h /\ brackets_ok ip_ok h = true /\ h <> [].
Proof.
  intros [h' N F S|a A F S].
  - refine (conj _ (conj S (conj _ N))).
    + intros c I J. apply (F c I). cbn in J |- *. tauto.
    + unfold brackets_ok. rewrite (proj2 (cmem_not_In 91%N h') (free_of_not _ _ 91%N F eq_refl)), (proj2 (cmem_not_In 93%N h') (free_of_not _ _ 93%N F eq_refl)). reflexivity.
  - assert (F' : free_of (u "@/?#") (u "[" ++ a ++ u "]")).
    { intros c I J. apply in_app_or in I as [I|I]; [|apply in_app_or in I as [I|I]].
      - cbn in I, J. destruct I as [<-|[]]. repeat (destruct J as [J|J]; [discriminate|]). destruct J.
      - apply (F c I). cbn in J |- *. tauto.
      - cbn in I, J. destruct I as [<-|[]]. repeat (destruct J as [J|J]; [discriminate|]). destruct J. }
    refine (conj F' (conj _ (conj _ _))); [| |discriminate].
    + apply smooth_app. split; [apply smooth_lit; reflexivity|]. apply smooth_app. split; [exact S | apply smooth_lit; reflexivity].
    + unfold brackets_ok. 
      rewrite (proj2 (cmem_In 91%N _) (in_or_app _ _ _ (or_introl (in_u 91%N (u "[") eq_refl)))).
      rewrite (proj2 (cmem_In 93%N _) (in_or_app (u "[") _ _ (or_intror (in_or_app a _ _ (or_intror (in_u 93%N (u "]") eq_refl)))))).
      cbn [andb]. change (u "[" ++ a ++ u "]") with ([] ++ 91%N :: (a ++ u "]")). rewrite partition_hit by (intros []). cbn [snd].
      change (u "]") with [93%N]. rewrite partition_hit by nope F. exact A.
Qed.

Lemma dec_free l n : forallb (fun c => negb (is_digit c)) l = true -> free_of l (dec n).
Proof.
  intros L c I J. assert (D := proj1 (forallb_forall _ _) (dec_digits n) c I). assert (E := proj1 (forallb_forall _ _) L c J).
  cbn beta in E. rewrite D in E. discriminate.
Qed.
Definition port_suffix (p : option N) : str := match p with None => [] | Some n => u ":" ++ dec n end.
Definition user_prefix (us pw : option str) : str :=
  match us with None => [] | Some us => us ++ match pw with None => [] | Some pw => u ":" ++ pw end ++ u "@" end.
Lemma authority_eq us pw h p : authority us pw h p = user_prefix us pw ++ h ++ port_suffix p.
Proof. reflexivity. Qed.
Lemma suffix_free p l : forallb (fun c => negb (is_digit c) && negb (N.eqb c 58)) l = true -> free_of l (port_suffix p).
Proof.
  intros L. destruct p as [n|]; [|intros c []]. cbn [port_suffix]. apply free_of_app. split.
  - intros c [<-|[]] J. assert (E := proj1 (forallb_forall _ _) L _ J). discriminate.
  - apply dec_free. apply forallb_forall. intros x X. assert (E := proj1 (forallb_forall _ _) L x X). cbn beta in E.
    apply andb_true_iff in E as [E _]. exact E.
Qed.
Lemma suffix_smooth p : smooth (port_suffix p).
Proof. destruct p as [n|]; [|apply smooth_nil]. apply smooth_app. split; [apply smooth_lit; reflexivity | apply smooth_dec]. Qed.
Lemma free_weaken l l' s : (forall c, In c l' -> In c l) -> free_of l s -> free_of l' s.
Proof. intros W F c I J. exact (F c I (W c J)). Qed.
Lemma incl_lit (l l' : str) : forallb (fun c => cmem c l) l' = true -> forall c, In c l' -> In c l.
Proof. intros H c I. apply in_u. exact (proj1 (forallb_forall _ _) H c I). Qed.

Section Authority.
  Variables (ip_ok : str -> bool) (us pw : option str) (h : str) (p : option N).
  Hypothesis G : good_authority ip_ok us pw h p.

  Lemma prefix_free : free_of (u "/?#[]") (user_prefix us pw) /\ smooth (user_prefix us pw).
  Proof.
    unfold user_prefix. destruct us as [a|]; [|split; [intros c [] | apply smooth_nil]].
    destruct (ga_user _ _ _ _ _ G a eq_refl) as [UF US].
    assert (L : free_of (u "/?#[]") (u "@") /\ smooth (u "@")).
    { split; [|apply smooth_lit; reflexivity]. intros c [<-|[]] J. cbn in J. repeat (destruct J as [J|J]; [discriminate|]). destruct J. }
    assert (C : free_of (u "/?#[]") (u ":") /\ smooth (u ":")).
    { split; [|apply smooth_lit; reflexivity]. intros c [<-|[]] J. cbn in J. repeat (destruct J as [J|J]; [discriminate|]). destruct J. }
    assert (UF' : free_of (u "/?#[]") a) by (apply (free_weaken (u "@:/?#[]")); [apply incl_lit; reflexivity | exact UF]).
    destruct pw as [b|].
    - destruct (ga_pass _ _ _ _ _ G b eq_refl) as [PF PS].
      assert (PF' : free_of (u "/?#[]") b) by (apply (free_weaken (u "@/?#[]")); [apply incl_lit; reflexivity | exact PF]).
      split; [rewrite !free_of_app | rewrite !smooth_app]; tauto.
    - split; [rewrite !free_of_app | rewrite !smooth_app]; (split; [tauto|]); (split; [intros c []|tauto]).
  Qed.

  Lemma authority_net : good_net ip_ok (authority us pw h p) /\ authority us pw h p <> [].
  Proof.
    rewrite authority_eq. destruct prefix_free as [PF PS]. assert (SF := suffix_free p (u "/?#[]") eq_refl).
    destruct (host_brackets ip_ok h (ga_host _ _ _ _ _ G)) as (HF & HS & HB & HN).
    split.
    - refine (conj _ (conj _ _)).
      + rewrite !free_of_app. refine (conj _ (conj _ _)).
        * apply (free_weaken (u "/?#[]")); [apply incl_lit; reflexivity | exact PF].
        * apply (free_weaken (u "@/?#")); [apply incl_lit; reflexivity | exact HF].
        * apply (free_weaken (u "/?#[]")); [apply incl_lit; reflexivity | exact SF].
      + rewrite !smooth_app. exact (conj PS (conj HS (suffix_smooth p))).
      + assert (P91 := free_of_not _ _ 91%N PF eq_refl). assert (P93 := free_of_not _ _ 93%N PF eq_refl).
        assert (S91 := free_of_not _ _ 91%N SF eq_refl). assert (S93 := free_of_not _ _ 93%N SF eq_refl).
        destruct (ga_host _ _ _ _ _ G) as [h' N F S|a A F S].
        * unfold brackets_ok.
          assert (X : forall c, (c = 91%N \/ c = 93%N) -> cmem c (user_prefix us pw ++ h' ++ port_suffix p) = false).
          { intros c C. apply cmem_not_In. intros I. apply in_app_or in I as [I|I]; [|apply in_app_or in I as [I|I]].
            - destruct C as [-> | ->]; contradiction.
            - destruct C as [-> | ->]; revert I; nope F.
            - destruct C as [-> | ->]; contradiction. }
          rewrite !X by tauto. reflexivity.
        * replace (user_prefix us pw ++ (u "[" ++ a ++ u "]") ++ port_suffix p) with (user_prefix us pw ++ 91%N :: (a ++ 93%N :: port_suffix p))
            by (cbn [u app]; rewrite <- !app_assoc; reflexivity).
          unfold brackets_ok.
          rewrite (proj2 (cmem_In 91%N _)) by (apply in_or_app; right; left; reflexivity).
          rewrite (proj2 (cmem_In 93%N _)) by (apply in_or_app; right; right; apply in_or_app; right; left; reflexivity).
          cbn [andb]. rewrite partition_hit by exact P91. cbn [snd]. rewrite partition_hit by nope F. exact A.
    - intros E. apply app_eq_nil in E as [_ E]. apply app_eq_nil in E as [E _]. contradiction.
  Qed.

  Lemma host_no_at : ~ In 64%N (h ++ port_suffix p).
  Proof.
    intros I. apply in_app_or in I as [I|I].
    - destruct (host_brackets ip_ok h (ga_host _ _ _ _ _ G)) as (HF & _). revert I; nope HF.
    - exact (free_of_not _ _ 64%N (suffix_free p (u "@") eq_refl) eq_refl I).
  Qed.
  Lemma authority_after : after_last 64 (authority us pw h p) = h ++ port_suffix p.
  Proof.
    assert (NA := host_no_at). rewrite authority_eq. unfold user_prefix. destruct us as [a|].
    - replace ((a ++ match pw with Some b => u ":" ++ b | None => [] end ++ u "@") ++ h ++ port_suffix p)
        with ((a ++ match pw with Some b => u ":" ++ b | None => [] end) ++ 64%N :: (h ++ port_suffix p)).
      + apply after_last_hit. exact NA.
      + rewrite <- !app_assoc. reflexivity.
    - apply after_last_miss. exact NA.
  Qed.

  (** The bare host: without brackets. *)
  Lemma authority_hostinfo : exists b, hostinfo (authority us pw h p) = (b, match p with Some n => dec n | None => [] end)
    /\ (h = b /\ b <> [] \/ h = u "[" ++ b ++ u "]").
  Proof.
    unfold hostinfo. rewrite authority_after.
    destruct (ga_host _ _ _ _ _ G) as [h' N F S|a A F S].
    - exists h'. split; [|left; auto].
      assert (X : split1 91 (h' ++ port_suffix p) = None).
      { apply split1_none. intros I. apply in_app_or in I as [I|I]; [revert I; nope F|].
        exact (free_of_not _ _ 91%N (suffix_free p (u "[") eq_refl) eq_refl I). }
      rewrite X. destruct p as [n|]; cbn [port_suffix].
      + change (u ":" ++ dec n) with (58%N :: dec n). apply partition_hit. nope F.
      + rewrite app_nil_r. apply partition_miss. nope F.
    - exists a. split; [|right; reflexivity].
      replace ((u "[" ++ a ++ u "]") ++ port_suffix p) with ([] ++ 91%N :: (a ++ 93%N :: port_suffix p)) by (cbn [u app]; rewrite <- app_assoc; reflexivity).
      rewrite split1_app by (intros []). rewrite partition_hit by nope F.
      destruct p as [n|]; cbn [port_suffix].
      + change (u ":" ++ dec n) with ([] ++ 58%N :: dec n). rewrite partition_hit by (intros []). reflexivity.
      + rewrite partition_miss by (intros []). reflexivity.
  Qed.
End Authority.


Section Authority2.
  Variables (ip_ok : str -> bool) (us pw : option str) (h : str) (p : option N).
  Hypothesis G : good_authority ip_ok us pw h p.

  Lemma authority_port : port (authority us pw h p) = Some p.
  Proof.
    destruct (authority_hostinfo _ _ _ _ _ G) as (b & E & _). unfold port. rewrite E. cbn [snd].
    destruct p as [n|]; [|reflexivity]. assert (V := dec_val n). assert (D := dec_digits n). assert (NN := dec_nonnil n).
    destruct (dec n) as [|c r] eqn:ED; [contradiction|]. rewrite D, V. cbn [andb].
    destruct (N.leb_spec n 65535); [reflexivity|]. assert (X := ga_port _ _ _ _ _ G n eq_refl). lia.
  Qed.
  Lemma authority_rsplit : rsplit1 64 (authority us pw h p)
    = match us with Some a => Some (a ++ match pw with Some b => u ":" ++ b | None => [] end, h ++ port_suffix p) | None => None end.
  Proof.
    rewrite authority_eq. unfold user_prefix. assert (NA := host_no_at _ _ _ _ _ G). destruct us as [a|].
    - replace ((a ++ match pw with Some b => u ":" ++ b | None => [] end ++ u "@") ++ h ++ port_suffix p)
        with ((a ++ match pw with Some b => u ":" ++ b | None => [] end) ++ 64%N :: (h ++ port_suffix p)).
      + apply rsplit1_app. exact NA.
      + rewrite <- !app_assoc. reflexivity.
    - apply rsplit1_none. exact NA.
  Qed.
  Lemma authority_user : username (authority us pw h p) = us.
  Proof.
    unfold username. rewrite authority_rsplit. destruct us as [a|]; [|reflexivity]. f_equal.
    assert (F := proj1 (ga_user _ _ _ _ _ G a eq_refl)). destruct pw as [b|].
    - change (u ":" ++ b) with (58%N :: b). rewrite partition_hit by nope F. reflexivity.
    - rewrite app_nil_r, partition_miss by nope F. reflexivity.
  Qed.
  Lemma authority_pass : password (authority us pw h p) = match us with Some _ => pw | None => None end.
  Proof.
    unfold password. rewrite authority_rsplit. destruct us as [a|]; [|reflexivity].
    assert (F := proj1 (ga_user _ _ _ _ _ G a eq_refl)). destruct pw as [b|].
    - change (u ":" ++ b) with (58%N :: b). rewrite split1_app by nope F. reflexivity.
    - rewrite app_nil_r. assert (X : split1 58 a = None) by (apply split1_none; nope F). rewrite X. reflexivity.
  Qed.
  (** The host [_build_netloc] finds when none is given. *)
  Lemma authority_host_part : cut_port (h ++ port_suffix p) = h.
  Proof.
    unfold cut_port.
    destruct p as [n|]; cbn [port_suffix].
    - change (u ":" ++ dec n) with (58%N :: dec n).
      assert (R : rsplit1 58 (h ++ 58%N :: dec n) = Some (h, dec n)).
      { apply rsplit1_app. exact (free_of_not (u ":") (dec n) 58%N (dec_free (u ":") n eq_refl) eq_refl). }
      rewrite R. rewrite rev_app_distr. cbn [rev]. rewrite <- app_assoc.
      assert (D := proj1 (forallb_forall _ _) (dec_digits n)). assert (NN := dec_nonnil n).
      destruct (rev (dec n)) as [|c r] eqn:E; [exfalso; apply NN; rewrite <- (rev_involutive (dec n)), E; reflexivity|].
      cbn [app]. assert (I : In c (dec n)) by (rewrite in_rev, E; left; reflexivity).
      apply D in I. destruct (N.eqb_spec c 93) as [->|_]; [discriminate I | reflexivity].
    - rewrite app_nil_r. destruct (ga_host _ _ _ _ _ G) as [h' NN F S|a A F S].
      + assert (R : rsplit1 58 h' = None) by (apply rsplit1_none; nope F). rewrite R.
        destruct (rev h') as [|c r]; [reflexivity|]. destruct (N.eqb c 93); reflexivity.
      + rewrite !rev_app_distr. cbn [u rev app]. reflexivity.
  Qed.
End Authority2.

(** ** [replace] *)
Lemma url_of_text ip_ok scheme us pw h p path query fragment :
  scheme_name scheme -> good_authority ip_ok us pw h p -> good_path path -> good_query query -> smooth fragment ->
  url_of ip_ok (url_text scheme (authority us pw h p) path query fragment)
  = Some {| text := url_text scheme (authority us pw h p) path query fragment;
            split := {| p_scheme := scheme; p_netloc := authority us pw h p; p_path := path; p_query := query; p_fragment := fragment |} |}.
Proof.
  intros S G P Q F. unfold url_of. rewrite split_text; try assumption; [|exact (proj1 (authority_net _ _ _ _ _ G))].
  cbn [p_netloc]. rewrite (authority_port _ _ _ _ _ G). reflexivity.
Qed.
Lemma rebuild ip_ok scheme us pw h p path query fragment :
  scheme_name scheme -> good_authority ip_ok us pw h p -> good_path path -> good_query query -> smooth fragment ->
  url_of ip_ok (urlunsplit {| p_scheme := scheme; p_netloc := authority us pw h p; p_path := path; p_query := query; p_fragment := fragment |})
  = Some {| text := url_text scheme (authority us pw h p) path query fragment;
            split := {| p_scheme := scheme; p_netloc := authority us pw h p; p_path := path; p_query := query; p_fragment := fragment |} |}.
Proof.
  intros S G P Q F. rewrite unsplit_text; [apply url_of_text; assumption| |exact (proj2 (authority_net _ _ _ _ _ G))|exact P].
  destruct (scheme_facts _ S) as (_ & _ & _ & _ & N & _). exact N.
Qed.

(** The authority [_build_netloc] makes. *)
Lemma built ip_ok us pw h p ho po uo wo : good_authority ip_ok us pw h p ->
  build_netloc (authority us pw h p) ho (match po with Some n => Some (dec n) | None => None end) uo wo
  = authority uo wo (dflt h ho) po.
Proof.
  intros G. unfold build_netloc. rewrite (authority_after _ _ _ _ _ G), (authority_host_part _ _ _ _ _ G).
  rewrite authority_eq. unfold user_prefix, port_suffix.
  destruct ho as [h'|], po as [n|], uo as [a|]; cbn [dflt]; try destruct wo as [b|]; rewrite ?app_nil_r, <- ?app_assoc; reflexivity.
Qed.

(** ** Query strings *)
Lemma between_digit v : (v < 16)%N -> between 48 57 (hexdigit v) || between 65 90 (hexdigit v) = true.
Proof.
  intros H. unfold hexdigit, between. destruct (N.ltb_spec v 10).
  - replace ((48 <=? 48 + v) && (48 + v <=? 57))%N with true; [reflexivity|]. symmetry. apply andb_true_intro. split; apply N.leb_le; lia.
  - replace ((65 <=? 55 + v) && (55 + v <=? 90))%N with true; [apply orb_true_r|]. symmetry. apply andb_true_intro. split; apply N.leb_le; lia.
Qed.
Lemma quoted_char s x : (forall c, In c s -> scalar c) -> In x (quote_plus s) -> unreserved x = true \/ x = 37%N \/ x = 43%N.
Proof.
  intros S I. unfold quote_plus in I. apply in_flat_map in I. destruct I as (b & B & I). assert (R := enc_bytes s b S B).
  unfold quote_plus_byte in I. destruct (N.eqb b 32); [destruct I as [<-|[]]; tauto|].
  unfold quote_byte in I. destruct (unreserved b) eqn:E; [destruct I as [<-|[]]; tauto|].
  assert (M := N.mod_lt b 16 ltac:(lia)). assert (L : (b / 16 < 16)%N) by (apply N.div_lt_upper_bound; lia).
  assert (U : forall v, (v < 16)%N -> unreserved (hexdigit v) = true).
  { intros v V. apply between_digit in V. unfold unreserved. apply orb_true_iff in V as [V|V]; rewrite V; rewrite ?orb_true_r; reflexivity. }
  cbn [In] in I. destruct I as [<-|[<-|[<-|[]]]]; [tauto|left; auto|left; auto].
Qed.
Lemma quoted_not s c : (forall c, In c s -> scalar c) -> unreserved c = false -> c <> 37%N -> c <> 43%N -> ~ In c (quote_plus s).
Proof. intros S A B C I. apply quoted_char in I; [|exact S]. destruct I as [I|[I|I]]; congruence. Qed.

Definition one (e : str * str) : str := quote_plus (fst e) ++ u "=" ++ quote_plus (snd e).
Lemma texts_cons e l : texts (e :: l) -> (forall c, In c (fst e) -> scalar c) /\ (forall c, In c (snd e) -> scalar c) /\ texts l.
Proof.
  intros H. destruct e as [k v]. destruct (H k v (or_introl eq_refl)) as [A B]. refine (conj A (conj B _)).
  intros k' v' I. apply H. right. exact I.
Qed.
Lemma one_not e c : texts [e] -> unreserved c = false -> c <> 37%N -> c <> 43%N -> c <> 61%N -> ~ In c (one e).
Proof.
  intros T A B C D I. destruct (texts_cons _ _ T) as (K & V & _). unfold one in I.
  apply in_app_or in I as [I|I]; [revert I; apply quoted_not; assumption|].
  apply in_app_or in I as [I|I]; [destruct I as [I|[]]; exact (D (eq_sym I)) | revert I; apply quoted_not; assumption].
Qed.
Lemma qsl_one e : texts [e] -> qsl_pair (one e) = e.
Proof.
  intros T. destruct (texts_cons _ _ T) as (K & V & _). unfold qsl_pair, one.
  change (quote_plus (fst e) ++ u "=" ++ quote_plus (snd e)) with (quote_plus (fst e) ++ 61%N :: quote_plus (snd e)).
  rewrite partition_hit by (apply quoted_not; [exact K|reflexivity|discriminate|discriminate]).
  rewrite !unquote_plus_quote_plus by assumption. destruct e. reflexivity.
Qed.
Lemma one_nonempty e : empty (one e) = false.
Proof. unfold one. destruct (quote_plus (fst e)); reflexivity. Qed.
Lemma parse_encode l : texts l -> parse_qsl (urlencode l) = l.
Proof.
  intros T. unfold parse_qsl, urlencode. destruct l as [|e l]; [reflexivity|].
  change (u "&") with [38%N]. rewrite split_char_join; [|discriminate|].
  2:{ intros x X. apply in_map_iff in X. destruct X as ((k & v) & <- & X). apply (one_not (k, v)); [|reflexivity|discriminate..].
      intros k' v' [E|[]]. injection E as <- <-. apply (T k v X). }
  change (fun e0 : str * str => quote_plus (fst e0) ++ u "=" ++ quote_plus (snd e0)) with one.
  induction (e :: l) as [|e' l' IH]; [reflexivity|]. cbn [map filter]. rewrite one_nonempty. cbn [negb map].
  rewrite qsl_one, IH; [reflexivity | |].
  - intros k v I. apply T. right. exact I.
  - intros k v [E|[]]. apply T. left. exact E.
Qed.
Lemma encode_good l : texts l -> good_query (urlencode l).
Proof.
  intros T.
  assert (X : forall c, In c (urlencode l) -> c = 38%N \/ c = 61%N \/ unreserved c = true \/ c = 37%N \/ c = 43%N).
  { intros c I. unfold urlencode in I. change (fun e0 : str * str => quote_plus (fst e0) ++ u "=" ++ quote_plus (snd e0)) with one in I.
    induction l as [|e l IH]; [destruct I|]. destruct (texts_cons _ _ T) as (K & V & T').
    assert (O : forall c, In c (one e) -> c = 38%N \/ c = 61%N \/ unreserved c = true \/ c = 37%N \/ c = 43%N).
    { intros x J. unfold one in J. apply in_app_or in J as [J|J]; [apply quoted_char in J; tauto|].
      apply in_app_or in J as [J|J]; [cbn in J; destruct J as [J|[]]; auto | apply quoted_char in J; tauto]. }
    destruct l as [|e2 l].
    - cbn [map join] in I. apply O. exact I.
    - cbn [map] in I, IH. change (In c (one e ++ u "&" ++ join (u "&") (one e2 :: map one l))) in I.
      apply in_app_or in I as [I|I]; [apply O; exact I|]. apply in_app_or in I as [I|I]; [cbn in I; destruct I as [I|[]]; auto|].
      apply IH; assumption. }
  split.
  - intros c I [<-|[]]. destruct (X _ I) as [Y|[Y|[Y|[Y|Y]]]]; discriminate.
  - intros c I. specialize (X c I). repeat split; intros ->; destruct X as [Y|[Y|[Y|[Y|Y]]]]; discriminate.
Qed.

Lemma piece_in c s : forall p, In p (split_char c s) -> forall x, In x p -> In x s.
Proof.
  induction s as [|a s IH]; intros p I x X.
  - cbn in I. destruct I as [<-|[]]. exact X.
  - cbn in I. destruct (N.eqb a c).
    + destruct I as [<-|I]; [destruct X|]. right. exact (IH p I x X).
    + destruct (split_char c s) as [|w l] eqn:E; [destruct I as [<-|[]]; destruct X as [<-|[]]; left; reflexivity|].
      destruct I as [<-|I].
      * destruct X as [<-|X]; [left; reflexivity|]. right. exact (IH w (or_introl eq_refl) x X).
      * right. exact (IH p (or_intror I) x X).
Qed.
Lemma parsed_texts q : (forall c, In c q -> scalar c) -> texts (parse_qsl q).
Proof.
  intros S k v I. unfold parse_qsl in I. apply in_map_iff in I. destruct I as (p & E & I). apply filter_In in I as [I _].
  assert (P : forall x, In x p -> scalar x) by (intros x X; apply S; exact (piece_in 38 q p I x X)).
  assert (PA : forall x, In x (fst (partition 61 p)) \/ In x (snd (partition 61 p)) -> In x p).
  { intros x X. unfold partition in X. destruct (split1 61 p) as [[a b]|] eqn:E1.
    - apply split1_some in E1 as [-> _]. apply in_or_app. cbn in X |- *. tauto.
    - cbn in X. tauto. }
  assert (U : forall w, (forall x, In x w -> scalar x) -> forall x, In x (unquote_plus w) -> scalar x).
  { intros w W. apply unquote_scalar. intros x X. unfold plus_to_space in X. apply in_map_iff in X. destruct X as (y & <- & Y).
    destruct (N.eqb y 43); [left; lia | exact (W y Y)]. }
  unfold qsl_pair in E. destruct (partition 61 p) as [a b]. cbn [fst snd] in PA. injection E as <- <-.
  split; apply U; intros x X; apply P, PA; tauto.
Qed.

Lemma texts_perm l l' : Permutation l l' -> texts l -> texts l'.
Proof. intros P T k v I. apply T. apply (Permutation_in _ (Permutation_sym P)). exact I. Qed.
Lemma param_perm k l l' : Permutation l l' -> Permutation (param k l) (param k l').
Proof.
  intros P. unfold param. apply Permutation_map. induction P; cbn [filter]; [constructor| | |eapply Permutation_trans; eassumption].
  - destruct (seqb (fst x) k); [constructor; exact IHP | exact IHP].
  - destruct (seqb (fst x) k), (seqb (fst y) k); try apply Permutation_refl. apply perm_swap.
Qed.
Lemma param_filter_other k k' l : k <> k' -> param k' (filter (fun e => negb (seqb (fst e) k)) l) = param k' l.
Proof.
  intros N. unfold param. induction l as [|[a b] l IH]; [reflexivity|]. cbn [filter fst].
  destruct (seqb_spec a k) as [->|E]; cbn [negb filter fst].
  - destruct (seqb_spec k k') as [E|_]; [contradiction|]. exact IH.
  - destruct (seqb a k'); cbn [map]; [f_equal|]; exact IH.
Qed.
Lemma param_filter_same k l : param k (filter (fun e => negb (seqb (fst e) k)) l) = [].
Proof.
  unfold param. induction l as [|[a b] l IH]; [reflexivity|]. cbn [filter fst].
  destruct (seqb a k) eqn:E; cbn [negb filter fst]; [exact IH|]. rewrite E. exact IH.
Qed.
Lemma mset_same k v l : param k (mset k v l) = [v].
Proof.
  induction l as [|[a b] l IH]; cbn [mset].
  - unfold param. cbn [filter fst]. rewrite (proj2 (seqb_eq k k) eq_refl). reflexivity.
  - destruct (seqb a k) eqn:E.
    + unfold param. cbn [filter fst]. rewrite (proj2 (seqb_eq k k) eq_refl). cbn [map snd]. f_equal. apply param_filter_same.
    + unfold param in *. cbn [filter fst]. rewrite E. exact IH.
Qed.
Lemma mset_other k v k' l : k <> k' -> param k' (mset k v l) = param k' l.
Proof.
  intros N. assert (NB : seqb k k' = false) by (destruct (seqb_spec k k'); congruence).
  induction l as [|[a b] l IH]; cbn [mset].
  - unfold param. cbn [filter fst]. rewrite NB. reflexivity.
  - destruct (seqb_spec a k) as [->|E].
    + unfold param at 1 2. cbn [filter fst]. rewrite NB. apply param_filter_other. exact N.
    + unfold param in *. cbn [filter fst]. destruct (seqb a k'); cbn [map]; [f_equal|]; exact IH.
Qed.
Lemma mset_in k v l e : In e (mset k v l) -> e = (k, v) \/ In e l.
Proof.
  induction l as [|[a b] l IH]; cbn [mset]; [intros [<-|[]]; auto|].
  destruct (seqb a k); cbn [In].
  - intros [<-|I]; [auto|]. apply filter_In in I. tauto.
  - intros [<-|I]; [auto|]. apply IH in I. tauto.
Qed.
Lemma mupdate_param d : NoDup (map fst d) -> forall l k,
  param k (mupdate d l) = match dget k d with Some v => [v] | None => param k l end.
Proof.
  induction d as [|[a b] d IH]; intros N l k; [reflexivity|]. inv N. unfold mupdate. cbn [fold_left fst snd].
  change (fold_left (fun l0 e => mset (fst e) (snd e) l0) d (mset a b l)) with (mupdate d (mset a b l)). rewrite IH by assumption.
  cbn [dget]. rewrite seqb_sym. destruct (seqb_spec a k) as [->|E].
  - assert (X : dget k d = None) by (apply dget_None_keys; assumption). rewrite X. apply mset_same.
  - destruct (dget k d); [reflexivity|]. apply mset_other. exact E.
Qed.
Lemma mupdate_texts d : texts d -> forall l, texts l -> texts (mupdate d l).
Proof.
  induction d as [|[a b] d IH]; intros T l L; [exact L|]. unfold mupdate. cbn [fold_left fst snd].
  apply IH; [intros k v I; apply T; right; exact I|]. intros k v I. apply mset_in in I as [E|I]; [|exact (L k v I)].
  injection E as -> ->. apply T. left. reflexivity.
Qed.
Lemma mpop_in k l e : In e (mpop k l) -> In e l.
Proof.
  induction l as [|[a b] l IH]; cbn [mpop]; [intros []|]. destruct (seqb a k); cbn [In]; [tauto|]. intros [<-|I]; [auto|]. right. exact (IH I).
Qed.
Lemma mpop_other k k' l : k <> k' -> param k' (mpop k l) = param k' l.
Proof.
  intros N. unfold param. induction l as [|[a b] l IH]; [reflexivity|]. cbn [mpop]. destruct (seqb_spec a k) as [->|E].
  - cbn [filter fst]. destruct (seqb_spec k k') as [E|_]; [contradiction|reflexivity].
  - cbn [filter fst]. destruct (seqb a k'); cbn [map]; [f_equal|]; exact IH.
Qed.
Lemma mpop_same k l : param k (mpop k l) = tl (param k l).
Proof.
  unfold param. induction l as [|[a b] l IH]; [reflexivity|]. cbn [mpop filter fst]. destruct (seqb a k) eqn:E.
  - reflexivity.
  - cbn [filter fst]. rewrite E. exact IH.
Qed.
Lemma mpops_texts keys : forall l, texts l -> texts (fold_left (fun l k => mpop k l) keys l).
Proof.
  induction keys as [|k keys IH]; intros l T; [exact T|]. cbn [fold_left]. apply IH. intros a b I. apply T. exact (mpop_in k l (a, b) I).
Qed.
Lemma mpops_param keys : forall l k, (length (param k l) <= 1)%nat ->
  param k (fold_left (fun l k => mpop k l) keys l) = if smem k keys then [] else param k l.
Proof.
  induction keys as [|a keys IH]; intros l k L; [reflexivity|]. cbn [fold_left].
  destruct (seqb_spec a k) as [->|E].
  - rewrite IH by (rewrite mpop_same; destruct (param k l); cbn in *; lia). rewrite mpop_same.
    assert (X : tl (param k l) = []) by (destruct (param k l) as [|x [|y r]]; [reflexivity|reflexivity|cbn in L; lia]). rewrite X.
    assert (Y : smem k (k :: keys) = true) by (apply smem_In; left; reflexivity). rewrite Y. destruct (smem k keys); reflexivity.
  - rewrite IH by (rewrite mpop_other by exact E; exact L). rewrite mpop_other by exact E.
    assert (Y : smem k (a :: keys) = smem k keys).
    { destruct (smem k keys) eqn:S.
      - apply smem_In. right. apply smem_In. exact S.
      - apply smem_not_In. intros [I|I]; [contradiction|]. revert I. apply smem_not_In. exact S. }
    rewrite Y. reflexivity.
Qed.
