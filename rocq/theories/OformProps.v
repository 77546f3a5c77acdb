(** C277 - C280: the form of the OAuth2 password flow. *)
From Verif Require Import PyStr PyStrFacts.
From Verif Require Import OformModel OformSpec.

Lemma errors_nil f : errors f = [] <-> correct f.
Proof.
  unfold errors. split.
  - intros E. apply app_eq_nil in E as [Eg E]. apply app_eq_nil in E as [Eu E]. apply app_eq_nil in E as [Ep E].
    apply app_eq_nil in E as [Ei Es]. constructor.
    + destruct (dget (u "grant_type") f) as [[s|l]|]; try discriminate Eg. destruct (seqb s (u "password")) eqn:Q; [|discriminate Eg].
      apply seqb_eq in Q as ->. reflexivity.
    + destruct (dget (u "username") f) as [[s|l]|]; try discriminate Eu. now exists s.
    + destruct (dget (u "password") f) as [[s|l]|]; try discriminate Ep. now exists s.
    + unfold text_or_absent. destruct (dget (u "client_id") f) as [[s|l]|]; try discriminate Ei; [right; now exists s|now left].
    + unfold text_or_absent. destruct (dget (u "client_secret") f) as [[s|l]|]; try discriminate Es; [right; now exists s|now left].
  - intros [Cg (s & Cu) (p & Cp) Ci Cs]. rewrite Cg, Cu, Cp, seqb_refl. cbn [is_text app].
    destruct Ci as [-> | (a & ->)], Cs as [-> | (b & ->)]; reflexivity.
Qed.
Lemma split_asks s : asks s (if seqb s [] then [] else split_char 32 s).
Proof.
  destruct (seqb s []) eqn:E.
  - apply seqb_eq in E as ->. refine (conj eq_refl (conj _ (conj (fun _ => eq_refl) _))); [now intros w []|]. intros F. now destruct F.
  - refine (conj (join_split_char 32 s) (conj _ (conj _ _))).
    + intros w I. exact (split_char_parts_free 32 s w I).
    + intros ->. discriminate E.
    + intros _ D. pose proof (join_split_char 32 s) as J. rewrite D in J. cbn in J. subst s. discriminate E.
Qed.
Lemma asks_unique s ws ws' : asks s ws -> asks s ws' -> ws = ws'.
Proof.
  intros (J & F & Z & NZ) (J' & F' & Z' & NZ'). destruct s as [|c s]; [now rewrite Z, Z' by reflexivity|].
  rewrite <- (split_char_join 32 ws), <- (split_char_join 32 ws'); auto; try (apply NZ; discriminate); try (apply NZ'; discriminate).
  change [32%N] with (u " "). now rewrite J, J'.
Qed.
Lemma dmem_none {V} k (d : dict V) : dget k d = None -> dmem k d = false.
Proof. intros E. destruct (dmem k d) eqn:M; [|reflexivity]. apply dmem_iff in M as (v & M). congruence. Qed.
Lemma made_iff f o : make f = Made o <-> dget (u "self") f = None /\ correct f /\
  o = mkObj [(u "grant_type", dget (u "grant_type") f); (u "username", dget (u "username") f);
             (u "password", dget (u "password") f); (u "scope", Some (scope_of f));
             (u "client_id", dget (u "client_id") f); (u "client_secret", dget (u "client_secret") f)]
            (dset (u "scopes") (scope_of f) (filter (fun kv => negb (smem (fst kv) names)) f)).
Proof.
  unfold make. split.
  - destruct (dmem (u "self") f) eqn:M; [discriminate|]. destruct (errors f) eqn:E; [|discriminate]. intros Eo.
    refine (conj _ (conj (proj1 (errors_nil f) E) _)).
    + destruct (dget (u "self") f) eqn:G; [|reflexivity]. enough (dmem (u "self") f = true) by congruence. apply dmem_iff. eauto.
    + now inversion Eo.
  - intros (G & C & ->). rewrite (dmem_none _ _ G). apply errors_nil in C. now rewrite C.
Qed.

(** *** C277: which forms are taken, and what their scopes are *)
Theorem C277_taken f : (exists o, make f = Made o) <-> correct f /\ dget (u "self") f = None.
Proof.
  split.
  - intros (o & E). apply made_iff in E as (G & C & _). auto.
  - intros (C & G). eexists. apply made_iff. eauto.
Qed.
(** The scopes are those of the field "scope", whatever else the client sends, a field "scopes" included. *)
Theorem C277_scopes f o s : make f = Made o -> dget (u "scope") f = Some (Text s) ->
  exists ws, scopes o = Some (Texts ws) /\ asks s ws /\ forall ws', asks s ws' -> ws' = ws.
Proof.
  intros E G. apply made_iff in E as (_ & _ & ->). unfold scopes. cbn [extra]. rewrite dget_dset_same. unfold scope_of. rewrite G. cbn [validate_scope].
  pose proof (split_asks s) as A. exists (if seqb s [] then [] else split_char 32 s). refine (conj _ (conj A _)).
  - now destruct (seqb s []).
  - intros ws' A'. exact (asks_unique s _ _ A' A).
Qed.
Theorem C277_other_scopes f o : make f = Made o ->
  (dget (u "scope") f = None -> scopes o = Some (Texts [])) /\
  (forall l, dget (u "scope") f = Some (Texts l) -> scopes o = Some (Texts l)).
Proof.
  intros E. apply made_iff in E as (_ & _ & ->). unfold scopes. cbn [extra]. rewrite dget_dset_same. unfold scope_of.
  split; [intros -> |intros l ->]; reflexivity.
Qed.
Theorem C277_credentials f o : make f = Made o ->
  dget (u "username") (declared o) = Some (dget (u "username") f) /\ dget (u "password") (declared o) = Some (dget (u "password") f) /\
  dget (u "client_id") (declared o) = Some (dget (u "client_id") f) /\ dget (u "client_secret") (declared o) = Some (dget (u "client_secret") f).
Proof. intros E. apply made_iff in E as (_ & _ & ->). cbn [declared]. auto. Qed.
Print Assumptions C277_taken.
Print Assumptions C277_scopes.
Print Assumptions C277_other_scopes.
Print Assumptions C277_credentials.
Definition login : form := [(u "grant_type", Text (u "password")); (u "username", Text (u "ann")); (u "password", Text (u "pw"));
  (u "scope", Text (u "items:read openid")); (u "scopes", Text (u "admin"))].
Example C277_case : correct login /\ asks (u "items:read openid") [u "items:read"; u "openid"] /\
  match make login with Made o => scopes o = Some (Texts [u "items:read"; u "openid"]) | _ => False end.
Proof.
  refine (conj _ (conj (split_asks (u "items:read openid")) eq_refl)). constructor; try reflexivity; try (eexists; reflexivity); now left.
Qed.

(** *** C278: every scope is a name *)
Definition C278_statement : Prop := forall f o s ws, make f = Made o -> dget (u "scope") f = Some (Text s) ->
  scopes o = Some (Texts ws) -> ~ In [] ws.
Definition asking (s : str) : form := [(u "grant_type", Text (u "password")); (u "username", Text (u "ann")); (u "password", Text (u "pw"));
  (u "scope", Text s)].
Theorem C278_refuted : ~ C278_statement.
Proof.
  intros S. specialize (S (asking (u "a  b"))). destruct (make (asking (u "a  b"))) as [o| |] eqn:E; try discriminate E.
  apply (S o (u "a  b") [u "a"; []; u "b"] eq_refl eq_refl); [|cbn; auto].
  inversion E. reflexivity.
Qed.
Theorem C278_single_spaces_partial f o ws : make f = Made o -> (forall w, In w ws -> w <> [] /\ ~ In 32%N w) ->
  dget (u "scope") f = Some (Text (join (u " ") ws)) -> scopes o = Some (Texts ws).
Proof.
  intros E W G. destruct (C277_scopes f o _ E G) as (ws' & -> & _ & U). f_equal. f_equal. symmetry. apply U.
  refine (conj eq_refl (conj _ (conj _ _))).
  - intros w I. apply (W w I).
  - destruct ws as [|w [|w2 ws]]; [reflexivity| |].
    + cbn. intros ->. now destruct (proj1 (W [] (or_introl eq_refl))).
    + cbn. destruct w; discriminate.
  - intros N ->. now apply N.
Qed.
Print Assumptions C278_refuted.
Print Assumptions C278_single_spaces_partial.
Example C278_case : forall w, In w [u "items:read"; u "openid"] -> w <> [] /\ ~ In 32%N w.
Proof. intros w [<-|[<-|[]]]; (split; [discriminate|]); intros I; cbn in I; decompose [or] I; try discriminate; assumption. Qed.

(** *** C279: a dump leaves out what the caller excludes *)
Definition C279_statement : Prop := forall ex f o k, make f = Made o -> In k ex -> dget k (dump ex o) = None.
Theorem C279_refuted : ~ C279_statement.
Proof.
  intros S. destruct (make login) as [o| |] eqn:E; try discriminate E.
  specialize (S [u "password"] login o (u "password") E (or_introl eq_refl)). inversion E; subst o. discriminate S.
Qed.
(** The password is in every dump. *)
Theorem C279_password_refuted ex f o : make f = Made o -> dget (u "password") (dump ex o) = Some (dget (u "password") f).
Proof. intros E. apply made_iff in E as (_ & _ & ->). reflexivity. Qed.
Lemma dget_filter_out {V} k0 k (d : dict V) : dget k (filter (fun kv => negb (smem (fst kv) [k0])) d) = if seqb k k0 then None else dget k d.
Proof.
  induction d as [|[k' v] d IH]; cbn [filter fst]; [now destruct (seqb k k0)|].
  replace (smem k' [k0]) with (seqb k' k0) by (unfold smem; cbn [existsb]; now rewrite orb_false_r).
  destruct (seqb k' k0) eqn:E; cbn [negb dget].
  - rewrite IH. apply seqb_eq in E as ->. now destruct (seqb k k0).
  - destruct (seqb k k') eqn:F; [|exact IH]. apply seqb_eq in F as ->. now rewrite E.
Qed.
Theorem C279_scope_partial ex o : dget (u "scope") (dump ex o) = None.
Proof. unfold dump. rewrite dget_filter_out. reflexivity. Qed.
Print Assumptions C279_refuted.
Print Assumptions C279_password_refuted.
Print Assumptions C279_scope_partial.

(** *** C280: the permissive form does without the grant type *)
Definition C280_statement : Prop := forall f, dget (u "grant_type") f = None -> dget (u "self") f = None ->
  correct (dset (u "grant_type") (Text (u "password")) f) -> exists o, make f = Made o.
Theorem C280_refuted : ~ C280_statement.
Proof.
  intros S. destruct (S [(u "username", Text (u "ann")); (u "password", Text (u "pw"))] eq_refl eq_refl) as (o & E).
  - constructor; try reflexivity; try (eexists; reflexivity); now left.
  - vm_compute in E. discriminate E.
Qed.
Theorem C280_never_refuted f o : make f = Made o -> dget (u "grant_type") f = Some (Text (u "password")).
Proof. intros E. apply made_iff in E as (_ & C & _). exact (co_grant f C). Qed.
(** The strict form is the same form: it does insist. *)
Theorem C280_strict_partial f : (exists o, make_strict f = Made o) <-> correct f /\ dget (u "self") f = None.
Proof. exact (C277_taken f). Qed.
Print Assumptions C280_refuted.
Print Assumptions C280_never_refuted.
Print Assumptions C280_strict_partial.
Example C280_case : (exists o, make_strict login = Made o) /\ make [(u "username", Text (u "ann"))] = Invalid [u "grant_type"; u "password"].
Proof. split; [eexists; reflexivity|reflexivity]. Qed.

(** *** C281: a bad form is reported field by field *)
Definition C281_statement : Prop := forall f, make f <> TypeError.
Theorem C281_refuted : ~ C281_statement.
Proof. intros S. apply (S ((u "self", Text []) :: login)). reflexivity. Qed.
Theorem C281_reported_partial f : dget (u "self") f = None -> ~ correct f -> exists es, make f = Invalid es /\
  (In (u "username") es <-> forall s, dget (u "username") f <> Some (Text s)) /\
  (In (u "password") es <-> forall s, dget (u "password") f <> Some (Text s)) /\
  (In (u "grant_type") es <-> dget (u "grant_type") f <> Some (Text (u "password"))).
Proof.
  intros G NC. unfold make. rewrite (dmem_none _ _ G). destruct (errors f) as [|x es] eqn:E.
  { destruct NC. now apply errors_nil. }
  exists (x :: es). split; [reflexivity|]. rewrite <- E. clear E x es G NC. unfold errors.
  assert (forall k : str, k = u "username" \/ k = u "password" \/ k = u "grant_type" ->
    ~ In k (if is_text_or_none (dget (u "client_id") f) then [] else [u "client_id"]) /\
    ~ In k (if is_text_or_none (dget (u "client_secret") f) then [] else [u "client_secret"])) as Hk.
  { intros k K. split; (destruct (is_text_or_none _); [now intros []|]; intros [D|[]]; rewrite <- D in K; destruct K as [K|[K|K]]; discriminate K). }
  repeat rewrite in_app_iff.
  destruct (Hk (u "username") ltac:(auto)) as [U1 U2]. destruct (Hk (u "password") ltac:(auto)) as [P1 P2]. destruct (Hk (u "grant_type") ltac:(auto)) as [G1 G2].
  set (gt := match dget (u "grant_type") f with Some (Text s) => if seqb s (u "password") then [] else [u "grant_type"] | _ => [u "grant_type"] end).
  assert (forall k, In k gt <-> k = u "grant_type" /\ dget (u "grant_type") f <> Some (Text (u "password"))) as HG.
  { intros k. unfold gt. destruct (dget (u "grant_type") f) as [[s|l]|].
    - destruct (seqb s (u "password")) eqn:Q.
      + apply seqb_eq in Q as ->. split; [intros []|]. now intros [_ F].
      + split; [intros [<-|[]]|intros [-> _]; now left]. split; [reflexivity|]. intros D. apply (f_equal (fun v => match v with Some (Text x) => x | _ => [] end)) in D. subst s. rewrite seqb_refl in Q. discriminate Q.
    - split; [intros [<-|[]]; split; [reflexivity|discriminate]|intros [-> _]; now left].
    - split; [intros [<-|[]]; split; [reflexivity|discriminate]|intros [-> _]; now left]. }
  assert (forall n k, In k (if is_text (dget n f) then [] else [n]) <-> k = n /\ forall s, dget n f <> Some (Text s)) as HT.
  { intros n k. destruct (dget n f) as [[s|l]|]; cbn [is_text].
    - split; [intros []|]. intros [_ F]. now destruct (F s).
    - split; [intros [<-|[]]; split; [reflexivity|discriminate]|intros [-> _]; now left].
    - split; [intros [<-|[]]; split; [reflexivity|discriminate]|intros [-> _]; now left]. }
  rewrite !HG, !HT. refine (conj _ (conj _ _)); (split; [intros D; decompose [or and] D; try assumption; try discriminate; tauto|intros D; tauto]).
Qed.
Print Assumptions C281_refuted.
Print Assumptions C281_reported_partial.
Example C281_case : make [(u "grant_type", Text (u "code")); (u "password", Text (u "pw"))] = Invalid [u "grant_type"; u "username"].
Proof. reflexivity. Qed.
