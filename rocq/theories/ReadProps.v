(** C316-C319: typed reads of the environment. *)
From Verif Require Import PyStr PyStrFacts EnvModel ReadModel ReadSpec.

Definition small (w : str) : bool := forallb (fun c => negb ((65 <=? c) && (c <=? 90))%N) w.
Lemma lower_spells s : forall w, small w = true -> (lower s = w <-> spells s w).
Proof.
  assert (L : forall a b, negb ((65 <=? b) && (b <=? 90))%N = true -> (lower_c a = b <-> same_letter a b)).
  { intros a b B. apply negb_true_iff in B. apply andb_false_iff in B. rewrite !N.leb_gt in B. unfold same_letter, lower_c. destruct ((65 <=? a)%N && (a <=? 90)%N) eqn:E.
    - apply andb_true_iff in E as [E1 E2]. apply N.leb_le in E1, E2. split; [intros <-; right; lia|]. intros [->|H]; lia.
    - apply andb_false_iff in E. rewrite !N.leb_gt in E. split; [intros <-; left; reflexivity|]. intros [->|H]; [reflexivity|lia]. }
  induction s as [|a s IH]; intros w W; split; intros H.
  - cbn in H. subst w. constructor.
  - inversion H; subst. reflexivity.
  - destruct w as [|b w]; [discriminate H|]. cbn [small forallb] in W. apply andb_true_iff in W as [W1 W2]. unfold lower in H. cbn [map] in H. injection H as H1 H2. constructor; [apply L; assumption|]. apply (proj1 (IH w W2)). exact H2.
  - inversion H as [|x b s' w' H1 H2 E1 E2]; subst. cbn [small forallb] in W. apply andb_true_iff in W as [W1 W2]. unfold lower. cbn [map]. f_equal; [apply L; assumption|]. apply (proj2 (IH w' W2)). exact H2.
Qed.
Lemma mapping_yes s : dget (lower s) boolean_mapping = Some true <-> exists w, In w yes_words /\ spells s w.
Proof.
  split.
  - unfold boolean_mapping. cbn [dget]. intros H.
    repeat match type of H with context [if seqb (lower s) ?w then _ else _] => destruct (seqb (lower s) w) eqn:E;
      [first [discriminate H|apply seqb_eq in E; apply lower_spells in E; [|reflexivity]; exists w; split; [unfold yes_words; cbn [In]; auto 8|exact E]]|clear E] end. discriminate H.
  - intros (w & I & S). unfold yes_words in I. cbn [In] in I. destruct I as [<-|[<-|[<-|[<-|[<-|[]]]]]]; apply lower_spells in S; try reflexivity; rewrite S; reflexivity.
Qed.
Lemma mapping_no s : dget (lower s) boolean_mapping = Some false <-> exists w, In w no_words /\ spells s w.
Proof.
  split.
  - unfold boolean_mapping. cbn [dget]. intros H.
    repeat match type of H with context [if seqb (lower s) ?w then _ else _] => destruct (seqb (lower s) w) eqn:E;
      [first [discriminate H|apply seqb_eq in E; apply lower_spells in E; [|reflexivity]; exists w; split; [unfold no_words; cbn [In]; auto 8|exact E]]|clear E] end. discriminate H.
  - intros (w & I & S). unfold no_words in I. cbn [In] in I. destruct I as [<-|[<-|[<-|[<-|[<-|[]]]]]]; apply lower_spells in S; try reflexivity; rewrite S; reflexivity.
Qed.
Lemma env_set {T} show l os key (c : cast T) v default : set_to l os key v -> snd (env show l os key c default) = do_cast show v c.
Proof.
  intros S. unfold env. cbn [snd mark pairs]. change (fold_key (ignore_case l) (prefix l ++ key)) with (name_of l key). destruct S as [v G|t G O]; rewrite G; [reflexivity|]. rewrite O. reflexivity.
Qed.
Lemma env_unset {T} show l os key (c : cast T) default : unset l os key -> snd (env show l os key c default) = match default with Some d => do_cast show d c | None => KeyErr end.
Proof. intros (G & O). unfold env. cbn [snd mark pairs]. change (fold_key (ignore_case l) (prefix l ++ key)) with (name_of l key). rewrite G, O. reflexivity. Qed.
Lemma set_or_unset l os key : (exists v, set_to l os key v) \/ unset l os key.
Proof.
  destruct (dget (name_of l key) (pairs l)) as [v|] eqn:G; [left; exists v; apply st_loader; exact G|]. destruct (dget (name_of l key) os) as [t|] eqn:O; [left; eexists; apply st_live; eassumption|right; split; assumption].
Qed.

(** ** C316 *)
(** A variable read as a boolean: true for the five words of assent, false for the five of denial, in any capitals, and an error for every
    other text. *)
Theorem C316 : forall T show l os key s default, set_to l os key (Scalar (Some s)) ->
  let a := snd (env (T := T) show l os key Bool default) in
  (a = Truth true <-> exists w, In w yes_words /\ spells s w)
  /\ (a = Truth false <-> exists w, In w no_words /\ spells s w)
  /\ (a = ValueErr <-> forall w, In w (yes_words ++ no_words) -> ~ spells s w).
Proof.
  intros T show l os key s default S. cbv zeta. rewrite (env_set show l os key Bool _ default S). cbn [do_cast]. unfold parse_boolean. cbn [text_of].
  pose proof (mapping_yes s) as Y. pose proof (mapping_no s) as NO. destruct (dget (lower s) boolean_mapping) as [[|]|] eqn:D.
  - refine (conj _ (conj _ _)).
    + split; [intros _; apply Y; reflexivity|reflexivity].
    + split; [discriminate|]. intros H. apply NO in H. discriminate H.
    + split; [discriminate|]. intros H. destruct (proj1 Y eq_refl) as (w & I & W). exfalso. exact (H w (in_or_app _ _ _ (or_introl I)) W).
  - refine (conj _ (conj _ _)).
    + split; [discriminate|]. intros H. apply Y in H. discriminate H.
    + split; [intros _; apply NO; reflexivity|reflexivity].
    + split; [discriminate|]. intros H. destruct (proj1 NO eq_refl) as (w & I & W). exfalso. exact (H w (in_or_app _ _ _ (or_intror I)) W).
  - refine (conj _ (conj _ _)).
    + split; [discriminate|]. intros H. apply Y in H. discriminate H.
    + split; [discriminate|]. intros H. apply NO in H. discriminate H.
    + split; [|reflexivity]. intros _ w I W. apply in_app_or in I as [I|I]; [assert (X : exists w, In w yes_words /\ spells s w) by (exists w; auto); apply Y in X; discriminate X|].
      assert (X : exists w, In w no_words /\ spells s w) by (exists w; auto). apply NO in X. discriminate X.
Qed.
Print Assumptions C316.
Definition sample : loader := {| pairs := [(u "APP_DEBUG", Scalar (Some (u "yEs")))]; read_keys := []; prefix := u "APP_"; ignore_case := true |}.
Example C316_case : set_to sample [] (u "debug") (Scalar (Some (u "yEs"))) /\ snd (env (T := unit) (fun _ => []) sample [] (u "debug") Bool None) = Truth true
  /\ snd (env (T := unit) (fun _ => []) sample [(u "APP_X", u "maybe")] (u "x") Bool None) = ValueErr.
Proof. split; [apply st_loader; reflexivity|split; vm_compute; reflexivity]. Qed.

(** ** C317 *)
(** A read fails for want of the variable exactly if neither the loader nor the environment has it and there is no default; a variable that
    is set is read whatever the default; an error of type or value from the cast becomes a ValueError; and after the read, failed or not,
    the variable can be neither set nor deleted, while everything else of the loader is as before. *)
Theorem C317 : forall T show l os key (c : cast T) default,
  let (l', a) := env show l os key c default in
  (a = KeyErr <-> unset l os key /\ default = None)
  /\ (forall v, set_to l os key v ->
       match c with
       | NoCast => a = AsIs v
       | Bool => True
       | Call f => (forall t, f v = Good t -> a = Made t) /\ (f v = Refused -> a = ValueErr) /\ (f v = Other -> a = OtherErr)
       end)
  /\ pairs l' = pairs l /\ prefix l' = prefix l /\ ignore_case l' = ignore_case l
  /\ (forall v, env_step l' (SetItem key v) = (l', EnvError)) /\ env_step l' (DelItem key) = (l', EnvError)
  /\ (forall k, In k (read_keys l') <-> k = name_of l key \/ In k (read_keys l)).
Proof.
  intros T show l os key c default. destruct (env show l os key c default) as [l' a] eqn:E.
  assert (A : a = snd (env show l os key c default)) by (rewrite E; reflexivity). assert (L : l' = mark (name_of l key) l) by (unfold env in E; injection E as <- _; reflexivity).
  refine (conj _ (conj _ (conj _ (conj _ (conj _ (conj _ (conj _ _))))))).
  - rewrite A. destruct (set_or_unset l os key) as [(v & S)|U].
    + rewrite (env_set show l os key c v default S). split.
      * unfold do_cast, parse_boolean. destruct c as [| |f]; [discriminate| |destruct (f v); discriminate]. destruct v as [[t|]| |]; try discriminate; destruct (dget _ _); discriminate.
      * intros ((G & O) & _). destruct S as [v G'|t _ O']; congruence.
    + rewrite (env_unset show l os key c default U). destruct default as [d|]; [|tauto]. split; [|intros (_ & X); discriminate X].
      unfold do_cast, parse_boolean. destruct c as [| |f]; [discriminate| |destruct (f d); discriminate]. destruct d as [[t|]| |]; try discriminate; destruct (dget _ _); discriminate.
  - intros v S. rewrite A, (env_set show l os key c v default S). destruct c as [| |f]; [reflexivity|exact Logic.I|]. cbn [do_cast]. refine (conj _ (conj _ _)); [intros t ->|intros ->|intros ->]; reflexivity.
  - rewrite L. reflexivity.
  - rewrite L. reflexivity.
  - rewrite L. reflexivity.
  - intros v. rewrite L. unfold env_step, full_key. cbn [mark ignore_case prefix read_keys pairs]. change (fold_key (ignore_case l) (prefix l ++ key)) with (name_of l key). rewrite (proj2 (smem_In (name_of l key) (name_of l key :: read_keys l)) (or_introl eq_refl)). reflexivity.
  - rewrite L. unfold env_step, full_key. cbn [mark ignore_case prefix read_keys pairs]. change (fold_key (ignore_case l) (prefix l ++ key)) with (name_of l key). rewrite (proj2 (smem_In (name_of l key) (name_of l key :: read_keys l)) (or_introl eq_refl)). reflexivity.
  - intros k. rewrite L. cbn [mark read_keys In]. split; intros [X|X]; auto.
Qed.
Print Assumptions C317.
Example C317_case : unset sample [] (u "port") /\ snd (env (T := unit) (fun _ => []) sample [] (u "port") NoCast None) = KeyErr
  /\ set_to sample [(u "APP_PORT", u "80")] (u "port") (Scalar (Some (u "80"))).
Proof. split; [split; reflexivity|]. split; [reflexivity|apply st_live; reflexivity]. Qed.

(** ** C318 *)
(** Full statement: a variable that is not set reads as the given default. *)
Definition C318_statement : Prop := forall T show l os key (c : cast T) d, unset l os key -> snd (env show l os key c (Some d)) = AsIs d.
(** The default goes through the cast: [env("PORT", cast=int, default=None)] fails. *)
Definition to_int (v : value) : cast_result Z := match v with Scalar (Some t) => match int_parse t with Some z => Good z | None => Refused end | _ => Refused end.
Theorem C318_refuted : ~ C318_statement.
Proof. intros H. specialize (H Z (fun _ => []) sample [] (u "port") (Call to_int) (Scalar None) (conj eq_refl eq_refl)). vm_compute in H. discriminate H. Qed.
Print Assumptions C318_refuted.
(** What holds: without a cast it is the default as it is; with one, what the cast makes of it; and [None] stays [None] when read as a
    boolean. *)
Theorem C318_partial : forall T show l os key d, unset l os key ->
  snd (env (T := T) show l os key NoCast (Some d)) = AsIs d
  /\ (forall f t, f d = Good t -> snd (env (T := T) show l os key (Call f) (Some d)) = Made t)
  /\ snd (env (T := T) show l os key Bool (Some (Scalar None))) = Nothing.
Proof.
  intros T show l os key d U. refine (conj _ (conj _ _)); [|intros f t F|]; rewrite (env_unset _ _ _ _ _ _ U); [reflexivity| |reflexivity]. cbn [do_cast]. rewrite F. reflexivity.
Qed.
Print Assumptions C318_partial.
Example C318_case : unset sample [] (u "port") /\ snd (env (fun _ => []) sample [] (u "port") (Call to_int) (Some (Scalar (Some (u "8000"))))) = Made 8000%Z
  /\ snd (env (fun _ => []) sample [] (u "port") (Call to_int) (Some (Scalar None))) = ValueErr.
Proof. split; [split; reflexivity|split; vm_compute; reflexivity]. Qed.

(** ** C319 *)
(** Full statement: [key in env] and [env.get(key)] agree with [env[key]]. *)
Definition C319_agrees (l : loader) (key : str) : Prop :=
  (contains l key = true <-> exists v, snd (env_step l (GetItem key)) = Value v)
  /\ (forall v, get l key = Some v <-> snd (env_step l (GetItem key)) = Value v).
Definition C319_statement : Prop := forall l key, C319_agrees l key.
Theorem C319_refuted : ~ C319_statement.
Proof. intros H. destruct (H sample (u "debug")) as ((_ & A) & _). assert (X : contains sample (u "debug") = true) by (apply A; eexists; vm_compute; reflexivity). vm_compute in X. discriminate X. Qed.
Print Assumptions C319_refuted.
(** They do for a loader without prefix, if it heeds case or the key is in capitals. *)
Theorem C319_partial : forall l key, prefix l = [] -> (ignore_case l = true -> upper key = key) -> C319_agrees l key.
Proof.
  intros l key P U. assert (F : full_key l key = key) by (unfold full_key, fold_key; rewrite P; cbn [List.app]; destruct (ignore_case l); [apply U; reflexivity|reflexivity]).
  unfold C319_agrees, contains, get, env_step. rewrite F. unfold dmem. destruct (dget key (pairs l)) as [v|]; cbn [snd].
  - split; [split; [intros _; exists v; reflexivity|reflexivity]|]. intros w. split; congruence.
  - split; [split; [discriminate|intros (v & X); discriminate X]|]. intros w. split; discriminate.
Qed.
Print Assumptions C319_partial.
Example C319_case : let l := {| pairs := [(u "DEBUG", Scalar (Some (u "1")))]; read_keys := []; prefix := []; ignore_case := true |} in
  prefix l = [] /\ upper (u "DEBUG") = u "DEBUG" /\ contains l (u "DEBUG") = true.
Proof. vm_compute. repeat split; reflexivity. Qed.
