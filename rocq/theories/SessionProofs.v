(** Proofs about sessions. *)
From Verif Require Import PyStr PyStrFacts Utf8 Asgi HeaderModel HeaderSpec HeaderProofs CorsSpec CookieModel CookieSpec CookieProofs Base64 SessionModel SessionSpec.

(** ** The jar *)
Lemma strip_sub s c : In c (strip s) -> In c s.
Proof.
  unfold strip, strip_by. destruct (rstrip_by_decomp is_space (lstrip_by is_space s)) as (w & E & _ & _).
  destruct (lstrip_by_decomp is_space s) as (w2 & E2 & _ & _). intros I. rewrite E2. apply in_or_app. right. rewrite E. apply in_or_app. left. exact I.
Qed.
Lemma solid_strip_any s : solid (strip s).
Proof.
  unfold strip, strip_by. destruct (rstrip_by_decomp is_space (lstrip_by is_space s)) as (w & E & _ & R).
  destruct (lstrip_by_decomp is_space s) as (w2 & _ & _ & R2). split; [|exact R].
  destruct (rstrip_by is_space (lstrip_by is_space s)) as [|c r]; [exact I|]. rewrite E in R2. exact R2.
Qed.
Definition jar_ok (jar : dict str) : Prop := NoDup (dkeys jar) /\ Forall good_pair jar.
Lemma good_dset k v jar : Forall good_pair jar -> good_pair (k, v) -> Forall good_pair (dset k v jar).
Proof.
  intros F G. induction F as [|(a, b) l H F IH]; [constructor; [exact G|constructor]|]. cbn [dset].
  destruct (seqb_spec k a) as [->|]; constructor; try assumption.
Qed.
Lemma NoDup_ddel {A} k (d : dict A) : NoDup (dkeys d) -> NoDup (dkeys (ddel k d)).
Proof.
  induction d as [|(a, b) d IH]; intros ND; [exact ND|]. inversion ND as [|? ? N1 N2]; subst. cbn [ddel].
  destruct (seqb k a); [apply IH; exact N2|]. cbn [dkeys map fst]. constructor; [|apply IH; exact N2].
  intros I. apply N1. apply in_map_iff in I. destruct I as (e & E & I). apply in_map_iff. exists e. split; [exact E|]. apply ddel_sub in I. exact I.
Qed.
Lemma store_ok jar line : jar_ok jar -> jar_ok (browser_store jar line).
Proof.
  intros [ND F]. unfold browser_store. destruct (split_char 59 line) as [|nv at_] eqn:E; [split; assumption|].
  destruct (split1 61 nv) as [(n, v)|] eqn:E1; [|split; assumption].
  assert (N59 : ~ In 59%N nv) by (apply (split_char_parts_free 59 line); rewrite E; left; reflexivity).
  apply split1_some in E1. destruct E1 as [-> N61].
  destruct (existsb (fun a => ends_now a || expires_past a) at_).
  - split; [apply NoDup_ddel; exact ND|]. apply Forall_forall. intros e I. apply ddel_sub in I. exact (proj1 (Forall_forall _ _) F e I).
  - split; [apply PathNestProofs.NoDup_dset; exact ND|]. apply good_dset; [exact F|]. split; [apply solid_strip_any|]. split; [|split; [|split; [apply solid_strip_any|]]]; cbn [fst snd].
    + intros I. apply strip_sub in I. apply N59. apply in_or_app. left. exact I.
    + intros I. apply strip_sub in I. exact (N61 I).
    + intros I. apply strip_sub in I. apply N59. apply in_or_app. right. right. exact I.
Qed.
Lemma stores_ok ls : forall jar, jar_ok jar -> jar_ok (fold_left browser_store ls jar).
Proof. induction ls as [|l ls IH]; intros jar H; [exact H|]. cbn [fold_left]. apply IH. apply store_ok. exact H. Qed.
Lemma store_other jar line n : line_name line <> Some n -> dget n (browser_store jar line) = dget n jar.
Proof.
  unfold line_name, browser_store. destruct (split_char 59 line) as [|nv at_]; [reflexivity|].
  destruct (split1 61 nv) as [(a, v)|]; [|reflexivity]. intros H. assert (H' : n <> strip a) by (intros ->; apply H; reflexivity).
  destruct (existsb (fun x => ends_now x || expires_past x) at_); [rewrite dget_ddel_other by exact H'; reflexivity | rewrite dget_dset_other by exact H'; reflexivity].
Qed.
Lemma stores_other ls n : (forall l, In l ls -> line_name l <> Some n) -> forall jar, dget n (fold_left browser_store ls jar) = dget n jar.
Proof.
  induction ls as [|l ls IH]; intros H jar; [reflexivity|]. cbn [fold_left]. rewrite IH by (intros x X; apply H; right; exact X).
  apply store_other. apply H. left. reflexivity.
Qed.
Lemma jar_cookie order jar n : set_order order -> jar_ok jar ->
  dget n (request_cookies order (client_send jar)) = option_map (fun v => unquote (cunquote v)) (dget n jar).
Proof.
  intros O [ND F]. unfold client_send. destruct jar as [|c0 jar0] eqn:E.
  - assert (X := request_lines order [] O (Forall_nil _) n). cbn [map concat rev dget] in X |- *. exact X.
  - rewrite <- E in ND, F. assert (X := request_lines order [jar] O). cbn [map concat] in X. rewrite app_nil_r in X.
    specialize (X ltac:(constructor; [split; [rewrite E; discriminate|exact F]|constructor]) n).
    rewrite <- E. etransitivity; [exact X|].
    + rewrite dget_rev.
      * clear. induction jar as [|(k, v) jar IH]; [reflexivity|]. cbn [map decoded dget fst snd]. destruct (seqb n k); [reflexivity|exact IH].
      * unfold dkeys. rewrite map_map. exact ND.
Qed.

(** ** The signed text *)
Section Text.
Context {V : Type}.
Variable (e : senv V).
Hypothesis G : good_senv e.

Definition b64_char (c : N) : Prop := (48 <= c <= 57 \/ 65 <= c <= 90 \/ 97 <= c <= 122)%N \/ In c (u "+/=-_").
Definition text_char (c : N) : Prop := b64_char c \/ c = 46%N.
Lemma b64_not c d : b64_char c -> In d [34; 37; 46; 59; 92; 32; 9; 10; 13]%N -> c <> d.
Proof.
  intros B I E. subst d. destruct B as [B|B].
  - cbn in I. repeat (destruct I as [<-|I]; [lia|]). destruct I.
  - assert (A : forallb (fun c => negb (cmem c [34; 37; 46; 59; 92; 32; 9; 10; 13]%N)) (u "+/=-_") = true) by (vm_compute; reflexivity).
    assert (X := proj1 (forallb_forall _ _) A c B). cbn beta in X. apply negb_true_iff in X. apply cmem_not_In in X. contradiction.
Qed.
Lemma b64_space c : b64_char c -> is_space c = false.
Proof.
  intros [B|B].
  - destruct (is_space c) eqn:E; [|reflexivity]. exfalso. unfold is_space in E.
    revert E. apply Bool.not_true_iff_false.
    assert (A : forallb (fun c => negb (is_space c) || negb (between 48 57 c || between 65 90 c || between 97 122 c)) (map N.of_nat (seq 0 256)) = true) by (vm_compute; reflexivity).
    assert (X := below_256 _ A c ltac:(lia)). cbn beta in X.
    assert (Y : between 48 57 c || between 65 90 c || between 97 122 c = true) by (unfold between; rewrite !orb_true_iff, !andb_true_iff, !N.leb_le; lia).
    rewrite Y in X. cbn [negb] in X. rewrite orb_false_r in X. apply negb_true_iff in X. exact X.
  - assert (A : forallb (fun c => negb (is_space c)) (u "+/=-_") = true) by (vm_compute; reflexivity).
    assert (X := proj1 (forallb_forall _ _) A c B). cbn beta in X. apply negb_true_iff in X. exact X.
Qed.
Lemma std_char s c : bytes s -> In c (b64encode s) -> b64_char c.
Proof.
  intros B I. apply (b64_chars _ _ _ B) in I. unfold b64_char.
  destruct I as [I|[I|[I|[->|[-> | -> ]]]]]; [left; lia | left; lia | left; lia | right; cbn; tauto | right; cbn; tauto | right; cbn; tauto].
Qed.
Lemma url_char s c : bytes s -> In c (base64_encode s) -> b64_char c.
Proof.
  intros B I. apply (itsdangerous_chars _ B) in I. unfold b64_char.
  destruct I as [I|[I|[I|[-> | -> ]]]]; [left; lia | left; lia | left; lia | right; cbn; tauto | right; cbn; tauto].
Qed.
Lemma ts_char t c : In c (ts_text t) -> b64_char c.
Proof. apply url_char, int_bytes. Qed.
Lemma ts_back t : ts_parse (ts_text t) = Some t.
Proof. unfold ts_parse, ts_text. rewrite itsdangerous_round_trip by apply int_bytes. now rewrite int_round_trip. Qed.
Lemma sign_chars now j : bytes j -> forall c, In c (sign e now (b64encode j)) -> text_char c.
Proof.
  intros B c. unfold sign. rewrite !in_app_iff. intros [[I|[[I|[]]|I]]|[[I|[]]|I]].
  - left. exact (std_char _ _ B I).
  - right. symmetry. exact I.
  - left. exact (ts_char _ _ I).
  - right. symmetry. exact I.
  - left. exact (url_char _ _ (ge_mac e G _) I).
Qed.
Lemma text_not d : In d [34; 37; 59; 92]%N -> forall s, (forall c, In c s -> text_char c) -> ~ In d s.
Proof.
  intros D s H I. destruct (H d I) as [B|B].
  - apply (b64_not d d B); [|reflexivity]. cbn in D |- *. tauto.
  - subst d. cbn in D. repeat (destruct D as [D|D]; [discriminate D|]). exact D.
Qed.
Lemma unsign_sign now t m j : (t <= now)%N ->
  unsign e now m (sign e t (b64encode j)) = match m with Some a => if (now <=? t + a)%N then Some (b64encode j) else None | None => Some (b64encode j) end.
Proof.
  intros L. unfold sign, unsign. cbv zeta. set (p := b64encode j ++ u "." ++ ts_text t). change (p ++ u "." ++ base64_encode (mac e p)) with (p ++ 46%N :: base64_encode (mac e p)).
  rewrite rsplit1_app; [|intros I; exact (b64_not 46 46 (url_char _ _ (ge_mac e G _) I) ltac:(cbn; tauto) eq_refl)].
  rewrite itsdangerous_round_trip by apply (ge_mac e G). rewrite (proj2 (seqb_eq _ _) eq_refl).
  change p with (b64encode j ++ 46%N :: ts_text t).
  rewrite rsplit1_app; [|intros I; exact (b64_not 46 46 (ts_char _ _ I) ltac:(cbn; tauto) eq_refl)].
  rewrite ts_back. destruct m as [a|]; [|reflexivity].
  destruct (N.leb_spec now (t + a)), (N.ltb_spec (t + a) now), (N.ltb_spec now t); try lia; reflexivity.
Qed.
Lemma unescape_plain s : ~ In 92%N s -> unescape s = s.
Proof.
  induction s as [|c s IH]; intros H; [reflexivity|]. cbn [unescape]. destruct (N.eqb_spec c 92) as [->|_]; [exfalso; apply H; left; reflexivity|].
  rewrite IH; [reflexivity|]. intros I. apply H. right. exact I.
Qed.
Lemma cunquote_quoted b : ~ In 92%N b -> cunquote ([34%N] ++ b ++ [34%N]) = b.
Proof.
  intros H. unfold cunquote.
  assert (P : prefixb [34%N] ([34%N] ++ b ++ [34%N]) = true) by reflexivity.
  assert (Q : suffixb [34%N] ([34%N] ++ b ++ [34%N]) = true) by (apply suffixb_iff; exists ([34%N] ++ b); rewrite <- app_assoc; reflexivity).
  assert (L : length ([34%N] ++ b ++ [34%N]) = S (S (length b))) by (rewrite !app_length; cbn; lia).
  rewrite P, Q, L. cbn [Nat.leb andb app skipn]. replace (S (S (length b)) - 2) with (length b) by lia.
  rewrite firstn_app, firstn_all, Nat.sub_diag. cbn [firstn]. rewrite app_nil_r. apply unescape_plain. exact H.
Qed.
Lemma sign_plain t j : bytes j -> utf8_enc (sign e t (b64encode j)) = sign e t (b64encode j).
Proof.
  intros B. apply enc_ascii. intros c I. destruct (sign_chars t j B c I) as [[X|X]|X]; [lia| |subst; reflexivity].
  vm_compute in X. destruct X as [<-|[<-|[<-|[<-|[<-|[]]]]]]; reflexivity.
Qed.
Lemma read_back t j : bytes j -> unquote (cunquote ([34%N] ++ sign e t (b64encode j) ++ [34%N])) = sign e t (b64encode j).
Proof.
  intros B.  rewrite cunquote_quoted; [apply unquote_plain|].
  - apply (text_not 37 ltac:(cbn; tauto)). apply sign_chars, B.
  - apply (text_not 92 ltac:(cbn; tauto)). apply sign_chars, B.
Qed.
End Text.

(** ** The lines *)
Lemma ends_named n t : ~ In 61%N n -> seqb (lower (strip n)) (u "max-age") = false -> ends_now (n ++ u "=" ++ t) = false.
Proof.
  intros N1 N2. unfold ends_now. change (u "=" ++ t) with (61%N :: t). rewrite split1_app by exact N1. rewrite N2. reflexivity.
Qed.
Lemma ends_bare n : ~ In 61%N n -> ends_now n = false.
Proof.
  intros N1. unfold ends_now. destruct (split1 61 n) as [(a, b)|] eqn:E; [|reflexivity]. exfalso. apply split1_some in E. destruct E as [-> _].
  apply N1. apply in_or_app. right. left. reflexivity.
Qed.
(** A text beginning with a space and a character that is not a space keeps it. *)
Lemma past_not c t : is_space c = false -> lower_c c <> 101%N -> expires_past (u " " ++ c :: t) = false.
Proof.
  intros S N. unfold expires_past. apply seqb_neq. intros E.
  assert (X : exists t', strip (u " " ++ c :: t) = c :: t').
  { unfold strip, strip_by. change (u " " ++ c :: t) with (32%N :: c :: t). cbn [lstrip_by]. change (is_space 32) with true. cbv iota. rewrite S.
    destruct (rstrip_by_decomp is_space (c :: t)) as (w & E1 & A & _). destruct (rstrip_by is_space (c :: t)) as [|x r].
    - cbn [app] in E1. subst w. cbn [forallb] in A. rewrite S in A. discriminate A.
    - cbn [app] in E1. injection E1 as -> _. eexists. reflexivity. }
  destruct X as (t' & X). rewrite X in E. change (u "expires=thu, 01 jan 1970 00:00:00 gmt") with (101%N :: u "xpires=thu, 01 jan 1970 00:00:00 gmt") in E.
  unfold lower in E. cbn [map] in E. injection E as E _. contradiction.
Qed.

Definition flag_parts (c : sconfig) : list str :=
  [u "httponly"; u "samesite=" ++ s_same_site c] ++ (if s_https c then [u "secure"] else [])
  ++ match s_domain c with Some d => [u "domain=" ++ d] | None => [] end.
Lemma join_cons sep x y r : join sep (x :: y :: r) = x ++ sep ++ join sep (y :: r).
Proof. reflexivity. Qed.
Lemma flags_join c : security_flags c = join (u "; ") (flag_parts c).
Proof.
  unfold security_flags, flag_parts. cbn [app]. rewrite join_cons. change (u "httponly; samesite=") with (u "httponly" ++ u "; " ++ u "samesite=").
  destruct (s_https c), (s_domain c) as [d|]; cbn [app]; rewrite ?join_cons; cbn [join]; rewrite <- ?app_assoc, ?app_nil_r; reflexivity.
Qed.
Definition age_parts (c : sconfig) : list str :=
  match s_max_age c with Some m => if N.eqb m 0 then [] else [u "Max-Age=" ++ dec m] | None => [] end.
Lemma flag_parts_cons c : exists x r, flag_parts c = x :: r.
Proof. unfold flag_parts. cbn [app]. eexists. eexists. reflexivity. Qed.
Lemma session_join c data : session_line c data =
  join (u "; ") ([s_cookie c ++ u "=" ++ [34%N] ++ data ++ [34%N]; u "path=" ++ s_path c] ++ age_parts c ++ flag_parts c).
Proof.
  unfold session_line. rewrite flags_join. destruct (flag_parts_cons c) as (x & r & F). rewrite F.
  change (u "=""") with (u "=" ++ [34%N]). change (u """; path=") with ([34%N] ++ u "; " ++ u "path=").
  unfold age_parts. destruct (s_max_age c) as [m|]; [destruct (N.eqb m 0)|]; cbn [app]; rewrite !join_cons; repeat (rewrite <- ?app_assoc; cbn [app]); reflexivity.
Qed.
Lemma deletion_join c : deletion_line c =
  join (u "; ") ([s_cookie c ++ u "=null"; u "path=" ++ s_path c; u "expires=Thu, 01 Jan 1970 00:00:00 GMT"] ++ flag_parts c).
Proof.
  unfold deletion_line. rewrite flags_join. destruct (flag_parts_cons c) as (x & r & F). rewrite F. cbn [app]. rewrite !join_cons.
  change (u "=null; path=") with (u "=null" ++ u "; " ++ u "path=").
  change (u "; expires=Thu, 01 Jan 1970 00:00:00 GMT; ") with (u "; " ++ u "expires=Thu, 01 Jan 1970 00:00:00 GMT" ++ u "; ").
  rewrite <- !app_assoc. reflexivity.
Qed.

Section Lines.
Variable (c : sconfig).
Hypothesis G : good_sconfig c.
Lemma name_facts : solid (s_cookie c) /\ ~ In 59%N (s_cookie c) /\ ~ In 61%N (s_cookie c).
Proof.
  destruct (usable_legal _ (gc_name c G)) as [L _]. split; [apply legal_solid; exact L|].
  split; intros I; apply (legal_key_all _ L) in I; apply legal_lt in I; tauto.
Qed.
Lemma lit_free (s : str) : cmem 59 s = false -> ~ In 59%N s.
Proof. apply cmem_not_In. Qed.
Lemma flag_parts_free y : In y (flag_parts c) -> ~ In 59%N y.
Proof.
  assert (SS : ~ In 59%N (s_same_site c)) by (destruct (gc_same c G) as [<-|[<-|[<-|[]]]]; apply cmem_not_In; reflexivity).
  unfold flag_parts. rewrite !in_app_iff. intros [[<-|[<-|[]]]|[I|I]].
  - apply lit_free. reflexivity.
  - rewrite in_app_iff. intros [X|X]; [revert X; apply lit_free; reflexivity|exact (SS X)].
  - destruct (s_https c); [|destruct I]. destruct I as [<-|[]]. apply lit_free. reflexivity.
  - destruct (s_domain c) as [d|] eqn:D; [|destruct I]. destruct I as [<-|[]]. rewrite in_app_iff.
    intros [X|X]; [revert X; apply lit_free; reflexivity|exact (gc_domain c G d D X)].
Qed.
Lemma age_parts_free y : In y (age_parts c) -> ~ In 59%N y.
Proof.
  unfold age_parts. destruct (s_max_age c) as [m|]; [|intros []]. destruct (N.eqb m 0); intros []; [|contradiction]. subst y.
  rewrite in_app_iff. intros [X|X]; [revert X; apply lit_free; reflexivity|].
  assert (D := proj1 (forallb_forall _ _) (dec_digits m) _ X). discriminate D.
Qed.
Definition stops (a : str) : bool := ends_now a || expires_past a.
Lemma path_stays : stops (u " " ++ u "path=" ++ s_path c) = false.
Proof.
  unfold stops. change (u " " ++ u "path=" ++ s_path c) with (u " path" ++ u "=" ++ s_path c) at 1.
  rewrite ends_named; [|apply cmem_not_In; reflexivity|reflexivity]. cbn [orb].
  change (u "path=" ++ s_path c) with (112%N :: u "ath=" ++ s_path c). apply past_not; [reflexivity|discriminate].
Qed.
Lemma flags_stay : existsb stops (map (fun y : str => u " " ++ y) (flag_parts c)) = false.
Proof.
  unfold flag_parts. rewrite !map_app, !existsb_app. cbn [map existsb].
  assert (A : stops (u " " ++ u "httponly") = false) by (vm_compute; reflexivity).
  assert (B : stops (u " " ++ u "samesite=" ++ s_same_site c) = false).
  { destruct (gc_same c G) as [<-|[<-|[<-|[]]]]; vm_compute; reflexivity. }
  rewrite A, B. cbn [orb].
  assert (C : stops (u " " ++ u "secure") = false) by (vm_compute; reflexivity).
  destruct (s_https c); cbn [map existsb]; rewrite ?C; cbn [orb]; destruct (s_domain c) as [d|]; try reflexivity; cbn [map existsb]; rewrite orb_false_r; unfold stops;
  change (u " " ++ u "domain=" ++ d) with (u " domain" ++ u "=" ++ d) at 1; (rewrite ends_named; [|apply cmem_not_In; reflexivity|reflexivity]);
  change (u " domain" ++ u "=" ++ d) with (u " " ++ 100%N :: u "omain=" ++ d); (apply past_not; [reflexivity|discriminate]).
Qed.
Lemma age_stays : existsb stops (map (fun y : str => u " " ++ y) (age_parts c)) = false.
Proof.
  unfold age_parts. destruct (s_max_age c) as [m|]; [|reflexivity]. destruct (N.eqb_spec m 0) as [->|NZ]; [reflexivity|]. cbn [map existsb]. rewrite orb_false_r.
  unfold stops. assert (A : ends_now (u " " ++ u "Max-Age=" ++ dec m) = false).
  { unfold ends_now. change (u " " ++ u "Max-Age=" ++ dec m) with (u " Max-Age" ++ 61%N :: dec m). rewrite split1_app by (apply cmem_not_In; reflexivity).
    assert (P := int_parse_dec m [] [] eq_refl eq_refl). cbn [app] in P. rewrite app_nil_r in P. rewrite P. destruct (Z.leb_spec (Z.of_N m) 0); [lia|]. apply andb_false_r. }
  rewrite A. change (u "Max-Age=" ++ dec m) with (77%N :: u "ax-Age=" ++ dec m). apply past_not; [reflexivity|discriminate].
Qed.
Lemma store_session jar data : ~ In 59%N data ->
  browser_store jar (session_line c data) = dset (s_cookie c) ([34%N] ++ data ++ [34%N]) jar.
Proof.
  intros ND. destruct name_facts as (S & N59 & N61). unfold browser_store. rewrite session_join. cbn [app]. rewrite split_join_semi.
  - rewrite (app_assoc (s_cookie c)). change (s_cookie c ++ u "=" ++ [34%N] ++ data ++ [34%N]) with (s_cookie c ++ 61%N :: ([34%N] ++ data ++ [34%N])).
    rewrite <- app_assoc. cbn [app]. change (u "=" ++ 34%N :: data ++ [34%N]) with (61%N :: 34%N :: data ++ [34%N]).
    rewrite split1_app by exact N61. change (fun a => ends_now a || expires_past a) with stops. cbn [map existsb]. rewrite path_stays, map_app, existsb_app.
    assert (A1 := age_stays). assert (A2 := flags_stay). 
    match goal with |- (if ?b then _ else _) = _ => assert (BF : b = false) by (cbn [orb]; apply orb_false_intro; [exact A1|exact A2]); rewrite BF end.
    assert (SQ : strip (34%N :: data ++ [34%N]) = 34%N :: data ++ [34%N]).
    { apply solid_self. split; [reflexivity|]. change (34%N :: data ++ [34%N]) with ((34%N :: data) ++ [34%N]). rewrite rev_app_distr. reflexivity. }
    rewrite (solid_self _ S), SQ. reflexivity.
  - intros X. apply in_app_or in X as [X|X]; [exact (N59 X)|]. destruct X as [X|X]; [discriminate X|]. destruct X as [X|X]; [discriminate X|].
    apply in_app_or in X as [X|[X|[]]]; [exact (ND X)|discriminate X].
  - intros y [<-|I].
    + rewrite in_app_iff. intros [X|X]; [revert X; apply lit_free; reflexivity|exact (gc_path c G X)].
    + apply in_app_or in I as [I|I]; [apply age_parts_free; exact I|apply flag_parts_free; exact I].
Qed.
Lemma store_deletion jar : browser_store jar (deletion_line c) = ddel (s_cookie c) jar.
Proof.
  destruct name_facts as (S & N59 & N61). unfold browser_store. rewrite deletion_join. cbn [app]. rewrite split_join_semi.
  - change (s_cookie c ++ u "=null") with (s_cookie c ++ 61%N :: u "null"). rewrite split1_app by exact N61.
    change (fun a => ends_now a || expires_past a) with stops. cbn [map existsb]. rewrite path_stays.
    assert (E : stops (u " " ++ u "expires=Thu, 01 Jan 1970 00:00:00 GMT") = true) by (vm_compute; reflexivity). rewrite E. cbn [orb].
    rewrite (solid_self _ S). reflexivity.
  - rewrite in_app_iff. intros [X|X]; [exact (N59 X)|revert X; apply lit_free; reflexivity].
  - intros y [<-|[<-|I]].
    + rewrite in_app_iff. intros [X|X]; [revert X; apply lit_free; reflexivity|exact (gc_path c G X)].
    + apply lit_free. reflexivity.
    + apply flag_parts_free. exact I.
Qed.
Lemma own_line (l : str) : line_name l <> Some (s_cookie c) -> prefixb (s_cookie c ++ u "=") l = false.
Proof.
  intros H. destruct (prefixb (s_cookie c ++ u "=") l) eqn:E; [|reflexivity]. exfalso. apply H. apply prefixb_iff in E. destruct E as (t & ->).
  destruct name_facts as (S & N59 & N61). unfold line_name. rewrite <- app_assoc.
  assert (X : exists w r, split_char 59 (s_cookie c ++ u "=" ++ t) = (s_cookie c ++ 61%N :: w) :: r).
  { destruct (split1 59 t) as [(a, b)|] eqn:T.
    - apply split1_some in T. destruct T as [-> T]. exists a, (split_char 59 b). change (u "=" ++ a ++ 59%N :: b) with ((61%N :: a) ++ 59%N :: b).
      rewrite app_assoc. apply split_char_app. rewrite in_app_iff. intros [I|[I|I]]; [exact (N59 I)|discriminate I|exact (T I)].
    - apply split1_none in T. exists t, []. apply split_char_free. rewrite in_app_iff. intros [I|[I|I]]; [exact (N59 I)|discriminate I|exact (T I)]. }
  destruct X as (w & r & ->). rewrite split1_app by exact N61. rewrite (solid_self _ S). reflexivity.
Qed.
End Lines.

(** ** One request *)
Section One.
Context {V : Type}.
Variables (order : list str -> list str) (e : senv V) (c : sconfig).
Hypothesis O : set_order order.
Hypothesis GE : good_senv e.
Hypothesis GC : good_sconfig c.

Definition agrees (jar : dict str) (m : memory V) (now : N) : Prop :=
  jar_ok jar /\ forall now', (now <= now')%N ->
    load_session order e c now' (client_send jar) = Some (match alive (s_max_age c) now' m with Some s => (s, false) | None => ([], true) end).

Lemma run_edits now w edits r : forall s, run_app order e c now w (map Sets edits ++ r) s = run_app order e c now w r (last edits s).
Proof.
  induction edits as [|x edits IH]; intros s; [reflexivity|]. cbn [map app run_app]. rewrite IH. destruct edits as [|y edits]; [reflexivity|].
  f_equal. cbn [last]. clear. revert y. induction edits as [|z edits IH]; intros y; [reflexivity|]. cbn [last] in *. apply IH.
Qed.
Lemma run_bodies now w (bodies : list (str * bool)) : forall s,
  run_app order e c now w (map (fun b => Emits (ABody (fst b) (snd b))) bodies) s = (map (fun b => ABody (fst b) (snd b)) bodies, s, true).
Proof. induction bodies as [|b bodies IH]; intros s; [reflexivity|]. cbn [map run_app]. rewrite IH. reflexivity. Qed.
Lemma lines_bodies n (bodies : list (str * bool)) : lines n (map (fun b => ABody (fst b) (snd b)) bodies) = [].
Proof. induction bodies as [|b bodies IH]; [reflexivity|]. exact IH. Qed.

(** What the headers of the start message become. *)
Lemma started now w s h :
  (s <> [] -> storable e s) ->
  (forall k, In k (map fst h) -> lower k = u "set-cookie" -> k = u "set-cookie") ->
  (forall l, In l (values (u "set-cookie") h) -> line_name l <> Some (s_cookie c)) ->
  exists h' added, process_start e c now w s h = Some h' /\ values (u "set-cookie") (wire order h') = values (u "set-cookie") h ++ added
    /\ added = match s with
               | [] => if w then [] else [deletion_line c]
               | _ => match dumps e s with Some j => [session_line c (sign e now (b64encode j))] | None => [] end
               end.
Proof.
  intros ST K L. unfold process_start. rewrite getall_values. change (lower (u "set-cookie")) with (u "set-cookie").
  assert (F : forallb (fun l => negb (prefixb (s_cookie c ++ u "=") l)) (values (u "set-cookie") h) = true).
  { apply forallb_forall. intros l I. rewrite (own_line c GC l (L l I)). reflexivity. }
  rewrite F.
  assert (W : values (u "set-cookie") (wire order h) = values (u "set-cookie") h).
  { apply wire_values; [exact O|]. intros k k' I I' E E'. rewrite (K k I E), (K k' I' E'). reflexivity. }
  assert (WA : forall v, values (u "set-cookie") (wire order (hadd (u "set-cookie") v h)) = values (u "set-cookie") h ++ [v]).
  { intros v. rewrite wire_values; [rewrite values_add; reflexivity|exact O|].
    assert (K' : forall k, In k (map fst (hadd (u "set-cookie") v h)) -> lower k = u "set-cookie" -> k = u "set-cookie").
    { intros k I. unfold hadd in I. rewrite map_app in I. apply in_app_or in I as [I|[<-|[]]]; [apply K; exact I|reflexivity]. }
    intros k k' I I' E E'. rewrite (K' k I E), (K' k' I' E'). reflexivity. }
  destruct s as [|x s].
  - eexists. eexists. split; [reflexivity|]. split; [|reflexivity]. destruct w; [rewrite app_nil_r; exact W|apply WA].
  - destruct (ST ltac:(discriminate)) as (j & D & _). rewrite D. eexists. eexists. split; [reflexivity|]. split; [apply WA|reflexivity].
Qed.

Lemma load_jar jar now : jar_ok jar -> load_session order e c now (client_send jar) =
  match dget (s_cookie c) jar with
  | None => Some ([], true)
  | Some raw => match unsign e now (s_max_age c) (utf8_enc (unquote (cunquote raw))) with
                | None => Some ([], true)
                | Some v => match b64decode v with None => None | Some j => match loads e j with None => None | Some s => Some (s, false) end end
                end
  end.
Proof. intros J. unfold load_session. rewrite jar_cookie by assumption. destruct (dget (s_cookie c) jar); reflexivity. Qed.

Lemma one_visit jar m now (v : visit V) : agrees jar m now -> (now <= v_now v)%N -> serves e c (v_app v) (v_effect v) ->
  exists out s', serve order e c (v_now v) (v_pop v) (client_send jar) (v_app v) = Some (finds c m v, (out, s', true))
    /\ agrees (browser_after jar out) (keeps c m v) (v_now v).
Proof.
  intros [J A] LE SV. unfold serve. rewrite (A _ LE).
  assert (X : exists s w, match alive (s_max_age c) (v_now v) m with Some s => (s, false) | None => ([], true) end = (s, w)
     /\ (match v_pop v with Some d => if w then dupdate s d else s | None => s end) = finds c m v
     /\ (w = true <-> alive (s_max_age c) (v_now v) m = None)).
  { unfold finds. destruct (alive (s_max_age c) (v_now v) m) as [s|].
    - exists s, false. split; [reflexivity|]. split; [destruct (v_pop v); reflexivity|]. split; discriminate.
    - exists [], true. split; [reflexivity|]. split; [destruct (v_pop v); reflexivity|]. split; reflexivity. }
  destruct X as (s & w & -> & -> & W). destruct (SV (finds c m v)) as (edits & st & h & bodies & AP & LA & ST & K & L).
  rewrite AP, run_edits, LA. cbn [run_app].
  destruct (started (v_now v) w (v_effect v (finds c m v)) h ST K L) as (h' & added & -> & VA & AD). rewrite run_bodies.
  eexists. eexists. split; [reflexivity|].
  unfold browser_after. unfold lines. cbn [flat_map]. fold (lines (u "set-cookie") (map (fun b : str * bool => ABody (fst b) (snd b)) bodies)).
  rewrite lines_bodies, app_nil_r, VA, fold_left_app. set (jar1 := fold_left browser_store (values (u "set-cookie") h) jar).
  assert (J1 : jar_ok jar1) by (apply stores_ok; exact J).
  assert (D1 : dget (s_cookie c) jar1 = dget (s_cookie c) jar) by (apply stores_other; exact L).
  unfold agrees, keeps. subst added. destruct (v_effect v (finds c m v)) as [|x r] eqn:EF.
  - destruct w.
    + cbn [fold_left]. split; [exact J1|]. intros now' LE'. cbn [alive]. rewrite load_jar by exact J1. rewrite D1. rewrite <- load_jar by exact J.
      rewrite (A now' ltac:(lia)). assert (DEAD : alive (s_max_age c) now' m = None).
      { assert (DN := proj1 W eq_refl). unfold alive in *. destruct m as [(s0, t)|]; [|reflexivity]. destruct (s_max_age c) as [a|]; [|discriminate DN].
        destruct (N.leb_spec (v_now v) (t + a)); [discriminate DN|]. destruct (N.leb_spec now' (t + a)); [lia|reflexivity]. }
      rewrite DEAD. reflexivity.
    + cbn [fold_left]. rewrite (store_deletion c GC). assert (J2 : jar_ok (ddel (s_cookie c) jar1)).
      { destruct J1 as [J1 J2]. split; [apply NoDup_ddel; exact J1|]. apply Forall_forall. intros y I. apply ddel_sub in I. exact (proj1 (Forall_forall _ _) J2 y I). }
      split; [exact J2|]. intros now' LE'. rewrite load_jar by exact J2. rewrite dget_ddel_same. reflexivity.
  - destruct (ST ltac:(discriminate)) as (j & D & LD). pose proof (ge_dumps e GE _ _ D) as BJ. rewrite D. cbn [fold_left].
    assert (N59 : ~ In 59%N (sign e (v_now v) (b64encode j))) by (apply (text_not 59 ltac:(cbn; tauto)), (sign_chars e GE), BJ).
    rewrite (store_session c GC) by exact N59. split.
    + rewrite <- (store_session c GC jar1 _ N59). apply store_ok. exact J1.
    + intros now' LE'. rewrite load_jar by (rewrite <- (store_session c GC jar1 _ N59); apply store_ok; exact J1).
      rewrite dget_dset_same, (read_back e GE), (sign_plain e GE), (unsign_sign e GE) by assumption. cbn [alive].
      destruct (s_max_age c) as [a|]; [destruct (N.leb_spec now' (v_now v + a)); [|reflexivity]|]; unfold b64decode, b64encode; rewrite (b64_round_trip 43 47 j (or_introl (conj eq_refl eq_refl)) BJ), LD; reflexivity.
Qed.

Lemma browse_expected vs : forall jar m now, agrees jar m now -> in_order now vs ->
  Forall (fun v => serves e c (v_app v) (v_effect v)) vs -> browse order e c jar vs = Some (expected c m vs).
Proof.
  induction vs as [|v vs IH]; intros jar m now A I F; [reflexivity|]. destruct I as [I1 I2]. inversion F as [|? ? F1 F2]; subst.
  destruct (one_visit jar m now v A I1 F1) as (out & s' & E & A'). cbn [browse expected]. rewrite E. rewrite (IH _ _ _ A' I2 F2). reflexivity.
Qed.
End One.
