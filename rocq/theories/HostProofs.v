(** Lemmas for C35, C36, C39 and C68. *)
From Verif Require Import PyStr PyStrFacts Utf8 Asgi HeaderModel HeaderSpec HeaderProofs CorsModel CorsSpec UrlModel UrlSpec UrlProofs HostModel HostSpec.

Lemma hget_values k h : lower k = k -> hget k h = hd_error (values k h).
Proof. intros L. unfold hget. rewrite getall_values, L. reflexivity. Qed.

(** ** Answers *)
Lemma redirect_shape order st loc : set_order order -> (st = 303 \/ st = 307)%Z -> 
  exists ms, Answer (redirect order st loc) = Answer ms /\ status_is ms st /\ response_complete ms
    /\ lines (u "location") ms = [quote_location loc].
Proof.
  intros O S. eexists. split; [reflexivity|]. unfold redirect, respond. split; [eexists; eexists; reflexivity|].
  split; [constructor; constructor|]. unfold lines. cbn [flat_map]. rewrite app_nil_r.
  assert (M : fst (make_headers st [] (u "utf-8") None []) = [(u "content-length", u "0")]) by (destruct S as [-> | ->]; vm_compute; reflexivity).
  rewrite M. rewrite wire_values; [|exact O|].
  - rewrite values_set. reflexivity.
  - intros k k' A B LA LB.
    assert (K : forall k, In k (map fst (hset (u "location") (quote_location loc) [(u "content-length", u "0")])) -> k = u "content-length" \/ k = u "location").
    { intros x X. change (In x [u "content-length"; u "location"]) in X. destruct X as [X|[X|[]]]; auto. }
    destruct (K k A) as [-> | ->], (K k' B) as [-> | ->]; try reflexivity; vm_compute in LA, LB; discriminate.
Qed.
Lemma plain_shape order why : exists ms, Answer (plain_text order 400 why []) = Answer ms /\ status_is ms 400 /\ response_complete ms /\ abytes ms = why.
Proof.
  eexists. split; [reflexivity|]. unfold plain_text, respond. split; [eexists; eexists; reflexivity|].
  split; [constructor; constructor|]. unfold abytes. cbn [map abody concat app]. apply app_nil_r.
Qed.

(** ** Locations *)
Lemma quote_location_app a b : quote_location (a ++ b) = quote_location a ++ quote_location b.
Proof. unfold quote_location, utf8_enc. rewrite !flat_map_app. reflexivity. Qed.
Lemma quote_location_safe s : (forall c, In c s -> (c < 128)%N /\ safe_in_location c = true) -> quote_location s = s.
Proof.
  intros H. induction s as [|c s IH]; [reflexivity|]. change (c :: s) with ([c] ++ s). rewrite quote_location_app.
  rewrite IH by (intros x X; apply H; right; exact X). destruct (H c (or_introl eq_refl)) as [A B].
  f_equal. unfold quote_location, utf8_enc. cbn [flat_map]. unfold enc1. rewrite (proj2 (N.ltb_lt c 128) A). cbn [app flat_map]. rewrite B. reflexivity.
Qed.
Lemma safe_lit (s : str) : forallb (fun c => (c <? 128)%N && safe_in_location c) s = true -> quote_location s = s.
Proof.
  intros H. apply quote_location_safe. intros c I. assert (A := proj1 (forallb_forall _ _) H c I). cbn beta in A.
  apply andb_true_iff in A as [A B]. apply N.ltb_lt in A. auto.
Qed.
Lemma url_char_safe c : url_char c -> (c < 128)%N /\ safe_in_location c = true.
Proof.
  unfold url_char, safe_in_location, unreserved, between. intros [[R|[R|R]]|I].
  - split; [lia|]. replace ((48 <=? c) && (c <=? 57))%N with true by (symmetry; apply andb_true_intro; split; apply N.leb_le; lia). reflexivity.
  - split; [lia|]. replace ((65 <=? c) && (c <=? 90))%N with true by (symmetry; apply andb_true_intro; split; apply N.leb_le; lia).
    rewrite orb_true_r. reflexivity.
  - split; [lia|]. replace ((97 <=? c) && (c <=? 122))%N with true by (symmetry; apply andb_true_intro; split; apply N.leb_le; lia).
    rewrite orb_true_r. reflexivity.
  - assert (A : forallb (fun c => (c <? 128)%N && (((48 <=? c) && (c <=? 57) || (65 <=? c) && (c <=? 90) || (97 <=? c) && (c <=? 122) || (c =? 95) || (c =? 46) || (c =? 45) || (c =? 126))%N
       || cmem c (u ":/%#?=@[]!$&'()*+,;"))) (u "_.-~:/%?=@[]!$&'()*+,;") = true) by (vm_compute; reflexivity).
    assert (B := proj1 (forallb_forall _ _) A c I). cbn beta in B. apply andb_true_iff in B as [B1 B2]. apply N.ltb_lt in B1. auto.
Qed.
Lemma url_char_clean c : url_char c -> c <> 35%N /\ c <> 9%N /\ c <> 10%N /\ c <> 13%N.
Proof.
  intros [R|I]; [lia|].
  assert (A : forallb (fun c => negb (N.eqb c 35) && negb (N.eqb c 9) && negb (N.eqb c 10) && negb (N.eqb c 13)) (u "_.-~:/%?=@[]!$&'()*+,;") = true) by (vm_compute; reflexivity).
  assert (B := proj1 (forallb_forall _ _) A c I). cbn beta in B. rewrite !andb_true_iff, !negb_true_iff, !N.eqb_neq in B. tauto.
Qed.
Lemma enc1_low c b : scalar c -> In b (enc1 c) -> (b < 128)%N -> b = c.
Proof.
  unfold enc1. intros S. destruct (N.ltb_spec c 128); [intros [<-|[]] _; reflexivity|].
  destruct (N.ltb_spec c 2048); [|destruct (N.ltb_spec c 65536)]; cbn [In]; intros I L;
    repeat (destruct I as [<-|I]; [generalize dependent (c mod 64)%N; generalize dependent ((c / 64) mod 64)%N; generalize dependent ((c / 4096) mod 64)%N;
      generalize dependent (c / 64)%N; generalize dependent (c / 4096)%N; generalize dependent (c / 262144)%N; intros; lia|]); contradiction.
Qed.
Lemma enc_low s b : (forall c, In c s -> scalar c) -> In b (utf8_enc s) -> (b < 128)%N -> In b s.
Proof.
  intros S I L. unfold utf8_enc in I. apply in_flat_map in I. destruct I as (c & C & I). rewrite (enc1_low c b (S c C) I L). exact C.
Qed.
Definition qloc (b : N) : str := if safe_in_location b then [b] else [37%N; hexdigit (b / 16); hexdigit (b mod 16)].
Lemma safe_ascii b : safe_in_location b = true -> (b < 128)%N.
Proof.
  unfold safe_in_location. rewrite orb_true_iff. intros [H|H]; [apply unreserved_range in H; tauto|]. apply cmem_In in H.
  assert (A : forallb (fun c => (c <? 128)%N) (u ":/%#?=@[]!$&'()*+,;") = true) by (vm_compute; reflexivity).
  apply N.ltb_lt. exact (proj1 (forallb_forall _ _) A b H).
Qed.
Lemma qloc_char b x : (b < 256)%N -> In x (qloc b) -> (x < 128)%N /\ (x = b \/ x = 37%N \/ (48 <= x <= 57)%N \/ (65 <= x <= 70)%N).
Proof.
  intros B. unfold qloc. destruct (safe_in_location b) eqn:E.
  - intros [<-|[]]. split; [apply safe_ascii; exact E | auto].
  - assert (M := N.mod_lt b 16 ltac:(lia)). assert (L : (b / 16 < 16)%N) by (apply N.div_lt_upper_bound; lia).
    assert (D : forall v, (v < 16)%N -> (hexdigit v < 128 /\ (48 <= hexdigit v <= 57 \/ 65 <= hexdigit v <= 70))%N).
    { intros v V. unfold hexdigit. destruct (N.ltb_spec v 10); lia. }
    cbn [In]. intros [<-|[<-|[<-|[]]]]; [split; [lia|auto]| |]; (split; [apply D; assumption|]); right; right; [apply (D _ L) | apply (D _ M)].
Qed.
Lemma unquote_qloc l : (forall b, In b l -> (b < 256)%N) -> ~ In 37%N l -> unquote_bytes (flat_map qloc l) = l.
Proof.
  induction l as [|b l IH]; intros H N; [reflexivity|]. cbn [flat_map].
  assert (IH' : unquote_bytes (flat_map qloc l) = l) by (apply IH; [intros x X; apply H; right; exact X | intros X; apply N; right; exact X]).
  assert (B := H b (or_introl eq_refl)). unfold qloc at 1. destruct (safe_in_location b).
  - cbn [app unquote_bytes]. destruct (N.eqb_spec b 37) as [->|_]; [exfalso; apply N; left; reflexivity|]. f_equal. exact IH'.
  - assert (D := N.div_mod' b 16). assert (M := N.mod_lt b 16 ltac:(lia)).
    assert (L : (b / 16 < 16)%N) by (apply N.div_lt_upper_bound; lia).
    cbn [app unquote_bytes]. rewrite N.eqb_refl, !hexval_hexdigit by assumption. rewrite IH'. f_equal. lia.
Qed.
Lemma quoted_path p : (forall c, In c p -> scalar c) -> free_of (u "%?#") p ->
  unquote (quote_location p) = p /\ free_of (u "?#") (quote_location p).
Proof.
  intros S F. change (quote_location p) with (flat_map qloc (utf8_enc p)).
  assert (BY : forall b, In b (utf8_enc p) -> (b < 256)%N) by (intros b B; exact (enc_bytes p b S B)).
  split.
  - rewrite unquote_ascii.
    + rewrite unquote_qloc; [apply dec_enc; exact S | exact BY|]. intros I. apply enc_low in I; [|exact S|lia]. revert I. nope F.
    + intros x X. apply in_flat_map in X. destruct X as (b & B & X). apply (qloc_char b x (BY b B) X).
  - intros x X J. apply in_flat_map in X. destruct X as (b & B & X). destruct (qloc_char b x (BY b B) X) as [L C].
    destruct C as [->|[->|C]].
    + apply enc_low in B; [|exact S|exact L]. apply (F b B). cbn in J |- *. tauto.
    + cbn in J. destruct J as [J|[J|[]]]; discriminate.
    + cbn in J. destruct J as [<-|[<-|[]]]; lia.
Qed.

(** ** Hosts *)
Lemma first_part_free c s : ~ In c s -> first_part c s = s.
Proof. intros H. unfold first_part. rewrite split_char_free by exact H. reflexivity. Qed.
Lemma first_part_app c a b : ~ In c a -> first_part c (a ++ c :: b) = a.
Proof. intros H. unfold first_part. rewrite split_char_app by exact H. reflexivity. Qed.
Lemma pattern_matches_spec h p : pattern p -> p <> u "*" ->
  (pattern_matches h p = true <-> h = p \/ exists d front, p = u "*." ++ d /\ h = front ++ u "." ++ d).
Proof.
  intros P N. unfold pattern_matches. rewrite orb_true_iff, andb_true_iff. destruct P as [P|[P|(d & -> & D)]]; [|contradiction|].
  - split.
    + intros [E|[E _]]; [left; apply seqb_eq; exact E|]. exfalso. apply P. apply prefixb_iff in E as (r & ->). left. reflexivity.
    + intros [->|(d & f & -> & _)]; [left; apply seqb_eq; reflexivity|]. exfalso. apply P. left. reflexivity.
  - split.
    + intros [E|[_ E]]; [left; apply seqb_eq; exact E|]. right. apply suffixb_iff in E as (f & ->). exists d, f. split; reflexivity.
    + intros [->|(d' & f & E & ->)]; [left; apply seqb_eq; reflexivity|]. right. split; [reflexivity|].
      apply suffixb_iff. exists f. apply app_inv_head in E. subst d'. reflexivity.
Qed.
Lemma existsb_allows ps h : (forall p, In p ps -> pattern p) -> ~ In (u "*") ps ->
  (existsb (pattern_matches h) ps = true <-> allows ps h).
Proof.
  intros P N. rewrite existsb_exists. unfold allows. split.
  - intros (p & I & M). apply pattern_matches_spec in M; [|exact (P p I)|intros ->; contradiction].
    destruct M as [->|(d & f & -> & ->)]; [left; exact I | right; exists d, f; auto].
  - intros [I|(d & f & I & ->)].
    + exists h. split; [exact I|]. apply pattern_matches_spec; [exact (P h I) | intros ->; contradiction | left; reflexivity].
    + exists (u "*." ++ d). split; [exact I|]. apply pattern_matches_spec; [exact (P _ I) | intros E; rewrite E in I; contradiction|].
      right. exists d, f. auto.
Qed.
Lemma validate_fst h ps : forall www, fst (validate_host h ps www) = existsb (pattern_matches h) ps.
Proof.
  induction ps as [|p ps IH]; intros www; [reflexivity|]. cbn [validate_host existsb]. destruct (pattern_matches h p); [reflexivity|]. apply IH.
Qed.
Lemma validate_snd h ps : existsb (pattern_matches h) ps = false -> forall www,
  snd (validate_host h ps www) = www || smem (u "www." ++ h) ps.
Proof.
  induction ps as [|p ps IH]; intros E www.
  - cbn. rewrite orb_false_r. reflexivity.
  - cbn [existsb] in E. apply orb_false_iff in E as [E1 E2]. cbn [validate_host]. rewrite E1. rewrite IH by exact E2.
    rewrite <- orb_assoc. f_equal.
Qed.

(** A pattern list without "*" and a request of an http or websocket connection. *)
Lemma trusted_host_eq order ip_ok c s : ~ In (u "*") (h_hosts c) -> connection s = true ->
  trusted_host order ip_ok c s =
    if existsb (pattern_matches (host_of s)) (h_hosts c) then Through (Some true)
    else if smem (u "www." ++ host_of s) (h_hosts c) && h_www c then
      match build_from_scope ip_ok s with
      | None => Fails
      | Some x => match url_replace ip_ok (set_netloc None (u "www." ++ p_netloc (split x))) x with
                  | None => Fails
                  | Some y => Answer (redirect order 303 (text y))
                  end
      end
    else if h_block c then Answer (plain_text order 400 (u "Invalid host header") [])
    else Through (Some false).
Proof.
  intros N C. unfold trusted_host. rewrite (proj2 (smem_not_In _ _) N), C. cbn [orb negb].
  assert (A := validate_fst (host_of s) (h_hosts c) false). assert (B := validate_snd (host_of s) (h_hosts c)).
  destruct (validate_host (host_of s) (h_hosts c) false) as [v w] eqn:E. cbn [fst] in A. subst v.
  destruct (existsb (pattern_matches (host_of s)) (h_hosts c)) eqn:X; [reflexivity|]. specialize (B eq_refl false). rewrite E in B. cbn [snd orb] in B. subst w.
  reflexivity.
Qed.

(** ** Requests as URLs *)
Lemma host_name_good ip_ok name prt : host_name name -> (forall n, prt = Some n -> (n <= 65535)%N) -> good_authority ip_ok None None name prt.
Proof.
  intros [N H] P. constructor; [discriminate|discriminate| |exact P]. apply gh_name; [exact N| |].
  - intros c I J. specialize (H c I).
    assert (A : forallb (fun c => negb (is_digit c) && negb (is_letter c) && negb (N.eqb c 45) && negb (N.eqb c 46) && negb (N.eqb c 95)) (u "@:/?#[]") = true) by (vm_compute; reflexivity).
    assert (B := proj1 (forallb_forall _ _) A c J). cbn beta in B.
    rewrite !andb_true_iff, !negb_true_iff, !N.eqb_neq in B. unfold is_digit, is_letter, between in B. lia.
  - intros c I. specialize (H c I). lia.
Qed.
Lemma plain_good path : plain_path path -> good_path path.
Proof.
  intros (B & F & S & _). refine (conj (or_intror B) (conj _ S)). intros c I J. apply (F c I). cbn in J |- *. tauto.
Qed.
Lemma sent_good q : sent_query q -> good_query q.
Proof.
  intros H. split.
  - intros c I [<-|[]]. destruct (url_char_clean _ (H _ I)) as [A _]. apply A. reflexivity.
  - intros c I. destruct (url_char_clean _ (H _ I)) as (_ & A & B & C). auto.
Qed.
Definition is_default (scheme : str) (n : N) : bool := match default_port scheme with Some d => N.eqb n d | None => false end.
Lemma default_spec scheme n : In scheme [u "http"; u "https"; u "ws"; u "wss"] -> (is_default scheme n = true <-> default scheme n).
Proof.
  intros I. unfold is_default, default. destruct I as [<-|[<-|[<-|[<-|[]]]]].
  - change (default_port (u "http")) with (Some 80%N). rewrite N.eqb_eq. split; [intros ->; left; auto|]. intros [[_ H]|[[H|H] _]]; [exact H|discriminate H|discriminate H].
  - change (default_port (u "https")) with (Some 443%N). rewrite N.eqb_eq. split; [intros ->; right; auto|]. intros [[[H|H] _]|[_ H]]; [discriminate H|discriminate H|exact H].
  - change (default_port (u "ws")) with (Some 80%N). rewrite N.eqb_eq. split; [intros ->; left; auto|]. intros [[_ H]|[[H|H] _]]; [exact H|discriminate H|discriminate H].
  - change (default_port (u "wss")) with (Some 443%N). rewrite N.eqb_eq. split; [intros ->; right; auto|]. intros [[[H|H] _]|[_ H]]; [discriminate H|discriminate H|exact H].
Qed.
Lemma scheme_usual scheme : In scheme [u "http"; u "https"; u "ws"; u "wss"] -> scheme_name scheme.
Proof.
  intros I.
  assert (A : forall c r, (97 <= c <= 122)%N -> forallb (fun x => between 97 122 x) r = true -> scheme_name (c :: r)).
  { intros c r C R. exists c, r. split; [reflexivity|]. split; [exact C|]. intros x X. left.
    assert (B := proj1 (forallb_forall _ _) R x X). cbn beta in B. unfold between in B. lia. }
  destruct I as [<-|[<-|[<-|[<-|[]]]]]; apply A; try reflexivity; split; discriminate.
Qed.
Lemma scope_url ip_ok s name prt : In (s_scheme s) [u "http"; u "https"; u "ws"; u "wss"] ->
  request_authority s name prt -> host_name name -> (forall n, prt = Some n -> (n <= 65535)%N) ->
  plain_path (s_path s) -> sent_query (s_query s) ->
  exists x, build_from_scope ip_ok s = Some x /\ shows x (s_scheme s) (authority None None name prt) (s_path s) (s_query s) [].
Proof.
  intros SC A HN PR P Q.
  assert (T : scope_text s = Some (url_text (s_scheme s) (authority None None name prt) (s_path s) (s_query s) [])).
  { unfold scope_text. rewrite hget_values by reflexivity.
    assert (U : forall b, b = s_scheme s ++ u "://" ++ authority None None name prt ++ s_path s ->
              Some (if empty (s_query s) then b else b ++ u "?" ++ s_query s)
              = Some (url_text (s_scheme s) (authority None None name prt) (s_path s) (s_query s) [])).
    { intros b ->. f_equal. unfold url_text. destruct (s_query s); cbn [empty]; rewrite ?app_nil_r, <- ?app_assoc; reflexivity. }
    destruct A as [-> |(-> & n & -> & D)]; [apply U; reflexivity|]. cbn [hd_error].
    assert (DS := default_spec (s_scheme s) n SC). unfold is_default in DS.
    destruct (default_port (s_scheme s)) as [d|] eqn:DP.
    - destruct (N.eqb n d) eqn:ND.
      + destruct D as [[-> _]|[_ D]]; [|exfalso; apply D, DS; reflexivity]. apply U. unfold authority. rewrite app_nil_r. reflexivity.
      + destruct D as [[_ D]|[-> _]]; [apply DS in D; discriminate D|]. apply U. unfold authority, port_text. rewrite <- !app_assoc. reflexivity.
    - exfalso. destruct SC as [E|[E|[E|[E|[]]]]]; rewrite <- E in DP; vm_compute in DP; discriminate DP. }
  unfold build_from_scope. rewrite T. rewrite url_of_text.
  - eexists. split; [reflexivity|]. reflexivity.
  - apply scheme_usual. exact SC.
  - apply host_name_good; assumption.
  - apply plain_good. exact P.
  - apply sent_good. exact Q.
  - apply smooth_nil.
Qed.
(** Another scheme and authority in its place. *)
Lemma moved ip_ok x scheme auth path query sch name prt :
  shows x scheme auth path query [] -> scheme_name (dflt scheme sch) -> host_name name -> (forall n, prt = Some n -> (n <= 65535)%N) ->
  good_path path -> good_query query ->
  exists y, url_replace ip_ok (set_netloc sch (authority None None name prt)) x = Some y
    /\ text y = url_text (dflt scheme sch) (authority None None name prt) path query [].
Proof.
  intros X S H PR P Q. unfold url_replace. rewrite X. unfold replace_parts, set_netloc.
  cbn [c_scheme c_netloc c_path c_query c_fragment c_host c_port c_user c_pass given orb dflt p_scheme p_netloc p_path p_query p_fragment].
  rewrite rebuild.
  - eexists. split; reflexivity.
  - exact S.
  - apply host_name_good; assumption.
  - exact P.
  - exact Q.
  - apply smooth_nil.
Qed.
Lemma authority_safe name prt : host_name name -> quote_location (authority None None name prt) = authority None None name prt.
Proof.
  intros [_ H]. apply quote_location_safe. intros c I. apply url_char_safe. unfold authority in I.
  apply in_app_or in I as [I|I]; [destruct I|]. apply in_app_or in I as [I|I].
  - specialize (H c I). unfold url_char. destruct H as [H|[H|[H|[-> | [-> | -> ]]]]]; [tauto|tauto|tauto|right; apply in_u; reflexivity..].
  - destruct prt as [n|]; [|destruct I]. apply in_app_or in I as [I|I].
    + cbn in I. destruct I as [<-|[]]. right. apply in_u. reflexivity.
    + assert (D := proj1 (forallb_forall _ _) (dec_digits n) c I). unfold is_digit in D. left. lia.
Qed.
Lemma location_names scheme name prt path query : In scheme [u "http"; u "https"; u "ws"; u "wss"] -> host_name name ->
  plain_path path -> sent_query query ->
  names (quote_location (url_text scheme (authority None None name prt) path query [])) scheme (authority None None name prt) path query.
Proof.
  intros SC H (_ & F & _ & S) Q. exists (quote_location path). destruct (quoted_path path S F) as [A B].
  refine (conj _ (conj A B)). unfold url_text. rewrite app_nil_r.
  assert (E1 : quote_location scheme = scheme) by (destruct SC as [<-|[<-|[<-|[<-|[]]]]]; apply safe_lit; vm_compute; reflexivity).
  assert (E2 : quote_location (u "://") = u "://") by (apply safe_lit; vm_compute; reflexivity).
  assert (E3 : quote_location match query with [] => [] | _ => u "?" ++ query end = match query with [] => [] | _ => u "?" ++ query end).
  { destruct query as [|q qr]; [reflexivity|]. apply quote_location_safe. intros c I. apply url_char_safe.
    apply in_app_or in I as [I|I]; [cbn in I; destruct I as [<-|[]]; right; apply in_u; reflexivity | exact (Q c I)]. }
  destruct query as [|q qr].
  - rewrite !quote_location_app, E1, E2, authority_safe by exact H. reflexivity.
  - revert E3. generalize (u "?" ++ q :: qr). intros w E3. rewrite !quote_location_app, E1, E2, E3, authority_safe by exact H. reflexivity.
Qed.

(** ** Client addresses *)
Lemma count_app c a b : count c (a ++ b) = (count c a + count c b)%nat.
Proof. unfold count. rewrite filter_app, app_length. reflexivity. Qed.
Lemma count_free c a : ~ In c a -> count c a = 0%nat.
Proof.
  unfold count. induction a as [|x a IH]; intros H; [reflexivity|]. cbn [filter].
  destruct (N.eqb_spec c x) as [->|_]; [exfalso; apply H; left; reflexivity|]. apply IH. intros I. apply H. right. exact I.
Qed.
Lemma two_count a : two_colons a -> (2 <= count 58 a)%nat /\ In 58%N a.
Proof.
  intros (x & y & z & ->). rewrite !count_app. change (count 58 (u ":")) with 1%nat. split; [lia|].
  apply in_or_app. right. left. reflexivity.
Qed.
Definition bracket (c : N) : bool := N.eqb c 91 || N.eqb c 93.
Lemma strip_brackets a l r : free_of (u "[]") a -> forallb bracket l = true -> forallb bracket r = true -> a <> [] ->
  strip_by bracket (l ++ a ++ r) = a.
Proof.
  intros F L R N. apply strip_by_pad; [exact L | exact R |..].
  - destruct a as [|c a]; [contradiction|]. destruct (bracket c) eqn:E; [|reflexivity]. exfalso. apply (F c (or_introl eq_refl)).
    unfold bracket in E. apply orb_true_iff in E as [E|E]; apply N.eqb_eq in E; subst c; cbn; auto.
  - destruct (rev a) as [|c b] eqn:E; [reflexivity|]. assert (I : In c a) by (rewrite in_rev, E; left; reflexivity).
    destruct (bracket c) eqn:E1; [|reflexivity]. exfalso. apply (F c I).
    unfold bracket in E1. apply orb_true_iff in E1 as [E1|E1]; apply N.eqb_eq in E1; subst c; cbn; auto.
Qed.
Lemma digits_all p : digits p -> negb (empty p) && forallb is_digit p = true /\ ~ In 58%N p.
Proof.
  intros [N D]. split.
  - apply andb_true_intro. split; [destruct p; [contradiction|reflexivity]|]. apply forallb_forall. intros c I. specialize (D c I).
    unfold is_digit. apply andb_true_intro. split; apply N.leb_le; lia.
  - intros I. specialize (D _ I). lia.
Qed.
Lemma address_strip a : address a -> strip_port a = a.
Proof.
  intros (NE & _ & [C|[T F]]); unfold strip_port.
  - rewrite (proj2 (cmem_not_In 58%N a) C). destruct (cmem 46 a && (count 58 a <=? 1)%nat); [|reflexivity].
    unfold drop_port. rewrite (proj2 (rsplit1_none 58 a) C). reflexivity.
  - destruct (two_count a T) as [C I]. destruct (Nat.leb_spec (count 58 a) 1); [lia|]. rewrite andb_false_r, (proj2 (cmem_In 58%N a) I).
    assert (DP : drop_port6 a = a).
    { unfold drop_port6. destruct (rsplit1 58 a) as [[b d]|] eqn:E; [|reflexivity].
      assert (X : suffixb (u "]") b = false).
      { destruct (suffixb (u "]") b) eqn:X; [|reflexivity]. exfalso. apply suffixb_iff in X as (w & ->).
        unfold rsplit1 in E. destruct (split1 58 (rev a)) as [[e f]|] eqn:E1; [|discriminate]. injection E as E2 <-.
        apply split1_some in E1 as [E1 _]. apply (F 93%N); [|right; left; reflexivity]. rewrite in_rev, E1. apply in_or_app. right. right.
        rewrite in_rev, E2. apply in_or_app. right. left. reflexivity. }
      rewrite X, andb_false_r. reflexivity. }
    rewrite DP. change (fun c : N => ((c =? 91) || (c =? 93))%N) with bracket.
    assert (S := strip_brackets a [] [] F eq_refl eq_refl NE). rewrite app_nil_r in S. exact S.
Qed.
Lemma node_strip a n : node a n -> strip_port n = a.
Proof.
  intros [x D F|x p D F P|x T F|x p T F P|x A F]; [| | | |now apply address_strip]; unfold strip_port.
  - assert (N : ~ In 58%N x) by nope F. rewrite (proj2 (cmem_In _ _) D), count_free by exact N. cbn [andb Nat.leb].
    unfold drop_port. rewrite (proj2 (rsplit1_none 58 x) N). reflexivity.
  - assert (N : ~ In 58%N x) by nope F. destruct (digits_all p P) as [PD PN].
    rewrite (proj2 (cmem_In 46%N (x ++ u ":" ++ p))) by (apply in_or_app; left; exact D).
    rewrite !count_app, (count_free 58 x N), (count_free 58 p PN). change (count 58 (u ":")) with 1%nat. cbn [andb Nat.leb Nat.add].
    unfold drop_port. change (u ":" ++ p) with (58%N :: p). rewrite rsplit1_app by exact PN. rewrite PD. reflexivity.
  - destruct (two_count x T) as [C I].
    assert (F' : free_of (u "[]") x) by (apply (free_weaken (u "[]"";, ")); [apply incl_lit; reflexivity | exact F]).
    rewrite (proj2 (cmem_In 58%N (u "[" ++ x ++ u "]"))) by (apply in_or_app; right; apply in_or_app; left; exact I).
    rewrite !count_app. destruct (Nat.leb_spec (count 58 (u "[") + (count 58 x + count 58 (u "]"))) 1); [lia|]. rewrite andb_false_r.
    assert (DP : drop_port6 (u "[" ++ x ++ u "]") = u "[" ++ x ++ u "]").
    { unfold drop_port6. destruct (rsplit1 58 (u "[" ++ x ++ u "]")) as [[b d]|] eqn:E; [|reflexivity].
      assert (X : forallb is_digit d = false).
      { destruct (forallb is_digit d) eqn:X; [|reflexivity]. exfalso.
        unfold rsplit1 in E. destruct (split1 58 (rev (u "[" ++ x ++ u "]"))) as [[e f]|] eqn:E1; [|discriminate].
        injection E as <- <-. apply split1_some in E1 as [E1 _]. rewrite !rev_app_distr in E1. cbn [u rev app] in E1.
        destruct e as [|c e]; [cbn in E1; discriminate E1|]. cbn [app] in E1. injection E1 as <- _.
        assert (Y := proj1 (forallb_forall _ _) X 93%N). rewrite <- in_rev in Y. specialize (Y (or_introl eq_refl)). discriminate Y. }
      rewrite X. rewrite andb_false_r. reflexivity. }
    rewrite DP. change (fun c : N => ((c =? 91) || (c =? 93))%N) with bracket.
    apply (strip_brackets x (u "[") (u "]")); [exact F'|reflexivity|reflexivity|]. destruct x; [destruct I | discriminate].
  - destruct (two_count x T) as [C I]. destruct (digits_all p P) as [PD PN].
    assert (F' : free_of (u "[]") x) by (apply (free_weaken (u "[]"";, ")); [apply incl_lit; reflexivity | exact F]).
    replace (u "[" ++ x ++ u "]:" ++ p) with ((u "[" ++ x ++ u "]") ++ 58%N :: p) by (rewrite <- !app_assoc; reflexivity).
    rewrite (proj2 (cmem_In 58%N _)) by (apply in_or_app; right; left; reflexivity).
    rewrite !count_app. destruct (Nat.leb_spec (count 58 (u "[") + (count 58 x + count 58 (u "]")) + count 58 (58%N :: p)) 1); [lia|]. rewrite andb_false_r.
    unfold drop_port6. rewrite rsplit1_app by exact PN. rewrite PD.
    rewrite (proj2 (suffixb_iff (u "]") _)) by (exists (u "[" ++ x); rewrite <- app_assoc; reflexivity). cbn [andb].
    change (fun c : N => ((c =? 91) || (c =? 93))%N) with bracket.
    apply (strip_brackets x (u "[") (u "]")); [exact F'|reflexivity|reflexivity|]. destruct x; [destruct I | discriminate].
Qed.

(** A token, and what ends it. *)
Lemma token_span n rest : free_of (u """;, ") n -> (forall c r, rest = c :: r -> In c (u """;, ")) ->
  fst (span ends_token (n ++ rest)) = n.
Proof.
  intros F R. rewrite span_app; [reflexivity| |].
  - intros c I. destruct (ends_token c) eqn:E; [|reflexivity]. exfalso. apply (F c I).
    unfold ends_token in E. rewrite !orb_true_iff, !N.eqb_eq in E. cbn. destruct E as [[[E|E]|E]|E]; subst; tauto.
  - intros c r E. specialize (R c r E). cbn in R. destruct R as [<-|[<-|[<-|[<-|[]]]]]; reflexivity.
Qed.
Lemma node_free a n : node a n -> free_of (u """;, ") n /\ n <> [].
Proof.
  assert (D : forall p, digits p -> free_of (u """;, ") p).
  { intros p [_ D] c I J. specialize (D c I). cbn in J. destruct J as [<-|[<-|[<-|[<-|[]]]]]; lia. }
  assert (B : forall l : str, forallb (fun c => negb (cmem c (u """;, "))) l = true -> free_of (u """;, ") l).
  { intros l H c I J. assert (X := proj1 (forallb_forall _ _) H c I). cbn beta in X. rewrite (proj2 (cmem_In _ _) J) in X. discriminate X. }
  intros [x X F|x p X F P|x T F|x p T F P|x (A & _) F]; [| | | |now split].
  - split; [apply (free_weaken (u ":"";, ")); [apply incl_lit; reflexivity | exact F]|]. destruct x; [destruct X|discriminate].
  - split; [|intros E; apply app_eq_nil in E as [_ E]; discriminate E]. rewrite !free_of_app. refine (conj _ (conj _ (D p P))); [|apply B; reflexivity].
    apply (free_weaken (u ":"";, ")); [apply incl_lit; reflexivity | exact F].
  - split; [|discriminate]. rewrite !free_of_app. refine (conj _ (conj _ _)); [apply B; reflexivity| |apply B; reflexivity].
    apply (free_weaken (u "[]"";, ")); [apply incl_lit; reflexivity | exact F].
  - split; [|discriminate]. rewrite !free_of_app. refine (conj _ (conj _ (conj _ (D p P)))); [apply B; reflexivity| |apply B; reflexivity].
    apply (free_weaken (u "[]"";, ")); [apply incl_lit; reflexivity | exact F].
Qed.
Lemma x_forwarded_hit pre n rest : (forall c, In c pre -> In c (u """;, ")) -> free_of (u """;, ") n -> n <> [] ->
  (forall c r, rest = c :: r -> In c (u """;, ")) -> x_forwarded_search (pre ++ n ++ rest) = Some n.
Proof.
  intros P F N R. induction pre as [|c pre IH]; cbn [app].
  - assert (S := token_span n rest F R). destruct n as [|c n]; [contradiction|]. cbn [app] in *. cbn [x_forwarded_search].
    assert (E : ends_token c = false).
    { destruct (ends_token c) eqn:E; [|reflexivity]. exfalso. apply (F c (or_introl eq_refl)).
      unfold ends_token in E. rewrite !orb_true_iff, !N.eqb_eq in E. cbn. destruct E as [[[E|E]|E]|E]; subst; tauto. }
    rewrite E, S. reflexivity.
  - cbn [x_forwarded_search].
    assert (E : ends_token c = true) by (specialize (P c (or_introl eq_refl)); cbn in P; destruct P as [<-|[<-|[<-|[<-|[]]]]]; reflexivity).
    rewrite E. apply IH. intros x X. apply P. right. exact X.
Qed.
Lemma forwarded_hit pre f q n rest : (forall x y, lower pre <> x ++ u "for=" ++ y) -> lower f = u "for=" -> (q = [] \/ q = u """") ->
  free_of (u """;, ") n -> n <> [] -> (forall c r, rest = c :: r -> In c (u """;, ")) ->
  forwarded_search (pre ++ f ++ q ++ n ++ rest) = Some n.
Proof.
  intros P LF Q F NN R. 
  assert (HF : exists f1 f2 f3 f4, f = [f1; f2; f3; f4]).
  { assert (L : length f = 4%nat) by (rewrite <- (map_length lower_c f); change (map lower_c f) with (lower f); rewrite LF; reflexivity).
    destruct f as [|f1 [|f2 [|f3 [|f4 [|f5 f]]]]]; cbn in L; try lia. exists f1, f2, f3, f4. reflexivity. }
  induction pre as [|c pre IH].
  - cbn [app]. destruct HF as (f1 & f2 & f3 & f4 & ->). cbn [app forwarded_search].
    assert (E : prefixb (u "for=") (lower (f1 :: f2 :: f3 :: f4 :: q ++ n ++ rest)) = true).
    { apply prefixb_iff. exists (lower (q ++ n ++ rest)). change (lower (f1 :: f2 :: f3 :: f4 :: q ++ n ++ rest)) with (lower ([f1; f2; f3; f4] ++ q ++ n ++ rest)).
      unfold lower at 1. rewrite map_app. change (map lower_c [f1; f2; f3; f4]) with (lower [f1; f2; f3; f4]). rewrite LF. reflexivity. }
    rewrite E. cbn [skipn]. assert (S := token_span n rest F R). destruct Q as [-> | ->].
    + cbn [app]. destruct n as [|c n]; [contradiction|]. cbn [app] in *. destruct (N.eqb_spec c 34) as [->|_]; [exfalso; apply (F 34%N); cbn; auto|].
      rewrite S. reflexivity.
    + change (u """" ++ n ++ rest) with (34%N :: n ++ rest). cbv iota. change (34 =? 34)%N with true. cbv iota.
      rewrite S. destruct n; [contradiction | reflexivity].
  - assert (E : prefixb (u "for=") (lower ((c :: pre) ++ f ++ q ++ n ++ rest)) = false).
    { destruct (prefixb (u "for=") (lower ((c :: pre) ++ f ++ q ++ n ++ rest))) eqn:E; [|reflexivity]. exfalso.
      apply prefixb_iff in E as (t & E). unfold lower in E. rewrite !map_app in E. fold (lower (c :: pre)) in E. fold (lower f) in E. rewrite LF in E.
      change (u "for=") with [102; 111; 114; 61]%N in *.
      destruct (lower (c :: pre)) as [|p1 [|p2 [|p3 [|p4 p]]]] eqn:EP; cbn [app] in E.
      - discriminate EP.
      - injection E as E1 E2. discriminate E2.
      - injection E as E1 E2 E3. discriminate E3.
      - injection E as E1 E2 E3 E4. discriminate E4.
      - injection E as -> -> -> -> _. apply (P [] p). reflexivity. }
    cbn [app forwarded_search]. cbn [app] in E. rewrite E. apply IH. intros x y X. apply (P (lower_c c :: x) y). cbn [app]. rewrite <- X. reflexivity.
Qed.
