From Verif Require Import PyStr PyStrFacts Utf8 Asgi HeaderModel HeaderSpec HeaderProofs CookieModel CookieSpec CookieProofs RequestModel FormSpec FormProofs CsrfModel CsrfSpec.

Lemma ascii_iff s : ascii s = true <-> forall c, In c s -> (c < 128)%N.
Proof. unfold ascii. rewrite forallb_forall. split; intros H c Hc; apply N.ltb_lt; exact (H c Hc). Qed.

(** ** Tokens *)
Lemma digest_true a b : compare_digest a b = Some true -> a = b.
Proof. unfold compare_digest. destruct (ascii a && ascii b); [|discriminate]. intros H. apply seqb_eq. congruence. Qed.
Lemma decode_good e s t d : decode_token e s t = Some (Some d) -> length d = 64 /\ t = d ++ mac e s d.
Proof.
  unfold decode_token. destruct (length t <? token_length + 1) eqn:L; [discriminate|]. apply Nat.ltb_ge in L. unfold token_length in L.
  destruct (compare_digest _ _) as [[|]|] eqn:E; try discriminate. apply digest_true in E. intros H.
  assert (D : d = firstn 64 t) by (unfold token_length in H; congruence). subst d. split; [rewrite firstn_length; lia|].
  unfold token_length in E. rewrite <- E. symmetry. apply firstn_skipn.
Qed.
Lemma match_true e s a b : tokens_match e s a b = Some true -> exists t, a = Some t /\ b = Some t /\ authentic e s t.
Proof.
  unfold tokens_match. destruct a as [[|x a]|]; try discriminate. destruct b as [[|y b]|]; try discriminate.
  destruct (decode_token e s (x :: a)) as [[da|]|] eqn:EA; try discriminate;
  destruct (decode_token e s (y :: b)) as [[db|]|] eqn:EB; try discriminate.
  intros H. apply digest_true in H. subst db. apply decode_good in EA, EB. destruct EA as (L & EA), EB as (_ & EB).
  exists (x :: a). split; [reflexivity|]. split; [rewrite EA, EB; reflexivity|]. exists da. split; assumption.
Qed.

Definition plain_text (s : str) : Prop := forall c, In c s -> (c < 128)%N.
Lemma good_mac e k m : good_env e -> mac e k m <> [] /\ plain_text (mac e k m).
Proof.
  intros (_ & G). destruct (G k m) as (N & H). split; [exact N|]. intros c Hc. apply H in Hc.
  assert (A : ascii (u "0123456789abcdef") = true) by (vm_compute; reflexivity). apply ascii_iff with (c := c) in A; assumption.
Qed.
Lemma decode_ascii e s t : good_env e -> plain_text t -> exists o, decode_token e s t = Some o.
Proof.
  intros G A. unfold decode_token. destruct (_ <? _); [eexists; reflexivity|]. unfold compare_digest.
  assert (ascii (skipn token_length t) = true) as ->.
  { apply ascii_iff. intros c Hc. apply A. rewrite <- (firstn_skipn token_length t). apply in_or_app. right. exact Hc. }
  assert (ascii (mac e s (firstn token_length t)) = true) as -> by (apply ascii_iff, good_mac; exact G).
  destruct (seqb _ _); eexists; reflexivity.
Qed.
Lemma match_ascii e s a b : good_env e -> (forall t, a = Some t -> plain_text t) -> (forall t, b = Some t -> plain_text t) ->
  tokens_match e s a b <> None.
Proof.
  intros G A B. unfold tokens_match. destruct a as [[|x a]|]; try discriminate. destruct b as [[|y b]|]; try discriminate.
  destruct (decode_ascii e s (x :: a) G (A _ eq_refl)) as (oa & EA). destruct (decode_ascii e s (y :: b) G (B _ eq_refl)) as (ob & EB).
  rewrite EA, EB. destruct oa as [da|], ob as [db|]; try discriminate. apply decode_good in EA, EB.
  unfold compare_digest. assert (ascii da = true) as ->.
  { apply ascii_iff. intros c Hc. apply (A _ eq_refl). rewrite (proj2 EA). apply in_or_app. left. exact Hc. }
  assert (ascii db = true) as ->.
  { apply ascii_iff. intros c Hc. apply (B _ eq_refl). rewrite (proj2 EB). apply in_or_app. left. exact Hc. }
  discriminate.
Qed.
Lemma match_authentic e s t : good_env e -> plain_text t -> authentic e s t -> tokens_match e s (Some t) (Some t) = Some true.
Proof.
  intros G A (r & L & E). assert (D : decode_token e s t = Some (Some r)).
  { unfold decode_token. assert (M := proj1 (good_mac e s r G)). destruct (length t <? token_length + 1) eqn:X.
    - exfalso. apply Nat.ltb_lt in X. rewrite E, app_length in X. unfold token_length in X. destruct (mac e s r); [congruence | cbn in X; lia].
    - assert (firstn token_length t = r) as ->.
      { rewrite E. unfold token_length. rewrite <- L. rewrite firstn_app, firstn_all, Nat.sub_diag. cbn [firstn]. apply app_nil_r. }
      assert (skipn token_length t = mac e s r) as ->.
      { rewrite E. unfold token_length. rewrite <- L. rewrite skipn_app, skipn_all, Nat.sub_diag. reflexivity. }
      unfold compare_digest. assert (ascii (mac e s r) = true) as -> by (apply ascii_iff, good_mac; exact G). cbn [andb].
      destruct (seqb_spec (mac e s r) (mac e s r)); [reflexivity | contradiction]. }
  unfold tokens_match. destruct t as [|x t]; [exfalso; destruct r; discriminate|]. rewrite D. unfold compare_digest.
  assert (ascii r = true) as ->.
  { apply ascii_iff. intros c Hc. apply A. rewrite E. apply in_or_app. left. exact Hc. }
  cbn [andb]. destruct (seqb_spec r r); [reflexivity | contradiction].
Qed.

(** ** Reading the body *)
Lemma read_arrived max msgs : forall acc b, arrived msgs = Some b ->
  read_body max acc msgs = Read (acc ++ b) \/ (read_body max acc msgs = TooLarge /\ max < length (acc ++ b)).
Proof.
  induction msgs as [|m msgs IH]; intros acc b H; [discriminate|]. destruct m as [x more|]; [|discriminate]. cbn [arrived read_body] in *.
  destruct ((0 <? length x) && (max <? length acc + length x)) eqn:L.
  - right. split; [reflexivity|]. apply andb_true_iff in L. destruct L as (_ & L). apply Nat.ltb_lt in L.
    destruct more; [destruct (arrived msgs); [|discriminate]; injection H as <- | injection H as <-]; rewrite !app_length; lia.
  - destruct more; [|injection H as <-; left; reflexivity]. destruct (arrived msgs) as [b'|]; [|discriminate]. injection H as <-.
    destruct (IH (acc ++ x) b' eq_refl) as [R|(R & L')]; rewrite <- app_assoc in *; [left | right; split]; assumption.
Qed.
Lemma read_small max msgs b : arrived msgs = Some b -> length b <= max -> read_body max [] msgs = Read b.
Proof. intros H L. destruct (read_arrived max msgs [] b H) as [R|(_ & X)]; [exact R | cbn in X; lia]. Qed.
(** A body that is read is the one that arrived, when the disconnects are left out. *)
Definition not_disc (m : rmsg) : bool := match m with MDisc => false | MReq _ _ => true end.
Lemma read_filter max msgs : forall acc b, read_body max acc msgs = Read b -> exists r, arrived (filter not_disc msgs) = Some r /\ b = acc ++ r.
Proof.
  induction msgs as [|m msgs IH]; intros acc b H; [discriminate|]. destruct m as [x more|]; cbn [read_body filter not_disc] in *.
  - destruct (_ && _); [discriminate|]. destruct more; cbn [arrived].
    + destruct (IH _ _ H) as (r & E & ->). rewrite E. exists (x ++ r). split; [reflexivity | rewrite app_assoc; reflexivity].
    + injection H as <-. exists x. auto.
  - apply IH. exact H.
Qed.

(** ** Extraction *)
Lemma qs_holds e field body t : qs_first field (decode_ignore e body) = Some t -> holds e field body t.
Proof.
  unfold qs_first. intros H. destruct (List.find _ _) as [(n', v')|] eqn:E; [|discriminate]. injection H as <-.
  apply List.find_some in E. destruct E as (I & E). apply in_map_iff in I. destruct I as (p & Ep & Ip). apply filter_In in Ip. destruct Ip as (Ip & _).
  cbn [fst] in E. apply seqb_eq in E. subst n'. unfold qs_pair in Ep. cbn [snd].
  destruct (split1 61 p) as [(n, v)|] eqn:S1.
  - apply split1_some in S1. destruct S1 as (S1 & _). injection Ep as <- <-. eapply h_url; [exact Ip | left; exact S1 | reflexivity].
  - injection Ep as <- <-. change (@nil N) with (unquote_plus []). eapply h_url; [exact Ip | right; split; reflexivity | reflexivity].
Qed.

Lemma occurs_refl s : occurs s s.
Proof. exists [], []. rewrite app_nil_r. reflexivity. Qed.
Lemma occurs_trans a b c : occurs a b -> occurs b c -> occurs a c.
Proof. intros (x & y & ->) (x' & y' & ->). exists (x' ++ x), (y ++ y'). rewrite !app_assoc. reflexivity. Qed.
Lemma occurs_firstn n s : occurs (firstn n s) s.
Proof. exists [], (skipn n s). symmetry. apply firstn_skipn. Qed.
Lemma occurs_skipn n s : occurs (skipn n s) s.
Proof. exists (firstn n s), []. rewrite app_nil_r. symmetry. apply firstn_skipn. Qed.
Lemma lstrip_skipn p s : exists n, lstrip_by p s = skipn n s.
Proof. induction s as [|c s (n & IH)]; [exists 0; reflexivity|]. cbn [lstrip_by]. destruct (p c); [exists (S n); exact IH | exists 0; reflexivity]. Qed.
Lemma occurs_strip p s : occurs (strip_by p s) s.
Proof.
  unfold strip_by, rstrip_by. destruct (lstrip_skipn p s) as (n & ->). destruct (lstrip_skipn p (rev (skipn n s))) as (m & ->).
  eapply occurs_trans; [|apply (occurs_skipn n)].
  exists [], (rev (firstn m (rev (skipn n s)))). cbn [app]. rewrite <- rev_app_distr, firstn_skipn, rev_involutive. reflexivity.
Qed.
Lemma names_occurs field s : names_field field s = true -> occurs (u "name=" ++ [34%N] ++ field ++ [34%N]) s.
Proof.
  set (p := u "name=" ++ [34%N] ++ field ++ [34%N]).
  assert (E : forall s, names_field field s = (prefixb p s && match skipn (length p) s with [] => true | c :: r => N.eqb c 59 || N.eqb c 10 && seqb r [] end)
    || match s with [] => false | _ :: r => names_field field r end) by (intros []; reflexivity).
  induction s as [|c s IH]; rewrite E; intros H.
  - rewrite orb_false_r in H. apply andb_true_iff in H. destruct H as (H & _). apply prefixb_iff in H. destruct H as (y & H). exists [], y. exact H.
  - apply orb_true_iff in H. destruct H as [H|H].
    + apply andb_true_iff in H. destruct H as (H & _). apply prefixb_iff in H. destruct H as (y & H). exists [], y. exact H.
    + destruct (IH H) as (x & y & ->). exists (c :: x), y. reflexivity.
Qed.
Lemma part_holds e field ed body : forall parts t, (forall p, In p parts -> occurs p body) -> part_field e field ed parts = Some t -> holds e field body t.
Proof.
  induction parts as [|p parts IH]; intros t P H; [discriminate|]. cbn [part_field] in H.
  assert (P' : forall p, In p parts -> occurs p body) by (intros q Hq; apply P; right; exact Hq).
  destruct (_ || _); [exact (IH t P' H)|]. destruct (match find [13; 10; 13; 10]%N p with Some i => Some i | None => find [10; 10]%N p end) as [i|]; [|exact (IH t P' H)].
  destruct (names_field field _) eqn:NF; [|exact (IH t P' H)]. injection H as <-.
  assert (OP := P p (or_introl eq_refl)).
  apply (h_part e field body (firstn i p) (strip_by is_crlf (skipn (i + 4) p))).
  - eapply occurs_trans; [apply occurs_firstn | exact OP].
  - eapply occurs_trans; [apply occurs_strip|]. eapply occurs_trans; [apply occurs_skipn | exact OP].
  - apply names_occurs. exact NF.
Qed.
Lemma split_parts f sep s p : In p (split_str_fuel f sep s) -> occurs p s.
Proof.
  revert s. induction f as [|f IH]; intros s H; cbn [split_str_fuel] in H.
  - destruct H as [<-|[]]. apply occurs_refl.
  - destruct (find sep s) as [i|]; [|destruct H as [<-|[]]; apply occurs_refl].
    destruct H as [<-|H]; [apply occurs_firstn|]. eapply occurs_trans; [apply IH; exact H | apply occurs_skipn].
Qed.
Lemma extract_holds e body ct field t : extract e body ct field = Some t -> holds e field body t.
Proof.
  unfold extract. destruct (containsb urlencoded _); [apply qs_holds|]. destruct (containsb multipart _); [|discriminate].
  destruct (search_boundary _) as [g|]; [|discriminate]. destruct (strip_by _ _) as [|x b]; [discriminate|].
  apply part_holds. intros p Hp. unfold split_str in Hp. apply split_parts in Hp. exact Hp.
Qed.

(** ** Forms *)
Lemma split_char_join_free c l : l <> [] -> (forall p, In p l -> ~ In c p) -> split_char c (join [c] l) = l.
Proof.
  induction l as [|x l IH]; intros N H; [congruence|]. destruct l as [|y l].
  - cbn [join]. apply split_char_free. apply H. left. reflexivity.
  - change (join [c] (x :: y :: l)) with (x ++ [c] ++ join [c] (y :: l)). cbn [app]. rewrite split_char_app by (apply H; left; reflexivity).
    f_equal. apply IH; [discriminate|]. intros p Hp. apply H. right. exact Hp.
Qed.
Lemma unquote_quote s : text s -> unquote_plus (quote_plus s) = s.
Proof. apply unquote_plus_quote_plus. Qed.

Lemma qs_encoded field pre tok post : texts (pre ++ (field, tok) :: post) -> (forall p, In p pre -> fst p <> field) ->
  qs_first field (std_encode (pre ++ (field, tok) :: post)) = Some tok.
Proof.
  intros T NF. unfold qs_first, std_encode. set (all := pre ++ (field, tok) :: post) in *. set (f := fun p : str * str => quote_plus (fst p) ++ u "=" ++ quote_plus (snd p)).
  change (u "&") with [38%N]. rewrite split_char_join_free.
  2:{ unfold all. destruct pre; discriminate. }
  2:{ intros p Hp. apply in_map_iff in Hp. destruct Hp as (q & <- & Hq). destruct (T q Hq) as (T1 & T2). unfold f. rewrite !in_app_iff.
      intros [X|[[X|[]]|X]]; [revert X; apply quote_plus_no; [exact T1 | left; reflexivity] | discriminate | revert X; apply quote_plus_no; [exact T2 | left; reflexivity]]. }
  assert (FA : forall l, filter (fun p => negb (seqb p [])) (map f l) = map f l).
  { induction l as [|q l IH]; [reflexivity|]. cbn [map filter]. rewrite IH. unfold f at 1. destruct (quote_plus (fst q)); reflexivity. }
  rewrite FA, map_map.
  assert (Q : forall q, In q all -> qs_pair (f q) = q).
  { intros q Hq. destruct (T q Hq) as (T1 & T2). unfold qs_pair, f. change (u "=" ++ quote_plus (snd q)) with (61%N :: quote_plus (snd q)).
    rewrite split1_app by (apply quote_plus_no; [exact T1 | right; reflexivity]). rewrite !unquote_quote by assumption. destruct q; reflexivity. }
  rewrite (map_ext_in _ (fun q => q)) by exact Q. rewrite map_id. unfold all.
  induction pre as [|q pre IH].
  - cbn [app List.find fst]. destruct (seqb_spec field field); [reflexivity | contradiction].
  - cbn [app List.find]. destruct (seqb_spec (fst q) field) as [X|]; [destruct (NF q (or_introl eq_refl) X)|].
    assert (T' : texts (pre ++ (field, tok) :: post)) by (intros p Hp; apply T; right; exact Hp).
    clear -NF. induction pre as [|q' pre IH]; cbn [app List.find fst].
    + destruct (seqb_spec field field); [reflexivity | contradiction].
    + destruct (seqb_spec (fst q') field) as [X|]; [destruct (NF q' (or_intror (or_introl eq_refl)) X)|]. apply IH.
      intros p [<-|Hp]; apply NF; [left; reflexivity | right; right; exact Hp].
Qed.
Lemma encoded_ascii pairs : texts pairs -> plain_text (std_encode pairs).
Proof.
  intros T. unfold std_encode. induction pairs as [|p l IH]; intros c Hc; [destruct Hc|].
  assert (T1 := T p (or_introl eq_refl)). destruct T1 as (T1 & T2).
  assert (F : forall c, In c (quote_plus (fst p) ++ u "=" ++ quote_plus (snd p)) -> (c < 128)%N).
  { intros d. rewrite !in_app_iff. intros [X|[[X|[]]|X]]; [exact (quote_plus_ascii_str _ T1 d X) | subst d; reflexivity | exact (quote_plus_ascii_str _ T2 d X)]. }
  cbn [map] in Hc. destruct (map _ l) as [|y ys] eqn:E.
  - cbn [join] in Hc. exact (F c Hc).
  - change (join (u "&") (?a :: y :: ys)) with (a ++ u "&" ++ join (u "&") (y :: ys)) in Hc. rewrite !in_app_iff in Hc.
    destruct Hc as [X|[[X|[]]|X]].
    + apply F. rewrite !in_app_iff. exact X.
    + subst c. reflexivity.
    + apply IH; [intros q Hq; apply T; right; exact Hq | exact X].
Qed.

(** Multipart bodies. *)
Lemma split_at sep a rest : sep <> [] -> (forall x y, a = x ++ y -> y <> [] -> prefixb sep (y ++ sep ++ rest) = false) ->
  split_str sep (a ++ sep ++ rest) = a :: split_str sep rest.
Proof.
  intros N. induction a as [|c a IH]; intros H; [change ([] ++ sep ++ rest) with (sep ++ rest); apply split_str_hit; exact N|].
  cbn [app]. rewrite split_str_miss; [|exact N | exact (H [] (c :: a) eq_refl ltac:(discriminate))].
  rewrite IH; [reflexivity|]. intros x y E. apply (H (c :: x) y). rewrite E. reflexivity.
Qed.
Lemma split_line sep a rest : sep <> [] -> ~ In 10%N sep -> ~ occurs sep a -> (a = [] \/ exists a', a = a' ++ [10%N]) ->
  split_str sep (a ++ sep ++ rest) = a :: split_str sep rest.
Proof.
  intros N L O A. apply split_at; [exact N|]. intros x y E Y. destruct (prefixb sep (y ++ sep ++ rest)) eqn:P; [|reflexivity]. exfalso.
  apply prefixb_iff in P. destruct P as (z & P).
  destruct A as [->|(a' & ->)]; [destruct x; [cbn in E; congruence | discriminate]|].
  (* y ends with a line feed *)
  assert (Z : exists y', y = y' ++ [10%N]).
  { destruct (exists_last Y) as (y' & c & ->). exists y'. rewrite app_assoc in E. apply app_inj_tail in E. destruct E as (_ & E). rewrite <- E. reflexivity. }
  destruct Z as (y' & ->). rewrite <- app_assoc in P. cbn [app] in P.
  assert (LE : length sep <= length y').
  { destruct (Nat.le_gt_cases (length sep) (length y')) as [X|X]; [exact X|]. exfalso. apply L.
    assert (G : nth_error (y' ++ 10%N :: sep ++ rest) (length y') = Some 10%N) by (rewrite nth_error_app2, Nat.sub_diag by lia; reflexivity).
    rewrite P, nth_error_app1 in G by exact X. apply nth_error_In in G. exact G. }
  apply O. exists x, (skipn (length sep) y' ++ [10%N]).
  assert (F : firstn (length sep) y' = sep).
  { assert (Q : firstn (length sep) (y' ++ 10%N :: sep ++ rest) = sep) by (rewrite P, firstn_app, firstn_all, Nat.sub_diag; cbn [firstn]; apply app_nil_r).
    rewrite firstn_app in Q. replace (length sep - length y') with 0 in Q by lia. cbn [firstn] in Q. rewrite app_nil_r in Q. exact Q. }
  rewrite E. f_equal. rewrite <- F at 1. rewrite app_assoc, firstn_skipn. reflexivity.
Qed.

(** An occurrence does not cross a character it does not contain. *)
Lemma occurs_cut sep c a b : ~ In c sep -> occurs sep (a ++ c :: b) -> occurs sep a \/ occurs sep b.
Proof.
  intros N (x & y & E). destruct (Nat.le_gt_cases (length x + length sep) (length a)) as [L|L].
  - left. exists x, (skipn (length x + length sep) a).
    assert (F : firstn (length x + length sep) (a ++ c :: b) = x ++ sep).
    { rewrite E, app_assoc, <- app_length, firstn_app, firstn_all, Nat.sub_diag. cbn [firstn]. apply app_nil_r. }
    rewrite firstn_app in F. replace (length x + length sep - length a) with 0 in F by lia. cbn [firstn] in F. rewrite app_nil_r in F.
    rewrite <- (firstn_skipn (length x + length sep) a) at 1. rewrite F, <- app_assoc. reflexivity.
  - destruct (Nat.le_gt_cases (length x) (length a)) as [L2|L2].
    + exfalso. apply N. assert (G : nth_error (a ++ c :: b) (length a) = Some c) by (rewrite nth_error_app2, Nat.sub_diag by lia; reflexivity).
      rewrite E, nth_error_app2, nth_error_app1 in G by lia. apply nth_error_In in G. exact G.
    + right. exists (skipn (S (length a)) x), y.
      assert (F : skipn (S (length a)) (a ++ c :: b) = b).
      { rewrite skipn_app. replace (S (length a) - length a) with 1 by lia. rewrite skipn_all2 by lia. reflexivity. }
      rewrite E, skipn_app in F. replace (S (length a) - length x) with 0 in F by lia. symmetry. exact F.
Qed.

Lemma boundary_safe b : good_boundary b -> forall c, In c (u "--" ++ b) -> boundary_char c = true.
Proof.
  intros (_ & H) c. rewrite in_app_iff. rewrite forallb_forall in H. intros [X|X]; [|exact (H c X)].
  cbn in X. destruct X as [<-|[<-|[]]]; reflexivity.
Qed.
Lemma not_boundary b c : good_boundary b -> boundary_char c = false -> ~ In c (u "--" ++ b).
Proof. intros G F H. apply (boundary_safe b G) in H. congruence. Qed.

Definition body_part (name value : str) : str :=
  [13; 10]%N ++ u "Content-Disposition: form-data; name=" ++ [34%N] ++ name ++ [34%N] ++ [13; 10; 13; 10]%N ++ value ++ [13; 10]%N.
Lemma part_free b name value : good_boundary b -> ~ occurs (u "--" ++ b) name -> ~ occurs (u "--" ++ b) value -> ~ occurs (u "--" ++ b) (body_part name value).
Proof.
  intros G N V H. unfold body_part in H.
  assert (S : forall s c t, boundary_char c = false -> occurs (u "--" ++ b) (s ++ c :: t) -> occurs (u "--" ++ b) s \/ occurs (u "--" ++ b) t).
  { intros s c t F. apply occurs_cut. apply (not_boundary b c G F). }
  assert (E : ~ occurs (u "--" ++ b) []).
  { intros (x & y & X). destruct x; discriminate. }
  assert (D : forall s, containsb (u "--") s = false -> ~ occurs (u "--" ++ b) s).
  { intros s F (x & y & X). assert (containsb (u "--") s = true); [|congruence]. apply containsb_iff. exists x, (b ++ y). rewrite X, <- app_assoc. reflexivity. }
  set (cd := u "Content-Disposition: form-data; name=") in *.
  change ([13; 10]%N ++ cd ++ [34%N] ++ name ++ [34%N] ++ [13; 10; 13; 10]%N ++ value ++ [13; 10]%N)
    with ([] ++ 13%N :: 10%N :: cd ++ 34%N :: name ++ 34%N :: 13%N :: 10%N :: 13%N :: 10%N :: value ++ [13; 10]%N) in H.
  apply S in H; [|reflexivity]. destruct H as [H|H]; [exact (E H)|].
  apply (S []) in H; [|reflexivity]. destruct H as [H|H]; [exact (E H)|].
  apply S in H; [|reflexivity]. destruct H as [H|H]; [revert H; apply D; vm_compute; reflexivity|].
  apply S in H; [|reflexivity]. destruct H as [H|H]; [exact (N H)|].
  do 4 (apply (S []) in H; [|reflexivity]; destruct H as [H|H]; [exact (E H)|]).
  apply S in H; [|reflexivity]. destruct H as [H|H]; [exact (V H)|].
  apply (S []) in H; [|reflexivity]. destruct H as [H|H]; exact (E H).
Qed.

Lemma find_unique p s i : find p s = Some i -> forall x y, s = x ++ p ++ y -> i <= length x.
Proof.
  intros H x y E. destruct (find_some p s i H) as (_ & F & _). destruct (Nat.le_gt_cases i (length x)) as [L|L]; [exact L|]. exfalso.
  specialize (F _ L). rewrite E, skipn_app, skipn_all, Nat.sub_diag in F. cbn [app skipn] in F. rewrite prefixb_app in F. discriminate.
Qed.

Notation Q := (34%N).
Definition head_of (name : str) : str := [13; 10]%N ++ u "Content-Disposition: form-data; name=" ++ [Q] ++ name ++ [Q].
Lemma body_part_eq name value : body_part name value = head_of name ++ [13; 10; 13; 10]%N ++ value ++ [13; 10]%N.
Proof. unfold body_part, head_of. rewrite <- !app_assoc. reflexivity. Qed.

Lemma find_head name rest : ~ In 13%N name -> find [13; 10; 13; 10]%N (head_of name ++ [13; 10; 13; 10]%N ++ rest) = Some (length (head_of name)).
Proof.
  intros N. set (s := head_of name ++ [13; 10; 13; 10]%N ++ rest).
  destruct (find [13; 10; 13; 10]%N s) as [i|] eqn:F; [|exfalso; exact (find_none _ _ F (head_of name) rest eq_refl)].
  f_equal. assert (L := find_unique _ _ _ F (head_of name) rest eq_refl). destruct (find_some _ _ _ F) as (E & _ & _).
  destruct (Nat.le_gt_cases (length (head_of name)) i) as [L2|L2]; [lia|]. exfalso.
  (* a carriage return at i < length head: only position 0, and position 2 is not one *)
  assert (C0 : nth_error s i = Some 13%N).
  { rewrite E, nth_error_app2 by (rewrite firstn_length; lia). rewrite firstn_length.
    assert (i <= length s) by (unfold s; rewrite app_length; lia). replace (i - Nat.min i (length s)) with 0 by lia. reflexivity. }
  assert (C2 : nth_error s (i + 2) = Some 13%N).
  { rewrite E, nth_error_app2 by (rewrite firstn_length; lia). rewrite firstn_length.
    assert (i <= length s) by (unfold s; rewrite app_length; lia). replace (i + 2 - Nat.min i (length s)) with 2 by lia. reflexivity. }
  unfold s in C0. rewrite nth_error_app1 in C0 by exact L2. destruct i as [|[|i]].
  - unfold s, head_of in C2. cbn in C2. discriminate.
  - unfold head_of in C0. cbn in C0. discriminate.
  - unfold head_of in C0. cbn [app nth_error] in C0. apply nth_error_In in C0. rewrite !in_app_iff in C0.
    destruct C0 as [X|[X|X]]; [revert X; apply cmem_not_In; vm_compute; reflexivity | discriminate |]. apply in_app_iff in X. destruct X as [X|[X|[]]]; [exact (N X) | discriminate].
Qed.

Lemma names_cons field c s : names_field field (c :: s) =
  (prefixb (u "name=" ++ [Q] ++ field ++ [Q]) (c :: s) && match skipn (length (u "name=" ++ [Q] ++ field ++ [Q])) (c :: s) with [] => true | d :: r => N.eqb d 59 || N.eqb d 10 && seqb r [] end)
  || names_field field s.
Proof. reflexivity. Qed.
Lemma names_suffix field a s : names_field field s = true -> names_field field (a ++ s) = true.
Proof. intros H. induction a as [|c a IH]; [exact H|]. cbn [app]. rewrite names_cons, IH. apply orb_true_r. Qed.
Lemma names_self field : names_field field (head_of field) = true.
Proof.
  unfold head_of. change (u "Content-Disposition: form-data; name=") with (u "Content-Disposition: form-data; " ++ u "name=").
  rewrite <- app_assoc. rewrite app_assoc. apply names_suffix.
  set (p := u "name=" ++ [Q] ++ field ++ [Q]).
  assert (P : prefixb p p = true) by (rewrite <- (app_nil_r p) at 2; apply prefixb_app).
  assert (S : skipn (length p) p = []) by apply skipn_all.
  assert (E : forall s, names_field field s = (prefixb p s && match skipn (length p) s with [] => true | c :: r => N.eqb c 59 || N.eqb c 10 && seqb r [] end)
    || match s with [] => false | _ :: r => names_field field r end) by (intros []; reflexivity).
  rewrite E, P, S. reflexivity.
Qed.
Lemma names_tail field s : ~ In Q s -> names_field field s = false.
Proof.
  intros H. destruct (names_field field s) eqn:E; [|reflexivity]. apply names_occurs in E. destruct E as (x & y & ->). exfalso. apply H.
  rewrite !in_app_iff. right. left. right. left. left. reflexivity.
Qed.
Lemma names_other field name : ~ In Q name -> ~ In Q field -> name <> field -> names_field field (head_of name) = false.
Proof.
  intros N1 N2 NE. destruct (names_field field (head_of name)) eqn:E; [|reflexivity]. exfalso. apply names_occurs in E. destruct E as (x & y & E).
  (* the first quote of the pattern is one of the two quotes *)
  set (pre := [13; 10]%N ++ u "Content-Disposition: form-data; name=") in *.
  assert (H : pre ++ Q :: name ++ [Q] = (x ++ u "name=") ++ Q :: field ++ Q :: y).
  { assert (EH : head_of name = pre ++ Q :: name ++ [Q]) by (unfold head_of, pre; rewrite <- !app_assoc; reflexivity).
    rewrite <- EH, E, <- !app_assoc. reflexivity. }
  assert (NP : ~ In Q pre) by (apply cmem_not_In; vm_compute; reflexivity).
  assert (U : forall a b c d : str, ~ In Q a -> ~ In Q c -> a ++ Q :: b = c ++ Q :: d -> a = c /\ b = d).
  { induction a as [|z a IH]; intros b c d A C X.
    - destruct c as [|w c]; [injection X as ->; auto|]. injection X as <- _. destruct C. left. reflexivity.
    - destruct c as [|w c]; [injection X as -> _; destruct A; left; reflexivity|]. injection X as <- X.
      destruct (IH b c d) as (-> & ->); [intros Y; apply A; right; exact Y | intros Y; apply C; right; exact Y | exact X | auto]. }
  destruct (in_dec N.eq_dec Q (x ++ u "name=")) as [I|I].
  - (* the pattern starts at the last quote: no room *)
    apply in_split in I. destruct I as (l1 & l2 & I).
    assert (CNT : count_occ N.eq_dec (pre ++ Q :: name ++ [Q]) Q = 2).
    { rewrite count_occ_app. cbn [count_occ]. destruct (N.eq_dec Q Q); [|contradiction]. rewrite count_occ_app. cbn [count_occ].
      destruct (N.eq_dec Q Q); [|contradiction]. rewrite !(proj1 (count_occ_not_In N.eq_dec _ Q)); [reflexivity | exact N1 | exact NP]. }
    rewrite H, I, count_occ_app, count_occ_app in CNT. cbn [count_occ] in CNT. destruct (N.eq_dec Q Q); [|contradiction].
    rewrite count_occ_app in CNT. cbn [count_occ] in CNT. destruct (N.eq_dec Q Q); [|contradiction]. lia.
  - apply U in H; [|exact NP | exact I]. destruct H as (_ & H). apply U in H; [|exact N1 | exact N2]. destruct H as (H & _). congruence.
Qed.

Lemma strip_crlf t : (forall c, In c t -> c <> 13%N /\ c <> 10%N) -> strip_by is_crlf (t ++ [13; 10]%N) = t.
Proof.
  intros H. assert (F : forall c, In c t -> is_crlf c = false).
  { intros c Hc. destruct (H c Hc) as (A & B). unfold is_crlf. apply N.eqb_neq in A, B. rewrite A, B. reflexivity. }
  apply (strip_by_pad is_crlf [] t [13; 10]%N); [reflexivity | reflexivity | |].
  - destruct t as [|c t]; [exact I | apply F; left; reflexivity].
  - destruct (rev t) as [|c r] eqn:E; [exact I|]. apply F. apply in_rev. rewrite E. left. reflexivity.
Qed.

Lemma part_head e name : good_env e -> (forall c, In c name -> (c < 128)%N) -> decode_ignore e (head_of name) = head_of name.
Proof.
  intros (D & _) A. apply D. intros c. unfold head_of. rewrite !in_app_iff. intros [X|[X|[X|[X|X]]]].
  - cbn in X. destruct X as [<-|[<-|[]]]; lia.
  - revert c X. apply ascii_iff. vm_compute. reflexivity.
  - destruct X as [<-|[]]; lia.
  - exact (A c X).
  - destruct X as [<-|[]]; lia.
Qed.

Lemma body_split b fields : good_boundary b -> Forall (good_field b) fields -> forall rest,
  split_str (u "--" ++ b) (concat (map (fun f => field_part b (fst f) (snd f)) fields) ++ (u "--" ++ b) ++ rest) =
  [] :: map (fun f => body_part (fst f) (snd f)) fields ++ split_str (u "--" ++ b) rest.
Proof.
  intros G F rest. assert (NS : u "--" ++ b <> []) by discriminate.
  assert (L10 : ~ In 10%N (u "--" ++ b)) by (apply not_boundary; [exact G | reflexivity]).
  assert (FP : forall n v, field_part b n v = (u "--" ++ b) ++ body_part n v) by (intros n v; unfold field_part, body_part; rewrite <- !app_assoc; reflexivity).
  assert (PF : forall f, good_field b f -> ~ occurs (u "--" ++ b) (body_part (fst f) (snd f))) by (intros f (_ & A1 & A2); apply part_free; assumption).
  set (sep := u "--" ++ b) in *. clearbody sep. clear G.
  assert (K : forall fs rest, Forall (good_field b) fs -> fs <> [] ->
    split_str sep (concat (map (fun f => body_part (fst f) (snd f) ++ sep) fs) ++ rest) =
    map (fun f => body_part (fst f) (snd f)) fs ++ split_str sep rest).
  { induction fs as [|f fs IH]; intros r FF N; [congruence|]. inversion FF as [|? ? F1 F2]; subst. cbn [map concat].
    rewrite <- !app_assoc. rewrite split_line; [| exact NS | exact L10 | apply PF; exact F1 |].
    - cbn [app]. f_equal. destruct fs as [|f' fs]; [reflexivity|]. rewrite <- IH by (exact F2 || discriminate). reflexivity.
    - right. exists (head_of (fst f) ++ [13; 10; 13; 10]%N ++ snd f ++ [13%N]). rewrite body_part_eq, <- !app_assoc. reflexivity. }
  destruct fields as [|f fs].
  - cbn [map concat app]. apply (split_str_hit sep rest NS).
  - assert (E : concat (map (fun f => field_part b (fst f) (snd f)) (f :: fs)) ++ sep ++ rest =
      sep ++ (concat (map (fun f => body_part (fst f) (snd f) ++ sep) (f :: fs)) ++ rest)).
    { clear -FP. revert f. induction fs as [|g fs IH]; intros f.
      - cbn [map concat]. rewrite FP, !app_nil_r, <- !app_assoc. reflexivity.
      - change (concat (map (fun f0 => field_part b (fst f0) (snd f0)) (f :: g :: fs))) with (field_part b (fst f) (snd f) ++ concat (map (fun f0 => field_part b (fst f0) (snd f0)) (g :: fs))).
        rewrite <- app_assoc, IH, FP.
        change (concat (map (fun f0 => body_part (fst f0) (snd f0) ++ sep) (f :: g :: fs))) with ((body_part (fst f) (snd f) ++ sep) ++ concat (map (fun f0 => body_part (fst f0) (snd f0) ++ sep) (g :: fs))).
        rewrite <- !app_assoc. reflexivity. }
    rewrite E, split_str_hit by exact NS. cbn [app]. f_equal. apply K; [exact F | discriminate].
Qed.

Lemma part_field_found e ed field tok pre post :
  good_env e -> ~ In Q field -> (forall c, In c field -> (c < 128)%N /\ c <> 13%N) -> plain_text tok -> (forall c, In c tok -> c <> 13%N /\ c <> 10%N) ->
  (forall f, In f pre -> (forall c, In c (fst f) -> (c < 128)%N /\ c <> Q /\ c <> 13%N /\ c <> 10%N) /\ fst f <> field) ->
  ~ In 13%N ed ->
  part_field e field ed (map (fun f => body_part (fst f) (snd f)) pre ++ body_part field tok :: post) = Some tok.
Proof.
  intros G NQ FA TA TC P ED. assert (SK : forall n v, (seqb (body_part n v) [] || prefixb (u "--") (body_part n v) || seqb (body_part n v) ed) = false).
  { intros n v. unfold body_part. cbn [app]. destruct (seqb_spec (13%N :: 10%N :: u "Content-Disposition: form-data; name=" ++ Q :: n ++ Q :: 13%N :: 10%N :: 13%N :: 10%N :: v ++ [13; 10]%N) ed) as [X|X]; [|reflexivity].
    exfalso. apply ED. rewrite <- X. left. reflexivity. }
  induction pre as [|f pre IH].
  - cbn [map app part_field]. rewrite SK, body_part_eq, find_head by (intros X; apply FA in X; tauto).
    rewrite firstn_app, firstn_all, Nat.sub_diag. cbn [firstn]. rewrite app_nil_r, part_head by (exact G || (intros c Hc; apply FA; exact Hc)).
    rewrite names_self. f_equal. rewrite skipn_app, skipn_all2 by lia. replace (length (head_of field) + 4 - length (head_of field)) with 4 by lia.
    cbn [app skipn]. rewrite strip_crlf by exact TC. apply G. exact TA.
  - cbn [map app part_field]. destruct (P f (or_introl eq_refl)) as (P1 & P2).
    rewrite SK, body_part_eq, find_head by (intros X; apply P1 in X; tauto).
    rewrite firstn_app, firstn_all, Nat.sub_diag. cbn [firstn]. rewrite app_nil_r, part_head by (exact G || (intros c Hc; apply P1; exact Hc)).
    rewrite names_other; [|intros X; apply P1 in X; tauto | exact NQ | exact P2]. apply IH. intros g Hg. apply P. right. exact Hg.
Qed.

Lemma settled_tail m msgs : settled (m :: msgs) -> settled msgs.
Proof. intros S a b E. apply (S (m :: a) b). rewrite E. reflexivity. Qed.
Lemma read_settled max msgs : forall acc b, settled msgs -> read_body max acc msgs = Read b -> exists r, arrived msgs = Some r /\ b = acc ++ r.
Proof.
  induction msgs as [|m msgs IH]; intros acc b S H; [discriminate|]. destruct m as [x more|]; cbn [read_body arrived] in *.
  - destruct (_ && _); [discriminate|]. destruct more.
    + destruct (IH _ _ (settled_tail _ _ S) H) as (r & E & ->). rewrite E. exists (x ++ r). split; [reflexivity | rewrite app_assoc; reflexivity].
    + injection H as <-. exists x. auto.
  - exfalso. specialize (S [] msgs eq_refl). clear IH. induction msgs as [|m msgs IH]; [discriminate|].
    rewrite (S m (or_introl eq_refl)) in H. cbn [read_body] in H. apply IH; [intros m' Hm; apply S; right; exact Hm | exact H].
Qed.
Lemma read_complete max msgs : forall acc, arrived msgs <> None -> read_body max acc msgs <> NeverReads.
Proof.
  intros acc H. destruct (arrived msgs) as [b|] eqn:E; [|congruence]. destruct (read_arrived max msgs acc b E) as [->|(-> & _)]; discriminate.
Qed.

Lemma csrf_called e c order method req msgs src : ~ In method (s_safe c) -> settled msgs ->
  csrf e c order method req msgs = Called src ->
  exists t, dget (s_cookie c) (request_cookies order req) = Some t /\ authentic e (s_secret c) t /\ submits e c req msgs t /\ arrived src = arrived msgs.
Proof.
  intros M S H. unfold csrf in H. set (cookie := dget _ _) in *. apply smem_not_In in M. rewrite M in H.
  assert (V : forall t s, match tokens_match e (s_secret c) t cookie with Some true => Called s | Some false => Denied | None => Fails end = Called src ->
     s = src /\ exists x, t = Some x /\ cookie = Some x /\ authentic e (s_secret c) x).
  { intros t s X. destruct (tokens_match e (s_secret c) t cookie) as [[|]|] eqn:TM; try discriminate. split; [congruence|]. apply match_true. exact TM. }
  destruct (truthy (hget (s_header c) req)) eqn:T.
  - apply V in H. destruct H as (<- & x & E & C & A). exists x. split; [exact C|]. split; [exact A|]. split; [left; exact E | reflexivity].
  - assert (HN : hget (s_header c) req = None \/ hget (s_header c) req = Some []).
    { unfold truthy in T. destruct (hget (s_header c) req) as [[|]|]; auto. discriminate. }
    assert (NT : forall s, match tokens_match e (s_secret c) (hget (s_header c) req) cookie with Some true => Called s | Some false => Denied | None => Fails end <> Called src).
    { intros s. destruct HN as [-> | ->]; cbn [tokens_match]; discriminate. }
    destruct (is_form _); [|destruct (NT _ H)].
    destruct (read_body (s_max c) [] msgs) as [| |b] eqn:R; [discriminate | destruct (NT _ H) |].
    apply V in H. destruct H as (<- & x & E & C & A). destruct (read_settled _ _ _ _ S R) as (r & AR & ->). cbn [app] in *.
    exists x. split; [exact C|]. split; [exact A|]. split.
    + right. split; [exact HN|]. exists r. split; [exact AR|]. apply (extract_holds _ _ _ _ _ E).
    + rewrite AR. reflexivity.
Qed.

Lemma csrf_denied e c order method req msgs : good_env e -> ~ In method (s_safe c) -> settled msgs -> complete msgs ->
  (forall t, dget (s_cookie c) (request_cookies order req) = Some t -> ascii_text t) -> (forall t, submits e c req msgs t -> ascii_text t) ->
  csrf e c order method req msgs = Denied \/ exists src, csrf e c order method req msgs = Called src.
Proof.
  intros G M S CM AC AS. unfold csrf. set (cookie := dget _ _) in *. apply smem_not_In in M. rewrite M.
  assert (V : forall t s, (forall x, t = Some x -> ascii_text x) ->
     let r := match tokens_match e (s_secret c) t cookie with Some true => Called s | Some false => Denied | None => Fails end in r = Denied \/ exists src, r = Called src).
  { intros t s X r. assert (NN := match_ascii e (s_secret c) t cookie G X AC). unfold r. destruct (tokens_match e (s_secret c) t cookie) as [[|]|]; [right; eexists; reflexivity | left; reflexivity | congruence]. }
  destruct (truthy (hget (s_header c) req)) eqn:T.
  - apply V. intros x E. apply AS. left. exact E.
  - assert (HN : hget (s_header c) req = None \/ hget (s_header c) req = Some []).
    { unfold truthy in T. destruct (hget (s_header c) req) as [[|]|]; auto. discriminate. }
    assert (NT : forall x, hget (s_header c) req = Some x -> ascii_text x) by (intros x E; apply AS; left; exact E).
    destruct (is_form _); [|apply V; exact NT].
    destruct (read_body (s_max c) [] msgs) as [| |b] eqn:R; [destruct (read_complete _ _ _ CM R) | apply V; exact NT |].
    apply V. intros x E. destruct (read_settled _ _ _ _ S R) as (r & AR & ->). apply AS. right. split; [exact HN|]. exists r. split; [exact AR|]. apply (extract_holds _ _ _ _ _ E).
Qed.

(** ** Acceptance *)
Lemma csrf_header e c order method req msgs t : good_env e -> ~ In method (s_safe c) -> ascii_text t -> authentic e (s_secret c) t ->
  hget (s_header c) req = Some t -> dget (s_cookie c) (request_cookies order req) = Some t -> csrf e c order method req msgs = Called msgs.
Proof.
  intros G M A AU H C. unfold csrf. rewrite (proj2 (smem_not_In _ _) M), H, C.
  assert (truthy (Some t) = true) as ->.
  { destruct AU as (r & L & ->). destruct r; [discriminate | reflexivity]. }
  rewrite match_authentic by assumption. reflexivity.
Qed.
Lemma csrf_form e c order method req msgs t ct b : good_env e -> ~ In method (s_safe c) -> ascii_text t -> authentic e (s_secret c) t ->
  hget (s_header c) req = None -> dget (s_cookie c) (request_cookies order req) = Some t ->
  hget (u "content-type") req = Some ct -> is_form ct = true -> arrived msgs = Some b -> length b <= s_max c -> extract e b ct (s_field c) = Some t ->
  csrf e c order method req msgs = Called [MReq b false].
Proof.
  intros G M A AU H C CT F AR L X. unfold csrf. rewrite (proj2 (smem_not_In _ _) M), H, C, CT. cbn [truthy]. rewrite F.
  rewrite (read_small _ _ _ AR L), X, match_authentic by assumption. reflexivity.
Qed.

Lemma extract_url e field pre tok post : good_env e -> texts (pre ++ (field, tok) :: post) -> (forall p, In p pre -> fst p <> field) ->
  extract e (std_encode (pre ++ (field, tok) :: post)) (u "application/x-www-form-urlencoded") field = Some tok.
Proof.
  intros (D & _) T N. unfold extract. change (containsb urlencoded (lower (u "application/x-www-form-urlencoded"))) with true. cbn iota.
  rewrite D by (apply encoded_ascii; exact T). apply qs_encoded; assumption.
Qed.

Lemma boundary_facts b c : good_boundary b -> In c b -> (c < 128)%N /\ c <> 59%N /\ c <> 34%N /\ is_space c = false /\ c <> 47%N /\ c <> 13%N.
Proof.
  intros (_ & H) I. rewrite forallb_forall in H. specialize (H c I). unfold boundary_char in H. rewrite !orb_true_iff, !andb_true_iff, !N.leb_le, !N.eqb_eq in H.
  assert (c <= 122)%N by lia. split; [lia|]. split; [lia|]. split; [lia|]. split; [|split; lia].
  unfold is_space. repeat match goal with |- context [(?a =? ?x)%N] => destruct (N.eqb_spec a x); try lia end.
  all: repeat match goal with |- context [(?a <=? ?x)%N] => destruct (N.leb_spec a x); try lia end; try reflexivity.
Qed.
Lemma take_free c s : ~ In c s -> take_until c s = s.
Proof. induction s as [|x s IH]; intros H; [reflexivity|]. cbn [take_until]. destruct (N.eqb_spec x c) as [->|]; [destruct H; left; reflexivity|]. rewrite IH; [reflexivity | intros X; apply H; right; exact X]. Qed.
Lemma filter_ascii s : (forall c, In c s -> (c < 128)%N) -> encode_ignore s = s.
Proof. intros H. unfold encode_ignore. induction s as [|c s IH]; [reflexivity|]. cbn [filter]. rewrite (proj2 (N.ltb_lt c 128)) by (apply H; left; reflexivity). rewrite IH; [reflexivity | intros x Hx; apply H; right; exact Hx]. Qed.

Lemma extract_multi e b field pre tok post : good_env e -> good_boundary b -> lower b = b ->
  Forall (good_field b) (pre ++ [(field, tok)]) -> (forall f, In f pre -> fst f <> field) -> hex_text tok -> forall rest,
  rest = concat (map (fun f => field_part b (fst f) (snd f)) post) ++ u "--" ++ b ++ u "--" ++ [13; 10]%N ->
  extract e (concat (map (fun f => field_part b (fst f) (snd f)) (pre ++ [(field, tok)])) ++ rest) (u "multipart/form-data; boundary=" ++ b) field = Some tok.
Proof.
  intros G B LB F N T rest ER. unfold extract.
  assert (LC : lower (u "multipart/form-data; boundary=" ++ b) = u "multipart/form-data; boundary=" ++ b).
  { unfold lower. rewrite map_app. f_equal. exact LB. }
  rewrite LC.
  assert (containsb urlencoded (u "multipart/form-data; boundary=" ++ b) = false) as ->.
  { destruct (containsb urlencoded (u "multipart/form-data; boundary=" ++ b)) eqn:X; [|reflexivity]. exfalso.
    apply containsb_iff in X. change (u "multipart/form-data; boundary=" ++ b) with (u "multipart/form-data" ++ 59%N :: (u " boundary=" ++ b)) in X.
    apply (occurs_cut urlencoded 59) in X; [|apply cmem_not_In; vm_compute; reflexivity]. destruct X as [X|X].
    - destruct X as (x & y & X). assert (containsb urlencoded (u "multipart/form-data") = true) by (apply containsb_iff; exists x, y; exact X). vm_compute in H. discriminate.
    - destruct X as (x & y & X). assert (I : In 47%N (u " boundary=" ++ b)).
      { rewrite X, !in_app_iff. right; left. apply cmem_In. vm_compute. reflexivity. }
      apply in_app_iff in I. destruct I as [I|I]; [revert I; apply cmem_not_In; vm_compute; reflexivity|]. apply (boundary_facts b 47 B) in I. tauto. }
  assert (containsb multipart (u "multipart/form-data; boundary=" ++ b) = true) as ->.
  { apply containsb_iff. exists [], (u "; boundary=" ++ b). reflexivity. }
  assert (NB : b <> []) by apply B.
  assert (search_boundary (u "multipart/form-data; boundary=" ++ b) = Some b) as ->.
  { assert (E : search_boundary (u "multipart/form-data; boundary=" ++ b) = match take_until 59 b with [] => search_boundary (u "oundary=" ++ b) | g => Some g end) by reflexivity.
    rewrite E, take_free by (intros X; apply (boundary_facts b _ B) in X; tauto). destruct b; [congruence | reflexivity]. }
  assert (strip b = b) as ->.
  { apply solid_self, no_space_solid. intros c Hc. apply (boundary_facts b c B Hc). }
  assert (strip_by (N.eqb 34) b = b) as ->.
  { apply strip_by_id.
    - destruct b as [|c b']; [exact I|]. destruct (boundary_facts _ c B (or_introl eq_refl)) as (_ & _ & X & _). apply N.eqb_neq. congruence.
    - destruct (rev b) as [|c r] eqn:E; [exact I|]. assert (I1 : In c b) by (apply in_rev; rewrite E; left; reflexivity).
      destruct (boundary_facts _ c B I1) as (_ & _ & X & _). apply N.eqb_neq. congruence. }
  destruct b as [|b0 b'] eqn:EB; [congruence|]. rewrite <- EB in *.
  assert (AB : forall c, In c (u "--" ++ b) -> (c < 128)%N).
  { intros c. rewrite in_app_iff. intros [X|X]; [cbn in X; destruct X as [<-|[<-|[]]]; reflexivity | apply (boundary_facts b c B X)]. }
  rewrite (filter_ascii (u "--" ++ b)) by exact AB.
  assert (R : exists rest', rest = (u "--" ++ b) ++ rest').
  { rewrite ER. destruct post as [|f post]; cbn [map concat].
    - exists (u "--" ++ [13; 10]%N). rewrite <- app_assoc. reflexivity.
    - unfold field_part at 1. eexists. rewrite <- !app_assoc. reflexivity. }
  destruct R as (rest' & ->). rewrite body_split by (exact B || exact F). cbn [part_field]. change (seqb [] []) with true. cbn [orb].
  rewrite map_app. cbn [map fst snd]. rewrite <- app_assoc. cbn [app].
  apply Forall_app in F. destruct F as (F1 & F2). inversion F2 as [|? ? F3 _]; subst.
  assert (HX : forall c, In c tok -> (c < 128)%N /\ c <> 13%N /\ c <> 10%N).
  { intros c Hc. apply T in Hc. cbn in Hc. repeat (destruct Hc as [<-|Hc]; [lia|]). destruct Hc. }
  apply part_field_found; try assumption.
  - intros X. apply F3 in X. tauto.
  - intros c Hc. apply F3 in Hc. tauto.
  - intros c Hc. apply HX. exact Hc.
  - intros c Hc. apply HX. exact Hc.
  - intros f Hf. split; [|apply N; exact Hf]. rewrite Forall_forall in F1. apply (F1 f Hf).
  - intros X. unfold encode_ignore in X. apply filter_In in X. destruct X as (X & _). rewrite !in_app_iff in X.
    destruct X as [X|[X|X]]; [revert X; apply cmem_not_In; reflexivity | apply (boundary_facts _ _ B) in X; tauto | revert X; apply cmem_not_In; reflexivity].
Qed.
