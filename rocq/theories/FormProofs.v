(** Proofs about urlencoded forms. *)
From Verif Require Import PyStr PyStrFacts Utf8 RequestModel RequestSpec FormModel FormSpec.

(** The item of a piece. *)
Definition item (raw : str) : str * str :=
  (unquote_plus (unquote (utf8_dec (fst (partition_eq raw)))), unquote_plus (unquote (utf8_dec (snd (partition_eq raw))))).

Lemma text_dec s : text (utf8_dec s).
Proof. intros x. apply dec_scalar. Qed.
Lemma text_unquote_dec s : utf8_dec (utf8_enc (unquote (utf8_dec s))) = unquote (utf8_dec s).
Proof. apply dec_enc. apply unquote_scalar. apply text_dec. Qed.

Lemma fold_data_name b st name value items :
  st = (name, value, items) -> fold_left on_msg (data_callback FName b) st = (name ++ b, value, items).
Proof. intros ->. destruct b; cbn; rewrite ?app_nil_r; reflexivity. Qed.
Lemma fold_data_data b st name value items :
  st = (name, value, items) -> fold_left on_msg (data_callback FData b) st = (name, value ++ b, items).
Proof. intros ->. destruct b; cbn; rewrite ?app_nil_r; reflexivity. Qed.

Lemma flush_item raw st : snd (fold_left on_msg (flush_field raw) st) = snd st ++ [item raw].
Proof.
  unfold flush_field, item. destruct (partition_eq raw) as (k, v). cbn [fst snd].
  pose proof (text_unquote_dec k) as Ek. pose proof (text_unquote_dec v) as Ev.
  set (a := utf8_enc (unquote (utf8_dec k))) in *. set (b := utf8_enc (unquote (utf8_dec v))) in *. rewrite <- Ek, <- Ev.
  destruct st as ((n, w), items). cbn [fold_left]. rewrite !fold_left_app.
  rewrite (fold_data_name a _ [] [] items) by reflexivity.
  rewrite (fold_data_data b _ ([] ++ a) [] items) by reflexivity. reflexivity.
Qed.

(** The pieces closed by an "&", and what is left. *)
Fixpoint closed (seen rest : str) : list str * str :=
  match rest with
  | [] => ([], seen)
  | c :: r => if N.eqb c 38 then let '(ps, b) := closed [] r in (seen :: ps, b) else closed (seen ++ [c]) r
  end.

Lemma scan_closed rest : forall seen, scan seen rest = (concat (map flush_field (fst (closed seen rest))), snd (closed seen rest)).
Proof.
  induction rest as [|c r IH]; intros seen; [reflexivity|]. cbn [scan closed].
  destruct (N.eqb c 38); [|apply IH]. rewrite IH. destruct (closed [] r) as (ps, b). reflexivity.
Qed.

Lemma fold_flush ps : forall st, snd (fold_left on_msg (concat (map flush_field ps)) st) = snd st ++ map item ps.
Proof.
  induction ps as [|p ps IH]; intros st; cbn [map concat fold_left]; [rewrite app_nil_r; reflexivity|].
  rewrite fold_left_app, IH, flush_item, <- app_assoc. reflexivity.
Qed.

Lemma closed_app a : forall seen b,
  closed seen (a ++ b) = (fst (closed seen a) ++ fst (closed (snd (closed seen a)) b), snd (closed (snd (closed seen a)) b)).
Proof.
  induction a as [|c a IH]; intros seen b; cbn [app closed].
  - cbn [fst snd app]. destruct (closed seen b); reflexivity.
  - destruct (N.eqb c 38); [|apply IH]. rewrite IH. destruct (closed [] a) as (ps, x). cbn [fst snd]. reflexivity.
Qed.

Lemma closed_free a : forall seen, ~ In 38%N a -> closed seen a = ([], seen ++ a).
Proof.
  induction a as [|c a IH]; intros seen H; cbn [closed]; [rewrite app_nil_r; reflexivity|].
  destruct (N.eqb_spec c 38) as [->|]; [exfalso; apply H; left; reflexivity|].
  rewrite IH by (intros X; apply H; right; exact X). rewrite <- app_assoc. reflexivity.
Qed.

Lemma closed_rest_free a : forall seen, ~ In 38%N seen -> ~ In 38%N (snd (closed seen a)).
Proof.
  induction a as [|c a IH]; intros seen H; cbn [closed]; [exact H|].
  destruct (N.eqb_spec c 38).
  - destruct (closed [] a) as (ps, b) eqn:E. cbn [snd]. pose proof (IH [] (fun x => x)) as X. rewrite E in X. exact X.
  - apply IH. rewrite in_app_iff. intros [X|[X|[]]]; [exact (H X) | congruence].
Qed.

Lemma closed_split a : forall seen, ~ In 38%N seen ->
  split_char 38 (seen ++ a) = fst (closed seen a) ++ [snd (closed seen a)].
Proof.
  induction a as [|c a IH]; intros seen H; cbn [closed].
  - rewrite app_nil_r, split_char_free by exact H. reflexivity.
  - destruct (N.eqb_spec c 38) as [->|E].
    + rewrite split_char_app by exact H. destruct (closed [] a) as (ps, b) eqn:E'. cbn [fst snd app].
      f_equal. pose proof (IH [] (fun x => x)) as X. rewrite E' in X. exact X.
    + rewrite <- IH by (rewrite in_app_iff; intros [X|[X|[]]]; [exact (H X) | congruence]). rewrite <- app_assoc. reflexivity.
Qed.

Lemma drop_last_empty_app l x : drop_last_empty (l ++ [x]) = l ++ match x with [] => [] | _ => [x] end.
Proof.
  induction l as [|y l IH]; [destruct x; reflexivity|]. cbn [app].
  assert (l ++ [x] <> []) by (destruct l; discriminate).
  destruct (l ++ [x]) as [|z zs] eqn:E; [congruence|]. rewrite <- IH. destruct y; reflexivity.
Qed.

Lemma form_loop_nil buffer st chunks : form_loop buffer st ([] :: chunks) = form_loop buffer (fold_left on_msg (qs_finalize buffer) st) chunks.
Proof. reflexivity. Qed.
Lemma form_loop_cons buffer st c r chunks :
  form_loop buffer st ((c :: r) :: chunks) =
  form_loop (snd (closed [] (buffer ++ c :: r))) (fold_left on_msg (concat (map flush_field (fst (closed [] (buffer ++ c :: r))))) st) chunks.
Proof. cbn [form_loop qs_write]. rewrite scan_closed. reflexivity. Qed.

Lemma finalize_items buffer st : snd (fold_left on_msg (qs_finalize buffer) st) = snd st ++ map item (match buffer with [] => [] | _ => [buffer] end).
Proof.
  destruct buffer as [|c r]; cbn [qs_finalize map].
  - destruct st as ((n, v), i). cbn. rewrite app_nil_r. reflexivity.
  - rewrite fold_left_app. pose proof (flush_item (c :: r) st) as F.
    destruct (fold_left on_msg (flush_field (c :: r)) st) as ((n, v), i). exact F.
Qed.

Lemma form_loop_spec chunks : Forall nonempty chunks -> forall buffer st, ~ In 38%N buffer ->
  form_loop buffer st (chunks ++ [[]]) = snd st ++ map item (pieces (buffer ++ concat chunks)).
Proof.
  induction 1 as [|c chunks Hc Hs IH]; intros buffer st Hb.
  - cbn [app concat]. rewrite form_loop_nil, app_nil_r. unfold pieces. rewrite split_char_free by exact Hb.
    cbn [form_loop]. rewrite finalize_items. destruct buffer; reflexivity.
  - destruct c as [|x c]; [congruence|]. cbn [app concat]. rewrite form_loop_cons.
    rewrite IH by (apply closed_rest_free; intros []). rewrite fold_flush, <- app_assoc, <- map_app. f_equal. f_equal.
    unfold pieces. pose proof (closed_split (buffer ++ (x :: c) ++ concat chunks) [] (fun x => x)) as S. cbn [app] in S. rewrite S.
    rewrite drop_last_empty_app. change (buffer ++ x :: c ++ concat chunks) with (buffer ++ (x :: c) ++ concat chunks).
    rewrite app_assoc, (closed_app (buffer ++ x :: c) [] (concat chunks)). cbn [fst snd].
    set (k := closed [] (buffer ++ x :: c)).
    rewrite (closed_split (concat chunks) (snd k)) by (apply closed_rest_free; intros []).
    rewrite drop_last_empty_app, app_assoc. reflexivity.
Qed.

Lemma form_parse_spec chunks : Forall nonempty chunks -> form_parse (chunks ++ [[]]) = map item (pieces (concat chunks)).
Proof. intros H. unfold form_parse. rewrite form_loop_spec by (exact H || (intros [])). reflexivity. Qed.

(** *** Through a request *)
Lemma stream_loop_shape n : forall st ys st', stream_loop n st = (ys, SEnd, st') -> exists zs, ys = zs ++ [[]] /\ Forall nonempty zs.
Proof.
  induction n as [|n IH]; intros st ys st'; cbn [stream_loop]; [discriminate|].
  destruct (req_receive st) as ([b more|], (q, c)); [|discriminate].
  destruct more.
  - destruct (stream_loop n (q, c)) as ((zs, e), st2) eqn:E. intros H.
    assert (e = SEnd) as -> by congruence. destruct (IH _ _ _ E) as (ws & -> & F).
    assert (ys = match b with [] => [] | _ => [b] end ++ ws ++ [[]]) as -> by congruence.
    exists (match b with [] => [] | _ => [b] end ++ ws). split; [apply app_assoc|].
    destruct b; [exact F | constructor; [discriminate | exact F]].
  - intros H. assert (ys = match b with [] => [] | _ => [b] end ++ [[]]) as -> by congruence.
    exists (match b with [] => [] | _ => [b] end). split; [reflexivity|]. destruct b; constructor; [discriminate | constructor].
Qed.

Lemma stream_form st ys st' : stream st = (ys, SEnd, st') -> form_parse ys = map item (pieces (concat ys)).
Proof.
  destruct st as (q, c). unfold stream. destruct (q_body q) as [b|].
  - intros H. assert (ys = [b; []]) as -> by congruence. cbn [concat]. destruct b as [|x b].
    + reflexivity.
    + rewrite !app_nil_r. pose proof (form_parse_spec [x :: b]) as F. cbn [concat app] in F. rewrite app_nil_r in F.
      apply F. constructor; [discriminate | constructor].
  - destruct (q_consumed q); [discriminate|]. intros H. destruct (stream_loop_shape _ _ _ _ H) as (zs & -> & F).
    rewrite form_parse_spec by exact F. rewrite concat_app. cbn [concat]. rewrite !app_nil_r. reflexivity.
Qed.

(** *** Items and pieces *)
Lemma partition_spec raw : name_value raw (fst (partition_eq raw)) (snd (partition_eq raw)).
Proof.
  induction raw as [|c r IH]; [split; [intros [] | right; split; reflexivity]|]. cbn [partition_eq].
  destruct (N.eqb_spec c 61) as [->|E]; [split; [intros [] | left; reflexivity]|].
  destruct (partition_eq r) as (k, v). cbn [fst snd] in *. destruct IH as (N1 & D).
  split; [intros [X|X]; [congruence | exact (N1 X)]|]. destruct D as [->|(-> & ->)]; [left | right; split]; reflexivity.
Qed.

Lemma name_value_unique raw k v : name_value raw k v -> partition_eq raw = (k, v).
Proof.
  intros (N1 & [->|(-> & ->)]).
  - induction k as [|c k IH]; [reflexivity|]. cbn [app partition_eq].
    destruct (N.eqb_spec c 61) as [->|]; [exfalso; apply N1; left; reflexivity|].
    rewrite IH by (intros X; apply N1; right; exact X). reflexivity.
  - induction k as [|c k IH]; [reflexivity|]. cbn [partition_eq].
    destruct (N.eqb_spec c 61) as [->|]; [exfalso; apply N1; left; reflexivity|].
    rewrite IH by (intros X; apply N1; right; exact X). reflexivity.
Qed.

Lemma item_name_value raw k v : name_value raw k v ->
  item raw = (unquote_plus (unquote (utf8_dec k)), unquote_plus (unquote (utf8_dec v))).
Proof. intros H. unfold item. rewrite (name_value_unique raw k v H). reflexivity. Qed.

Lemma item_ascii raw k v : ascii_str raw -> name_value raw k v -> item raw = (unquote_plus (std_decode k), unquote_plus (std_decode v)).
Proof.
  intros A H. rewrite (item_name_value raw k v H).
  assert (Ak : ascii_str k /\ ascii_str v).
  { destruct H as (_ & [->|(-> & ->)]); split; intros x Hx; try (apply A; try (apply in_app_iff; tauto); exact Hx); [|contradiction].
    apply A. apply in_app_iff. right. right. exact Hx. }
  destruct Ak as (A1 & A2). rewrite !dec_ascii by assumption. rewrite !unquote_plus_twice by assumption. reflexivity.
Qed.

(** *** The standard encoding *)
Lemma quote_plus_ascii_str s : text s -> ascii_str (quote_plus s).
Proof. intros H x Hx. apply (quote_plus_ascii s x H) in Hx. lia. Qed.
Lemma quote_plus_no s c : text s -> (c = 38 \/ c = 61)%N -> ~ In c (quote_plus s).
Proof. intros H E X. apply (quote_plus_ascii s c H) in X. lia. Qed.

Lemma pieces_encode pairs : texts pairs -> pieces (std_encode pairs) = map (fun p => quote_plus (fst p) ++ u "=" ++ quote_plus (snd p)) pairs.
Proof.
  intros T. unfold pieces, std_encode. destruct pairs as [|p pairs]; [reflexivity|].
  set (f := fun p => _). assert (NE : forall p, f p <> []) by (intros q X; apply app_eq_nil in X; destruct X as (_ & X); discriminate X).
  change (u "&") with [38%N]. rewrite split_char_join.
  - assert (G : forall l, (forall x, In x l -> x <> []) -> drop_last_empty l = l).
    { induction l as [|x l IH]; intros H; [reflexivity|]. assert (IH' := IH (fun y Hy => H y (or_intror Hy))).
      assert (x <> []) by (apply H; left; reflexivity). destruct x as [|c x]; [congruence|]. cbn [drop_last_empty]. rewrite IH'. reflexivity. }
    apply G. intros x Hx. apply in_map_iff in Hx. destruct Hx as (q & <- & _). apply NE.
  - discriminate.
  - intros w Hw. apply in_map_iff in Hw. destruct Hw as (q & <- & Hq). destruct (T q Hq) as (T1 & T2).
    unfold f. rewrite !in_app_iff. intros [X|[[X|[]]|X]]; [| discriminate X |];
      (apply quote_plus_no in X; [exact X | assumption | left; reflexivity]).
Qed.

Lemma item_encode p : text (fst p) -> text (snd p) ->
  item (quote_plus (fst p) ++ u "=" ++ quote_plus (snd p)) = (unquote_plus (fst p), unquote_plus (snd p)).
Proof.
  intros T1 T2. rewrite (item_ascii _ (quote_plus (fst p)) (quote_plus (snd p))).
  - pose proof (unquote_plus_quote_plus _ T1) as U1. pose proof (unquote_plus_quote_plus _ T2) as U2.
    unfold unquote_plus in U1, U2. rewrite unquote_ascii in U1, U2 by (apply plus_to_space_ascii, quote_plus_ascii_str; assumption).
    unfold std_decode. rewrite U1, U2. reflexivity.
  - intros x. rewrite !in_app_iff. intros [X|[[<-|[]]|X]]; [exact (quote_plus_ascii_str _ T1 x X) | reflexivity | exact (quote_plus_ascii_str _ T2 x X)].
  - split; [apply quote_plus_no; [exact T1 | right; reflexivity]|]. left. reflexivity.
Qed.

Lemma unquote_plus_plain s : ~ In 43%N s -> ~ In 37%N s -> unquote_plus s = s.
Proof.
  intros P Q. unfold unquote_plus. assert (plus_to_space s = s) as ->; [|apply unquote_plain; exact Q].
  clear Q. induction s as [|c s IH]; [reflexivity|]. unfold plus_to_space in *. cbn [map].
  destruct (N.eqb_spec c 43) as [->|]; [exfalso; apply P; left; reflexivity|].
  rewrite IH by (intros X; apply P; right; exact X). reflexivity.
Qed.
