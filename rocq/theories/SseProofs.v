From Coq Require Import ZifyBool ZifyNat ZifyN.
From Verif Require Import PyStr PyStrFacts SseModel SseSpec.

(** ** Lines *)
Lemma es_lines_lf l : forall w s, single_line l -> es_lines w (l ++ 10%N :: s) = (w ++ l) :: es_lines [] s.
Proof.
  induction l as [|c l IH]; intros w s [H1 H2]; cbn [app es_lines].
  - rewrite app_nil_r. reflexivity.
  - destruct (N.eqb_spec c 10) as [->|]; [exfalso; apply H1; now left|].
    destruct (N.eqb_spec c 13) as [->|]; [exfalso; apply H2; now left|].
    rewrite IH; [now rewrite <- app_assoc|].
    split; intros H; [apply H1|apply H2]; now right.
Qed.

Lemma es_lines_all ls s : Forall single_line ls ->
  es_lines [] (concat (map (fun l => l ++ [10%N]) ls) ++ s) = ls ++ es_lines [] s.
Proof.
  induction 1 as [|l ls H _ IH]; [reflexivity|]. cbn [map concat]. rewrite <- !app_assoc.
  cbn [app]. rewrite es_lines_lf by assumption. cbn [app]. now rewrite IH.
Qed.

Lemma splitlines_no_break s : forall w, forallb (fun c => negb (is_linebreak c)) w = true ->
  Forall (fun l => forallb (fun c => negb (is_linebreak c)) l = true) (splitlines_aux w s).
Proof.
  remember (length s) as n eqn:Hn. revert s Hn.
  induction n as [n IH] using (well_founded_induction lt_wf). intros s -> w Hw.
  destruct s as [|c s']; cbn [splitlines_aux].
  - destruct w; constructor; [assumption|constructor].
  - destruct (is_linebreak c) eqn:Ec.
    + constructor; [assumption|]. destruct s' as [|d s'']; [constructor|].
      destruct ((c =? 13) && (d =? 10))%N; eapply IH; try reflexivity; cbn; lia.
    + eapply IH; [|reflexivity|]; [cbn; lia|].
      rewrite forallb_app, Hw. cbn. now rewrite Ec.
Qed.

Lemma no_break_single l : forallb (fun c => negb (is_linebreak c)) l = true -> single_line l.
Proof.
  rewrite forallb_forall. intros H; split; intros Hin; specialize (H _ Hin); discriminate H.
Qed.

Lemma single_app a b : single_line a -> single_line b -> single_line (a ++ b).
Proof. intros [A1 A2] [B1 B2]. split; rewrite in_app_iff; tauto. Qed.

Lemma dec_no n c : is_digit c = false -> ~ In c (dec n).
Proof. intros H Hin. pose proof (forallb_In is_digit _ _ (dec_digits n) Hin). congruence. Qed.
Lemma single_dec z : single_line (decz z).
Proof.
  split; intros H; destruct z as [|p|p]; cbn [decz] in H.
  1,4: revert H; now apply dec_no.
  1,3: revert H; now apply dec_no.
  all: destruct H as [H|H]; [discriminate H|]; revert H; now apply dec_no.
Qed.

(** ** Fields *)
Lemma es_line_field name v s : name <> [] -> ~ In 58%N name -> 
  es_line (name ++ u ": " ++ v) s = (es_field name v s, []).
Proof.
  intros Hn Hc. destruct name as [|c r]; [congruence|].
  change ((c :: r) ++ u ": " ++ v) with (c :: r ++ 58%N :: 32%N :: v).
  cbn [es_line]. destruct (N.eqb_spec c 58) as [->|]; [exfalso; apply Hc; now left|].
  change (c :: r ++ 58%N :: 32%N :: v) with ((c :: r) ++ 58%N :: 32%N :: v).
  rewrite split1_app by assumption. reflexivity.
Qed.

Lemma es_run_app a b s : es_run (a ++ b) s =
  let '(s1, e1) := es_run a s in let '(s2, e2) := es_run b s1 in (s2, e1 ++ e2).
Proof.
  revert s; induction a as [|l a IH]; intros s; cbn [app es_run].
  - destruct (es_run b s). reflexivity.
  - destruct (es_line l s) as [s1 e1]. rewrite IH.
    destruct (es_run a s1) as [s2 e2]. destruct (es_run b s2) as [s3 e3]. now rewrite app_assoc.
Qed.

Lemma es_run_one name v s : name <> [] -> ~ In 58%N name ->
  es_run [name ++ u ": " ++ v] s = (es_field name v s, []).
Proof. intros. cbn [es_run]. rewrite es_line_field by assumption. reflexivity. Qed.

Definition data_acc (d : option str) (ls : list str) : option str :=
  fold_left (fun d l => Some (match d with None => l | Some x => x ++ [10%N] ++ l end)) ls d.

Lemma es_run_data ls : forall s,
  es_run (map (fun l => u "data: " ++ l) ls) s =
  (mkES (data_acc (es_data s) ls) (es_type s) (es_id s) (es_retry s), []).
Proof.
  induction ls as [|l ls IH]; intros s; cbn [map es_run].
  - destruct s; reflexivity.
  - change (u "data: " ++ l) with (u "data" ++ u ": " ++ l).
    rewrite es_line_field by (try discriminate; vm_compute; intuition discriminate).
    rewrite IH. cbn [data_acc fold_left]. reflexivity.
Qed.

Lemma data_acc_join d ls : data_acc (Some d) ls = Some (join [10%N] (d :: ls)).
Proof.
  revert d; induction ls as [|l ls IH]; intros d; [reflexivity|].
  cbn [data_acc fold_left]. fold (data_acc (Some (d ++ [10%N] ++ l)) ls). rewrite IH. f_equal.
  cbn [join]. destruct ls; now rewrite <- ?app_assoc.
Qed.
Lemma data_acc_none ls : ls <> [] -> data_acc None ls = Some (join [10%N] ls).
Proof. destruct ls as [|l ls]; [congruence|]. intros _. cbn [data_acc fold_left]. apply data_acc_join. Qed.


Lemma es_run_nonempty name v s : name <> [] -> ~ In 58%N name ->
  es_run (nonempty_line name v) s = (match v with Some (c :: r) => es_field name (c :: r) s | _ => s end, []).
Proof.
  intros. destruct v as [[|c r]|]; cbn [nonempty_line es_run]; try reflexivity.
  rewrite es_line_field by assumption. reflexivity.
Qed.

Lemma es_run_field name v s : name <> [] -> ~ In 58%N name ->
  es_run (field_line name v) s = (match v with Some x => es_field name x s | None => s end, []).
Proof.
  intros. destruct v as [x|]; cbn [field_line es_run]; try reflexivity.
  rewrite es_line_field by assumption. reflexivity.
Qed.

Lemma all_digits_dec n : all_digits (dec n) = true.
Proof. unfold all_digits. pose proof (dec_nonnil n). destruct (dec n) eqn:E; [congruence|]. rewrite <- E. apply dec_digits. Qed.

Definition retry_step (r : option Z) (s : es_state) : es_state :=
  match r with Some z => mkES (es_data s) (es_type s) (es_id s) (Some (Z.to_N z)) | None => s end.

Lemma es_run_retry r s : (match r with Some z => (0 <= z)%Z | None => True end) ->
  es_run (match r with Some r => [u "retry: " ++ decz r] | None => [] end) s = (retry_step r s, []).
Proof.
  intros H. destruct r as [z|]; [|reflexivity].
  change (u "retry: " ++ decz z) with (u "retry" ++ u ": " ++ decz z).
  rewrite es_run_one by (try discriminate; vm_compute; intuition discriminate).
  destruct z as [|p|p]; [| |lia].
  - reflexivity.
  - cbn [decz retry_step Z.to_N]. unfold es_field.
    change (seqb (u "retry") (u "event")) with false. change (seqb (u "retry") (u "data")) with false.
    change (seqb (u "retry") (u "id")) with false. change (seqb (u "retry") (u "retry")) with true. cbv iota.
    now rewrite all_digits_dec, dec_val.
Qed.

Lemma Forall_nonempty name v : single_line name ->
  (forall x, v = Some x -> single_line x) -> Forall single_line (nonempty_line name v).
Proof.
  intros Hn Hv. destruct v as [[|c r]|]; cbn [nonempty_line]; constructor; [|constructor].
  apply single_app; [assumption|]. apply single_app; [vm_compute; intuition discriminate|]. now apply Hv.
Qed.
Lemma Forall_field name v : single_line name ->
  (forall x, v = Some x -> single_line x) -> Forall single_line (field_line name v).
Proof.
  intros Hn Hv. destruct v as [x|]; cbn [field_line]; constructor; [|constructor].
  apply single_app; [assumption|]. apply single_app; [vm_compute; intuition discriminate|]. now apply Hv.
Qed.

Lemma join_splitlines_lines d :
  match splitlines d with [] => [[]] | ls => ls end <> ([] : list str).
Proof. destruct (splitlines d); discriminate. Qed.

(** SSEMessage round trip. *)
Lemma field_event v s : es_field (u "event") v s = mkES (es_data s) v (es_id s) (es_retry s).
Proof. reflexivity. Qed.
Lemma field_id v s : ~ In 0%N v -> es_field (u "id") v s = mkES (es_data s) (es_type s) v (es_retry s).
Proof.
  intros H. apply cmem_not_In in H. unfold es_field.
  change (seqb (u "id") (u "event")) with false. change (seqb (u "id") (u "data")) with false.
  change (seqb (u "id") (u "id")) with true. cbv iota. now rewrite H.
Qed.

Lemma to_wire_parse m s :
  (forall x, sm_event m = Some x -> single_line x) ->
  (forall x, sm_id m = Some x -> single_line x /\ ~ In 0%N x) ->
  (forall z, sm_retry m = Some z -> (0 <= z)%Z) ->
  es_data s = None -> es_type s = [] ->
  let id' := match sm_id m with Some (c :: r) => c :: r | _ => es_id s end in
  let retry' := match sm_retry m with Some z => Some (Z.to_N z) | None => es_retry s end in
  es_parse (to_wire m) s =
  (mkES None [] id' retry',
   [mkEv (opt_text (sm_event m)) (join [10%N] (splitlines (sm_data m))) id']).
Proof.
  intros He Hi Hr Hd Ht id' retry'. unfold es_parse, to_wire.
  set (dl := match splitlines (sm_data m) with [] => [[]] | ls => ls end).
  rewrite es_lines_all.
  2:{ apply Forall_app; split; [apply Forall_nonempty; [vm_compute; intuition discriminate|exact He]|].
      apply Forall_app; split; [apply Forall_nonempty; [vm_compute; intuition discriminate|]|].
      { intros x Hx. now apply Hi. }
      apply Forall_app; split.
      { destruct (sm_retry m); constructor; [|constructor].
        apply single_app; [vm_compute; intuition discriminate|apply single_dec]. }
      apply Forall_forall. intros l Hl. apply in_map_iff in Hl as (x & <- & Hx).
      apply single_app; [vm_compute; intuition discriminate|].
      pose proof (splitlines_no_break (sm_data m) [] eq_refl) as Hf. rewrite Forall_forall in Hf.
      unfold dl, splitlines in Hx. destruct (splitlines_aux [] (sm_data m)) as [|y ys].
      - destruct Hx as [<-|[]]. split; intros [].
      - apply no_break_single, Hf, Hx. }
  change (es_lines [] [10%N]) with ([[]] : list str).
  rewrite !es_run_app.
  rewrite es_run_nonempty by (try discriminate; vm_compute; intuition discriminate). cbv beta iota. rewrite ?es_run_app.
  rewrite es_run_nonempty by (try discriminate; vm_compute; intuition discriminate). cbv beta iota. rewrite ?es_run_app.
  rewrite es_run_retry by (destruct (sm_retry m); auto). cbv beta iota. rewrite ?es_run_app.
  rewrite es_run_data. cbn [es_run app].
  set (s1 := match sm_event m with Some (c :: r) => es_field (u "event") (c :: r) s | _ => s end).
  set (s2 := match sm_id m with Some (c :: r) => es_field (u "id") (c :: r) s1 | _ => s1 end).
  set (s3 := retry_step (sm_retry m) s2).
  assert (s1 = mkES None (opt_text (sm_event m)) (es_id s) (es_retry s)) as E1.
  { unfold s1. destruct s as [d t i r]; cbn in Hd, Ht; subst d t.
    destruct (sm_event m) as [[|c x]|]; reflexivity. }
  assert (s2 = mkES None (opt_text (sm_event m)) id' (es_retry s)) as E2.
  { unfold s2, id'. rewrite E1. destruct (sm_id m) as [[|c x]|]; try reflexivity.
    rewrite field_id; [reflexivity|]. now apply (Hi (c :: x)). }
  assert (s3 = mkES None (opt_text (sm_event m)) id' retry') as E3.
  { unfold s3, retry'. rewrite E2. destruct (sm_retry m); reflexivity. }
  rewrite E3. cbn [es_data es_type es_id es_retry].
  rewrite data_acc_none by apply join_splitlines_lines.
  cbn [es_line es_data es_type es_id es_retry app].
  assert (join [10%N] dl = join [10%N] (splitlines (sm_data m))) as ->
    by (unfold dl; destruct (splitlines (sm_data m)); reflexivity).
  reflexivity.
Qed.

Lemma splitlines_id s : forallb (fun c => negb (is_linebreak c)) s = true -> s <> [] -> splitlines s = [s].
Proof.
  intros H Hne. unfold splitlines.
  assert (forall w, splitlines_aux w s = match w ++ s with [] => [] | _ => [w ++ s] end) as G.
  { clear Hne. revert H. induction s as [|c s IH]; intros H w; cbn [splitlines_aux].
    - now rewrite app_nil_r.
    - cbn in H. apply andb_true_iff in H as [Hc H]. apply negb_true_iff in Hc. rewrite Hc.
      rewrite IH by assumption. rewrite <- app_assoc. reflexivity. }
  rewrite G. cbn. destruct s; congruence.
Qed.

(** ** [_encode_event] *)

Lemma es_lines_sep sep l : is_sep sep -> single_line l -> forall w s,
  (sep = [13%N] -> match s with c :: _ => c <> 10%N | [] => True end) ->
  es_lines w (l ++ sep ++ s) = (w ++ l) :: es_lines [] s.
Proof.
  intros Hsep. induction l as [|c l IH]; intros [H1 H2] w s Hs; cbn [app].
  - rewrite app_nil_r. destruct Hsep as [->|[->| ->]]; cbn [app es_lines]; try reflexivity.
    change ((13 =? 10)%N) with false. change ((13 =? 13)%N) with true. cbv iota.
    destruct s as [|d s]; [reflexivity|]. specialize (Hs eq_refl).
    destruct (N.eqb_spec d 10); [contradiction|reflexivity].
  - cbn [es_lines]. destruct (N.eqb_spec c 10) as [->|]; [exfalso; apply H1; now left|].
    destruct (N.eqb_spec c 13) as [->|]; [exfalso; apply H2; now left|].
    rewrite IH; [now rewrite <- app_assoc|split; intros H; [apply H1|apply H2]; now right|assumption].
Qed.

Lemma es_lines_join sep ls : is_sep sep -> ls <> [] ->
  Forall (fun l => single_line l /\ l <> []) ls ->
  es_lines [] (join sep ls ++ sep ++ sep) = ls ++ [[]].
Proof.
  intros Hsep Hne Hf. induction Hf as [|l ls [Hs Hl] Hf IH]; [congruence|].
  cbn [join]. destruct ls as [|l' ls].
  - rewrite es_lines_sep; auto.
    + cbn [app]. f_equal. destruct Hsep as [->|[->| ->]]; reflexivity.
    + intros ->. discriminate.
  - rewrite <- !app_assoc. rewrite es_lines_sep; auto.
    + cbn [app]. f_equal. apply IH. discriminate.
    + intros ->. inversion Hf as [|? ? [[A B] C] _]; subst. cbn [join].
      destruct l' as [|c l'']; [congruence|].
      destruct ls; cbn; intros ->; apply A; now left.
Qed.

(** What the parser is left with and dispatches after one encoded event. *)
Lemma encode_parse sep retry e s : is_sep sep ->
  (forall x, ed_comment e = Some x -> single_line x) ->
  (forall x, ed_id e = Some x -> single_line x /\ ~ In 0%N x) ->
  (forall x, ed_event e = Some x -> single_line x) ->
  (forall x, ed_data e = Some x -> single_line x) ->
  (forall z, ed_retry e = Some (Some z) -> (0 <= z)%Z) -> (forall z, retry = Some z -> (0 <= z)%Z) ->
  es_data s = None -> es_type s = [] ->
  let id' := match ed_id e with Some x => x | None => es_id s end in
  let r' := match ed_retry e with
            | Some r => r
            | None => match retry with Some z => if Z.eqb z 0 then None else Some z | None => None end
            end in
  es_parse (encode_event sep retry e) s =
  (mkES None [] id' (match r' with Some z => Some (Z.to_N z) | None => es_retry s end),
   match ed_data e with Some d => [mkEv (opt_text (ed_event e)) d id'] | None => [] end).
Proof.
  intros Hsep Hc Hi He Hd Hr1 Hr2 Hsd Hst id' r'.
  unfold es_parse, encode_event.
  match goal with |- context [field_line (u "data") (ed_data e) ++ ?X] => set (rl := X) end.
  assert (rl = match r' with Some r => [u "retry: " ++ decz r] | None => [] end) as Erl.
  { unfold rl, r'. destruct (ed_retry e) as [[z|]|]; try reflexivity.
    destruct retry as [z|]; [|reflexivity]. destruct (Z.eqb z 0); reflexivity. }
  assert (forall z, r' = Some z -> (0 <= z)%Z) as Hr'.
  { unfold r'. intros z. destruct (ed_retry e) as [[z'|]|]; try discriminate.
    - intros [= ->]. auto.
    - destruct retry as [z'|]; [|discriminate]. destruct (Z.eqb z' 0); [discriminate|]. intros [= ->]. auto. }
  set (ls := field_line [] (ed_comment e) ++ field_line (u "id") (ed_id e) ++
             field_line (u "event") (ed_event e) ++ field_line (u "data") (ed_data e) ++ rl).
  assert (es_run ls s =
    (mkES (ed_data e) (opt_text (ed_event e)) id' (match r' with Some z => Some (Z.to_N z) | None => es_retry s end), [])) as Hrun.
  { unfold ls. rewrite !es_run_app.
    assert (es_run (field_line [] (ed_comment e)) s = (s, [])) as -> by (destruct (ed_comment e); reflexivity). cbv beta iota. rewrite ?es_run_app.
    rewrite es_run_field by (try discriminate; vm_compute; intuition discriminate). cbv beta iota. rewrite ?es_run_app.
    rewrite es_run_field by (try discriminate; vm_compute; intuition discriminate). cbv beta iota. rewrite ?es_run_app.
    rewrite es_run_field by (try discriminate; vm_compute; intuition discriminate). cbv beta iota. rewrite ?es_run_app.
    rewrite Erl, es_run_retry by (destruct r'; auto). cbn [app].
    f_equal. destruct s as [d t i r]; cbn in Hsd, Hst; subst d t.
    assert (match ed_id e with Some x => es_field (u "id") x (mkES None [] i r) | None => mkES None [] i r end
            = mkES None [] id' r) as ->.
    { unfold id'. destruct (ed_id e) as [x|] eqn:E; [|reflexivity]. rewrite field_id; [reflexivity|]. now apply (Hi x). }
    destruct (ed_event e); destruct (ed_data e); destruct r'; reflexivity. }
  destruct (list_eq_dec str_eq_dec ls []) as [E0|Hne].
  - (* no line at all *)
    rewrite E0 in *. cbn [es_run] in Hrun. injection Hrun as Hrun.
    pose proof (f_equal es_data Hrun) as R1. pose proof (f_equal es_id Hrun) as R2.
    pose proof (f_equal es_retry Hrun) as R3. cbn [es_data es_id es_retry] in R1, R2, R3.
    rewrite Hsd in R1. rewrite <- R1.
    cbn [join app]. rewrite <- R3. rewrite <- R2.
    assert (es_run (es_lines [] (sep ++ sep)) s = (mkES None [] (es_id s) (es_retry s), [])) as G.
    { destruct Hsep as [->|[->| ->]]; cbn; rewrite Hsd; reflexivity. }
    exact G.
  - rewrite es_lines_join; auto.
    + rewrite es_run_app, Hrun. cbn [es_run es_line es_data es_type es_id es_retry app].
      destruct (ed_data e); reflexivity.
    + assert (forall name v, single_line name -> (forall x, v = Some x -> single_line x) ->
        Forall (fun l => single_line l /\ l <> []) (field_line name v)) as G.
      { intros name v Hn Hv. pose proof (Forall_field name v Hn Hv) as F.
        destruct v; cbn [field_line] in *; constructor; [|constructor].
        inversion F; subst. split; [assumption|]. destruct name; discriminate. }
      assert (forall x, single_line x -> single_line x) as _ by auto.
      unfold ls. rewrite !Forall_app.
      split; [apply G; [split; intros []|assumption]|].
      split; [apply G; [vm_compute; intuition discriminate|intros x Hx; now apply Hi]|].
      split; [apply G; [vm_compute; intuition discriminate|assumption]|].
      split; [apply G; [vm_compute; intuition discriminate|assumption]|].
      rewrite Erl. destruct r'; constructor; [|constructor]. split; [|discriminate].
      apply single_app; [vm_compute; intuition discriminate|apply single_dec].
Qed.

(** Data whose only line boundaries are inner CR, LF or CRLF. *)
Definition plain_text (d : str) : Prop :=
  (forall c, In c d -> is_linebreak c = true -> c = 10%N \/ c = 13%N) /\
  (forall d', d <> d' ++ [10%N]) /\ (forall d', d <> d' ++ [13%N]).

Lemma plain_tl c s : plain_text (c :: s) -> plain_text s.
Proof.
  intros (A & B & C). split; [|split].
  - intros x Hx. apply A. now right.
  - intros d' ->. exact (B (c :: d') eq_refl).
  - intros d' ->. exact (C (c :: d') eq_refl).
Qed.
Lemma join_cons_ne (w : str) ls : ls <> [] -> join [10%N] (w :: ls) = w ++ 10%N :: join [10%N] ls.
Proof. destruct ls; [congruence|reflexivity]. Qed.
Lemma splitlines_aux_ne w s : s <> [] -> splitlines_aux w s <> [].
Proof.
  revert w; induction s as [|c s IH]; intros w H; [congruence|]. cbn [splitlines_aux].
  destruct (is_linebreak c); [discriminate|]. destruct s as [|d s].
  - cbn. destruct w; discriminate.
  - apply IH. discriminate.
Qed.

Lemma splitlines_aux_nl n : forall s w, length s <= n -> plain_text s ->
  join [10%N] (splitlines_aux w s) = w ++ nl_normal s.
Proof.
  induction n as [|n IH]; intros s w Hn Hp.
  - destruct s; [|cbn in Hn; lia]. cbn. rewrite app_nil_r. destruct w; reflexivity.
  - destruct s as [|c s].
    + cbn. rewrite app_nil_r. destruct w; reflexivity.
    + cbn [length] in Hn. cbn [splitlines_aux nl_normal].
      destruct (is_linebreak c) eqn:Ec.
      * destruct Hp as (A & B & C) eqn:EP. clear EP.
        destruct s as [|d s].
        { destruct (A c (or_introl eq_refl) Ec) as [-> | ->]; exfalso; [exact (B [] eq_refl)|exact (C [] eq_refl)]. }
        destruct (A c (or_introl eq_refl) Ec) as [-> | ->].
        -- change ((10 =? 13)%N) with false. cbn [andb]. rewrite join_cons_ne by (apply splitlines_aux_ne; discriminate).
           rewrite IH; [reflexivity|lia|]. eapply plain_tl. exact (conj A (conj B C)).
        -- change ((13 =? 13)%N) with true. cbn [andb].
           destruct (d =? 10)%N eqn:Ed.
           ++ apply N.eqb_eq in Ed; subst d. assert (s <> []) as Hs.
              { intros ->. exact (B [13%N] eq_refl). }
              rewrite join_cons_ne by (now apply splitlines_aux_ne).
              cbn [length] in Hn. rewrite IH; [reflexivity|lia|].
              eapply plain_tl, plain_tl. exact (conj A (conj B C)).
           ++ rewrite join_cons_ne by (apply splitlines_aux_ne; discriminate).
              rewrite IH; [reflexivity|lia|]. eapply plain_tl. exact (conj A (conj B C)).
      * assert ((c =? 13)%N = false) as ->.
        { unfold is_linebreak in Ec. lia. }
        rewrite IH; [|lia|eapply plain_tl; exact Hp]. rewrite <- app_assoc. reflexivity.
Qed.
Lemma splitlines_nl d : plain_text d -> join [10%N] (splitlines d) = nl_normal d.
Proof. intros H. exact (splitlines_aux_nl (length d) d [] (le_n _) H). Qed.
