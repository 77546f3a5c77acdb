(** C158-C160: the error page. *)
From Coq Require Import List NArith ZArith Bool Lia PeanoNat.
From Verif Require Import PyStr PyStrFacts PageModel PageSpec PageProofs.
Import ListNotations.

Lemma decz_safe z : safe (decz z).
Proof.
  assert (D : forall f n acc, safe acc -> safe (dec_aux f n acc)).
  { induction f as [|f IH]; intros n acc A; [exact A|]. cbn [dec_aux]. assert (B : safe ((48 + n mod 10)%N :: acc)).
    { destruct A as [A1 A2]. pose proof (N.mod_lt n 10 ltac:(lia)). split; intros [I|I]; try contradiction; lia. }
    destruct (n / 10)%N; [exact B|]. apply IH. exact B. }
  destruct z as [|p|p]; cbn [decz]; [apply D; split; intros []|apply D; split; intros []|].
  destruct (D (S (N.to_nat (N.log2 (N.pos p)))) (N.pos p) [] ltac:(split; intros [])) as [A B]. split; intros [I|I]; try discriminate; [exact (A I)|exact (B I)].
Qed.
Lemma dec_safe n : safe (dec n).
Proof. destruct n as [|p]; [exact (decz_safe 0)|exact (decz_safe (Z.pos p))]. Qed.

Fixpoint lines_ev (index : nat) (lines : list str) (lineno : N) (fi : nat) : list event :=
  match lines with
  | [] => []
  | l :: ls => line_events (Nat.eqb index fi) (replace (u " ") (u "&nbsp") (escape l)) (decz ((Z.of_N lineno - Z.of_nat fi) + Z.of_nat index)) ++ lines_ev (S index) ls lineno fi
  end.
Lemma lines_read lines no fi : forall index, events InText (format_lines index lines no fi) = lines_ev index lines no fi /\ final InText (format_lines index lines no fi) = InText.
Proof.
  induction lines as [|l ls IH]; intros index; [split; reflexivity|]. cbn [format_lines lines_ev].
  assert (K : events InText (format_line index l no fi) = line_events (Nat.eqb index fi) (replace (u " ") (u "&nbsp") (escape l)) (decz ((Z.of_N no - Z.of_nat fi) + Z.of_nat index)) /\
    final InText (format_line index l no fi) = InText).
  { apply format_line_events; [apply escape_line_safe|apply decz_safe]. }
  destruct K as [A B], (IH (S index)) as [C D]. rewrite events_app, final_app, A, B, C, D. split; reflexivity.
Qed.
Definition index_of (f : frame) : nat := match f_index f with Some i => i | None => 0 end.
Definition frame_ev (f : frame) (collapsed : bool) : list event :=
  frame_events (escape (f_file f)) (dec (f_line f)) (escape (f_name f)) (if collapsed then u "+" else u "&#8210;") (if collapsed then u "collapsed" else [])
    (lines_ev 0 (f_context f) (f_line f) (index_of f)).
Lemma frame_read f b : events InText (frame_html f b) = frame_ev f b /\ final InText (frame_html f b) = InText.
Proof.
  unfold frame_html, frame_ev. fold (index_of f). destruct (lines_read (f_context f) (f_line f) (index_of f) 0) as [A B]. rewrite <- A.
  apply format_frame_events; try apply escape_safe; try apply dec_safe; try exact B; destruct b; split; intros I; cbn in I; repeat (destruct I as [I|I]; [discriminate I|]); destruct I.
Qed.
Fixpoint frames_ev (fs : list frame) (b : bool) : list event := match fs with [] => [] | f :: fs' => frame_ev f b ++ frames_ev fs' true end.
Lemma frames_read fs : forall b, events InText (frames_html fs b) = frames_ev fs b /\ final InText (frames_html fs b) = InText.
Proof.
  induction fs as [|f fs IH]; intros b; [split; reflexivity|]. cbn [frames_html frames_ev]. destruct (frame_read f b) as [A B], (IH true) as [C D].
  rewrite events_app, final_app, A, B, C, D. split; reflexivity.
Qed.
Notation P := (lit page_template).
Definition before_error : list event := events InText (P 0) ++ events InText css ++ events InText (P 2).
Definition after_frames : list event := events InText (P 6) ++ events InText js ++ events InText (P 8).
Lemma page_read ty tx fs : events InText (page ty tx fs) =
  before_error ++ map Char (escape ty ++ u ": " ++ escape tx) ++ events InText (P 4) ++ frames_ev (rev fs) false ++ after_frames /\ final InText (page ty tx fs) = InText.
Proof.
  unfold page. rewrite format_pieces, page_pieces. pose proof (frames_read (rev fs) false) as [A B]. generalize dependent (frames_html (rev fs) false). intros H A B.
  assert (S : ~ In 60%N (escape ty ++ u ": " ++ escape tx)).
  { intros I. apply in_app_iff in I as [I|I]; [destruct (proj1 (escape_safe ty) I)|]. apply in_app_iff in I as [I|I]; [|destruct (proj1 (escape_safe tx) I)].
    cbn in I. repeat (destruct I as [I|I]; [discriminate I|]). destruct I. }
  generalize dependent (escape ty ++ u ": " ++ escape tx). intros E S.
  assert (X : flat_map (value [(u "styles", css); (u "js", js); (u "error", E); (u "exc_html", H)])
    [inl (P 0); inr (u "styles"); inl (P 2); inr (u "error"); inl (P 4); inr (u "exc_html"); inl (P 6); inr (u "js"); inl (P 8)] = P 0 ++ css ++ P 2 ++ E ++ P 4 ++ H ++ P 6 ++ js ++ P 8).
  { cbn [flat_map]. rewrite app_nil_r. reflexivity. }
  rewrite X. clear X.
  assert (T : forall i, In i [0; 2; 4; 6; 8] -> final InText (P i) = InText) by (intros i I; cbn in I; repeat (destruct I as [<-|I]; [vm_compute; reflexivity|]); destruct I).
  assert (TC : final InText css = InText) by (vm_compute; reflexivity). assert (TJ : final InText js = InText) by (vm_compute; reflexivity).
  split.
  - unfold before_error, after_frames. rewrite (final_text _ _ _ (T 0 ltac:(cbn; tauto))), (final_text _ _ _ TC), (final_text _ _ _ (T 2 ltac:(cbn; tauto))), (text_step E) by exact S.
    rewrite (final_text _ _ _ (T 4 ltac:(cbn; tauto))), (final_text _ _ _ B), A, (final_text _ _ _ (T 6 ltac:(cbn; tauto))), (final_text _ _ _ TJ). rewrite <- !app_assoc. reflexivity.
  - rewrite final_app, (T 0 ltac:(cbn; tauto)), final_app, TC, final_app, (T 2 ltac:(cbn; tauto)), final_app, (proj1 (hole_text E S)), final_app, (T 4 ltac:(cbn; tauto)),
      final_app, B, final_app, (T 6 ltac:(cbn; tauto)), final_app, TJ. apply T. cbn. tauto.
Qed.

Lemma final_fold p s : fold_left (fun p c => fst (read p c)) s p = final p s.
Proof. reflexivity. Qed.
(** * C158: data does not become markup *)
Definition same_shape (f g : frame) : Prop := length (f_context f) = length (f_context g) /\ f_index f = f_index g.
Lemma structure_app a b : structure (a ++ b) = structure a ++ structure b.
Proof. apply flat_map_app. Qed.
Lemma structure_chars d : structure (map Char d) = [].
Proof. induction d; [reflexivity|assumption]. Qed.
Lemma lines_structure ls : forall ls' i no no' fi, length ls = length ls' -> structure (lines_ev i ls no fi) = structure (lines_ev i ls' no' fi).
Proof.
  induction ls as [|l ls IH]; intros [|l' ls'] i no no' fi L; try discriminate; [reflexivity|]. cbn [lines_ev]. rewrite !structure_app, (IH ls' (S i) no no' fi) by (cbn in L; lia).
  f_equal. unfold line_events. rewrite !structure_app, !structure_chars. reflexivity.
Qed.
Lemma frame_structure f g b : same_shape f g -> structure (frame_ev f b) = structure (frame_ev g b).
Proof.
  intros [L I]. unfold frame_ev, frame_events, index_of. rewrite I, !structure_app, !structure_chars. rewrite (lines_structure _ (f_context g) 0 _ (f_line g) _ L). reflexivity.
Qed.
(** The tags and attributes of the page are the same whatever the exception says, the files and functions are called and
    the source contains; only the numbers of frames and lines matter.  The page ends outside of tags. *)
Theorem C158_markup : forall ty tx fs ty' tx' fs', Forall2 same_shape fs fs' ->
  structure (events InText (page ty tx fs)) = structure (events InText (page ty' tx' fs')) /\
  fold_left (fun p c => fst (read p c)) (page ty tx fs) InText = InText.
Proof.
  intros ty tx fs ty' tx' fs' H. destruct (page_read ty tx fs) as [E F], (page_read ty' tx' fs') as [E' _]. rewrite (final_fold InText (page ty tx fs)), F. refine (conj _ eq_refl). rewrite E, E'.
  rewrite !structure_app, !structure_chars. f_equal. f_equal. f_equal. f_equal.
  assert (H' : Forall2 same_shape (rev fs) (rev fs')).
  { clear -H. induction H as [|f g fs fs' S H IH]; [constructor|]. cbn [rev]. apply Forall2_app; [exact IH|constructor; [exact S|constructor]]. }
  clear -H'. generalize false. induction H' as [|f g l l' S H' IH]; intros b; [reflexivity|]. cbn [frames_ev]. rewrite !structure_app, (frame_structure f g b S), IH. reflexivity.
Qed.
Print Assumptions C158_markup.
Definition evil : frame := {| f_file := u "<script>""'&lt;"; f_line := 7; f_name := u "</b><img src=x onerror='1'>"; f_context := [u "a <b> ""c"""; u "&"]; f_index := Some 1 |}.
Definition blank : frame := {| f_file := []; f_line := 0; f_name := []; f_context := [[]; []]; f_index := Some 1 |}.
Example C158_case : Forall2 same_shape [evil] [blank] /\ structure (events InText (page (u "</h2>") (u "<script>") [evil])) = structure (events InText (page [] [] [blank])).
Proof. split; [repeat constructor|]. vm_compute. reflexivity. Qed.

(** * C159: what the page shows *)
Fixpoint after (cur : str) (es : list event) : list str * str :=
  match es with
  | [] => ([], cur)
  | Char c :: es' => after (cur ++ [c]) es'
  | Tag :: es' => (cur :: fst (after [] es'), snd (after [] es'))
  | _ :: es' => after cur es'
  end.
Lemma after_runs es : forall cur rest, runs cur (es ++ rest) = fst (after cur es) ++ runs (snd (after cur es)) rest.
Proof. induction es as [|e es IH]; intros cur rest; [reflexivity|]. destruct e; cbn [app runs after fst snd]; rewrite IH; reflexivity. Qed.
Lemma after_app a : forall cur b, after cur (a ++ b) = (fst (after cur a) ++ fst (after (snd (after cur a)) b), snd (after (snd (after cur a)) b)).
Proof.
  induction a as [|e a IH]; intros cur b; [cbn [app after fst snd]; apply surjective_pairing|].
  destruct e; cbn [app after fst snd]; rewrite ?IH; reflexivity.
Qed.
Lemma after_chars d cur : after cur (map Char d) = ([], cur ++ d).
Proof. revert cur. induction d as [|c d IH]; intros cur; cbn [map after]; [rewrite app_nil_r; reflexivity|]. rewrite IH, <- app_assoc. reflexivity. Qed.
Definition nl4 : str := 10%N :: u "    ".
Definition nl8 : str := 10%N :: u "        ".
Lemma after_shift es : forall cur, after cur es = match fst (after [] es) with [] => ([], cur ++ snd (after [] es)) | h :: t => ((cur ++ h) :: t, snd (after [] es)) end.
Proof.
  induction es as [|e es IH]; intros cur; [cbn; rewrite app_nil_r; reflexivity|]. destruct e; cbn [after fst snd].
  - rewrite (IH (cur ++ [c])), (IH ([] ++ [c])). destruct (fst (after [] es)); cbn [fst snd app]; rewrite <- app_assoc; reflexivity.
  - rewrite app_nil_r. reflexivity.
  - apply IH.
  - apply IH.
Qed.
(** What a constant part of the page does to the texts. *)
Lemma after_const es hs e : after [] es = (hs, e) -> forall cur, after cur es = match hs with [] => ([], cur ++ e) | h :: t => ((cur ++ h) :: t, e) end.
Proof. intros E cur. rewrite after_shift, E. reflexivity. Qed.

Lemma line_after c X Y cur : after cur (line_events c X Y) = ([cur ++ nl4; []; nl4; Y ++ u "."; u " " ++ X; []], nl4).
Proof.
  assert (A : exists a b d, line_events c X Y = a ++ map Char Y ++ b ++ map Char X ++ d /\ after [] a = ([nl4; []; nl4], []) /\ after [] b = ([u "."], u " ") /\ after [] d = ([[]; []], nl4)).
  { destruct c; [exists (events InText (lit center_template 0)), (events InText (lit center_template 2)), (events InText (lit center_template 4))
                |exists (events InText (lit line_template 0)), (events InText (lit line_template 2)), (events InText (lit line_template 4))];
      (split; [reflexivity|repeat split; vm_compute; reflexivity]). }
  destruct A as (a & b & d & -> & A & B & D). rewrite after_app, (after_const _ _ _ A). cbn [fst snd]. rewrite after_app, after_chars. cbn [fst snd app].
  rewrite after_app, (after_const _ _ _ B). cbn [fst snd]. rewrite after_app, after_chars. cbn [fst snd]. rewrite (after_const _ _ _ D). cbn [fst snd app]. rewrite !app_nil_r. reflexivity.
Qed.

(** The texts of the lines of a frame, with the number of the first: the number and the line; then what follows. *)
Fixpoint raw_lines (cur : str) (no : Z) (ls : list str) : list str * str :=
  match ls with
  | [] => ([], cur)
  | l :: ls' => let r := raw_lines nl4 (no + 1) ls' in
                ([cur ++ nl4; []; nl4; decz no ++ u "."; u " " ++ replace (u " ") (u "&nbsp") (escape l); []] ++ fst r, snd r)
  end.
Lemma lines_after ls no fi : forall i cur, after cur (lines_ev i ls no fi) = raw_lines cur ((Z.of_N no - Z.of_nat fi) + Z.of_nat i) ls.
Proof.
  induction ls as [|l ls IH]; intros i cur; [reflexivity|]. cbn [lines_ev raw_lines]. rewrite after_app, line_after. cbn [fst snd]. rewrite IH.
  replace (Z.of_N no - Z.of_nat fi + Z.of_nat (S i))%Z with (Z.of_N no - Z.of_nat fi + Z.of_nat i + 1)%Z by lia. reflexivity.
Qed.
Definition first_line (f : frame) : Z := (Z.of_N (f_line f) - Z.of_nat (index_of f))%Z.
Definition raw_frame (cur : str) (f : frame) (collapsed : bool) : list str :=
  let r := raw_lines [] (first_line f) (f_context f) in
  [cur ++ nl4; nl4; u "File "; escape (f_file f); u "," ++ nl8 ++ u "line "; dec (f_line f); u "," ++ nl8 ++ u "in "; escape (f_name f); nl8;
   if collapsed then u "+" else u "&#8210;"; nl8; nl8] ++ fst r ++ [snd r; nl4].
Lemma frame_after f b cur : after cur (frame_ev f b) = (raw_frame cur f b, nl4).
Proof.
  unfold frame_ev, raw_frame, frame_events, first_line. cbv zeta. rewrite <- (Z.add_0_r (Z.of_N (f_line f) - _)). change 0%Z with (Z.of_nat 0). rewrite <- (lines_after (f_context f) (f_line f) (index_of f) 0 []).
  generalize (lines_ev 0 (f_context f) (f_line f) (index_of f)) as C. generalize (escape (f_file f)) as X. generalize (dec (f_line f)) as Y. generalize (escape (f_name f)) as Z.
  intros Z Y X C. set (btn := if b then u "+" else u "&#8210;"). set (col := if b then u "collapsed" else []).
  assert (F0 : after [] (events InText (lit frame_template 0)) = ([nl4; nl4; u "File "], [])) by (vm_compute; reflexivity).
  assert (F2 : after [] (events InText (lit frame_template 2)) = ([[]; u "," ++ nl8 ++ u "line "], [])) by (vm_compute; reflexivity).
  assert (F4 : after [] (events InText (lit frame_template 4)) = ([[]; u "," ++ nl8 ++ u "in "], [])) by (vm_compute; reflexivity).
  assert (F6 : after [] (events InText (lit frame_template 6)) = ([[]; nl8], [])) by (vm_compute; reflexivity).
  assert (F10 : after [] (rest_events (lit frame_template 10)) = ([], [])) by (vm_compute; reflexivity).
  assert (F12 : after [] (events InText (lit frame_template 12)) = ([[]; nl8; nl8], [])) by (vm_compute; reflexivity).
  assert (F16 : after [] (rest_events (lit frame_template 16)) = ([], [])) by (vm_compute; reflexivity).
  assert (F18 : after [] (rest_events (lit frame_template 18)) = ([], [])) by (vm_compute; reflexivity).
  assert (F20 : after [] (events InText (lit frame_template 20)) = ([[]; nl4], nl4)) by (vm_compute; reflexivity).
  assert (AT : forall n v c, after c [Attr n v] = ([], c)) by reflexivity.
  rewrite after_app, (after_const _ _ _ F0). cbn [fst snd]. rewrite after_app, after_chars. cbn [fst snd]. rewrite after_app, (after_const _ _ _ F2). cbn [fst snd].
  rewrite after_app, after_chars. cbn [fst snd]. rewrite after_app, (after_const _ _ _ F4). cbn [fst snd]. rewrite after_app, after_chars. cbn [fst snd].
  rewrite after_app, (after_const _ _ _ F6). cbn [fst snd]. rewrite after_app, AT. cbn [fst snd]. rewrite after_app, (after_const _ _ _ F10). cbn [fst snd]. rewrite after_app, after_chars. cbn [fst snd].
  rewrite after_app, (after_const _ _ _ F12). cbn [fst snd]. rewrite after_app, AT. cbn [fst snd]. rewrite after_app, (after_const _ _ _ F16). cbn [fst snd]. rewrite after_app, AT. cbn [fst snd].
  rewrite after_app, (after_const _ _ _ F18). cbn [fst snd app]. rewrite after_app, (after_const _ _ _ F20). cbn [fst snd app]. rewrite !app_nil_r. reflexivity.
Qed.
Fixpoint raw_frames (cur : str) (fs : list frame) (b : bool) : list str * str :=
  match fs with [] => ([], cur) | f :: fs' => let r := raw_frames nl4 fs' true in (raw_frame cur f b ++ fst r, snd r) end.
Lemma frames_after fs : forall cur b, after cur (frames_ev fs b) = raw_frames cur fs b.
Proof. induction fs as [|f fs IH]; intros cur b; [reflexivity|]. cbn [frames_ev raw_frames]. rewrite after_app, frame_after. cbn [fst snd]. rewrite IH. reflexivity. Qed.

Definition head_texts : list str := Eval vm_compute in fst (after [] before_error).
Definition between_texts : list str := Eval vm_compute in tl (fst (after [] (events InText (P 4)))).
Definition foot_texts : list str := Eval vm_compute in tl (runs [] after_frames).
Lemma page_texts ty tx fs : texts (page ty tx fs) =
  head_texts ++ [escape ty ++ u ": " ++ escape tx] ++ between_texts ++ fst (raw_frames [] (rev fs) false) ++ [snd (raw_frames [] (rev fs) false)] ++ foot_texts.
Proof.
  unfold texts. destruct (page_read ty tx fs) as [-> _].
  assert (B : after [] before_error = (head_texts, [])) by (vm_compute; reflexivity).
  assert (M : after [] (events InText (P 4)) = ([] :: between_texts, [])) by (vm_compute; reflexivity).
  assert (F : exists z, after_frames = Tag :: z /\ runs [] z = foot_texts).
  { eexists (tl after_frames). split; vm_compute; reflexivity. }
  destruct F as (z & -> & F).
  rewrite after_runs, B. cbn [fst snd]. rewrite after_runs, after_chars. cbn [fst snd app]. rewrite after_runs, (after_const _ _ _ M). cbn [fst snd].
  rewrite after_runs, frames_after. cbn [runs]. rewrite F, app_nil_r. reflexivity.
Qed.

(** What the reader sees: texts with the references resolved. *)
Fixpoint shown_lines (cur : str) (no : Z) (ls : list str) : list str * str :=
  match ls with
  | [] => ([], cur)
  | l :: ls' => let r := shown_lines nl4 (no + 1) ls' in ([cur ++ nl4; []; nl4; decz no ++ u "."; u " " ++ spaced l; []] ++ fst r, snd r)
  end.
Definition shown_frame (cur : str) (f : frame) (collapsed : bool) : list str :=
  let r := shown_lines [] (first_line f) (f_context f) in
  [cur ++ nl4; nl4; u "File "; f_file f; u "," ++ nl8 ++ u "line "; dec (f_line f); u "," ++ nl8 ++ u "in "; f_name f; nl8;
   if collapsed then u "+" else [8210%N]; nl8; nl8] ++ fst r ++ [snd r; nl4].
Fixpoint shown_frames (cur : str) (fs : list frame) (b : bool) : list str * str :=
  match fs with [] => ([], cur) | f :: fs' => let r := shown_frames nl4 fs' true in (shown_frame cur f b ++ fst r, snd r) end.

Lemma no_amp z : ~ In 38%N (decz z).
Proof.
  assert (D : forall f n acc, ~ In 38%N acc -> ~ In 38%N (dec_aux f n acc)).
  { induction f as [|f IH]; intros n acc A; [exact A|]. cbn [dec_aux]. assert (B : ~ In 38%N ((48 + n mod 10)%N :: acc)) by (intros [I|I]; [lia|contradiction]).
    destruct (n / 10)%N; [exact B|]. apply IH. exact B. }
  destruct z as [|p|p]; cbn [decz]; [apply D; intros []|apply D; intros []|]. intros [I|I]; [discriminate|]. exact (D _ _ [] (fun x => x) I).
Qed.
Lemma decode_id s : ~ In 38%N s -> decode s = s.
Proof. intros H. rewrite <- (app_nil_r s) at 1. rewrite (decode_app_plain s [] H). apply app_nil_r. Qed.
Definition plain_lines (f : frame) : Prop := forall l, In l (f_context f) -> forall a b, l <> a ++ u " ;" ++ b.
Lemma lines_shown ls : (forall l, In l ls -> forall a b, l <> a ++ u " ;" ++ b) -> forall cur no, ~ In 38%N cur ->
  (map decode (fst (raw_lines cur no ls)), decode (snd (raw_lines cur no ls))) = shown_lines cur no ls.
Proof.
  assert (N4 : ~ In 38%N nl4) by (intros I; cbn in I; repeat (destruct I as [I|I]; [discriminate I|]); destruct I).
  induction ls as [|l ls IH]; intros H cur no C; [cbn [raw_lines shown_lines fst snd map]; rewrite (decode_id cur C); reflexivity|].
  specialize (IH (fun l' I => H l' (or_intror I)) nl4 (no + 1)%Z N4). cbn [raw_lines shown_lines]. rewrite <- IH. cbn [fst snd map app].
  rewrite (decode_id (cur ++ nl4)) by (intros I; apply in_app_iff in I as [I|I]; contradiction).
  rewrite (decode_id (decz no ++ u ".")) by (intros I; apply in_app_iff in I as [I|[I|[]]]; [exact (no_amp no I)|discriminate]).
  change (u " " ++ replace (u " ") (u "&nbsp") (escape l)) with (32%N :: replace (u " ") (u "&nbsp") (escape l)). rewrite decode_plain by discriminate.
  rewrite escape_line_map, (decode_line l (H l (or_introl eq_refl))). reflexivity.
Qed.
Lemma dec_amp n : ~ In 38%N (dec n).
Proof. destruct n as [|p]; [exact (no_amp 0)|exact (no_amp (Z.pos p))]. Qed.
Lemma decode_escaped s : decode (escape s) = s.
Proof. pose proof (decode_escape s []) as E. rewrite app_nil_r in E. rewrite E. apply app_nil_r. Qed.
Lemma frame_shown f b cur : plain_lines f -> ~ In 38%N cur -> map decode (raw_frame cur f b) = shown_frame cur f b.
Proof.
  intros PL C. assert (N4 : ~ In 38%N nl4) by (intros I; cbn in I; repeat (destruct I as [I|I]; [discriminate I|]); destruct I).
  unfold raw_frame, shown_frame. cbv zeta. rewrite <- (lines_shown _ PL [] (first_line f)) by (intros []). cbn [fst snd]. rewrite !map_app. cbn [map].
  rewrite (decode_id (cur ++ nl4)) by (intros I; apply in_app_iff in I as [I|I]; contradiction). rewrite !decode_escaped, (decode_id (dec (f_line f)) (dec_amp _)).
  destruct b; reflexivity.
Qed.
Lemma frames_shown fs : Forall plain_lines fs -> forall cur b, ~ In 38%N cur ->
  (map decode (fst (raw_frames cur fs b)), decode (snd (raw_frames cur fs b))) = shown_frames cur fs b.
Proof.
  assert (N4 : ~ In 38%N nl4) by (intros I; cbn in I; repeat (destruct I as [I|I]; [discriminate I|]); destruct I).
  induction 1 as [|f fs PL F IH]; intros cur b C; [cbn [raw_frames shown_frames fst snd map]; rewrite (decode_id cur C); reflexivity|].
  cbn [raw_frames shown_frames]. rewrite <- (IH nl4 true N4). cbn [fst snd]. rewrite map_app, (frame_shown f b cur PL C). reflexivity.
Qed.

Definition C159_statement : Prop := exists head between foot, forall ty tx fs,
  map decode (texts (page ty tx fs)) =
  head ++ [ty ++ u ": " ++ tx] ++ between ++ fst (shown_frames [] (rev fs) false) ++ [snd (shown_frames [] (rev fs) false)] ++ foot.
(** The page shows the type and text of the exception, then for each frame, innermost first, the file, the line number, the
    function, and the lines of source with their numbers, all as they are, between texts that are always the same. *)
Theorem C159_shown_partial : exists head between foot, forall ty tx fs, Forall plain_lines fs ->
  map decode (texts (page ty tx fs)) =
  head ++ [ty ++ u ": " ++ tx] ++ between ++ fst (shown_frames [] (rev fs) false) ++ [snd (shown_frames [] (rev fs) false)] ++ foot.
Proof.
  exists (map decode head_texts), (map decode between_texts), (map decode foot_texts). intros ty tx fs H.
  rewrite page_texts, !map_app. rewrite <- (frames_shown (rev fs)) by (try (intros []); apply Forall_rev; exact H). cbn [fst snd map].
  rewrite decode_escape. change (u ": " ++ escape tx) with (58%N :: 32%N :: escape tx). rewrite !decode_plain, decode_escaped by discriminate. reflexivity.
Qed.
Print Assumptions C159_shown_partial.
Example C159_case : Forall plain_lines [evil] /\ shown_frames [] [evil] false <> shown_frames [] [blank] false.
Proof.
  split; [|vm_compute; discriminate]. apply Forall_cons; [|apply Forall_nil]. intros l I a b ->. cbn [f_context evil In] in I.
  assert (K : containsb (u " ;") (a ++ u " ;" ++ b) = true) by (apply containsb_iff; eauto). destruct I as [I|[I|[]]]; rewrite <- I in K; vm_compute in K; discriminate.
Qed.
(** The line of the frame is marked, and no other. *)
Lemma class_count fs : forall b, length (filter (fun e => match e with Attr n v => seqb n (u "class") && seqb v (u "center-line") | _ => false end) (frames_ev fs b)) =
  length (filter (fun f => index_of f <? length (f_context f)) fs).
Proof.
  set (q := fun e => match e with Attr n v => seqb n (u "class") && seqb v (u "center-line") | _ => false end).
  assert (Q : forall d, filter q (map Char d) = []) by (induction d; [reflexivity|assumption]).
  assert (L : forall ls no fi i, length (filter q (lines_ev i ls no fi)) = if (i <=? fi) && (fi <? i + length ls) then 1 else 0).
  { induction ls as [|l ls IH]; intros no fi i.
    - cbn [lines_ev filter length]. destruct (Nat.leb_spec i fi), (Nat.ltb_spec fi (i + 0)); cbn [andb]; lia.
    - cbn [lines_ev]. unfold line_events. rewrite !filter_app, !Q, !app_length, IH. cbn [length].
      destruct (Nat.eqb_spec i fi) as [->|D].
      + replace (length (filter q (events InText (lit center_template 0)))) with 1 by (vm_compute; reflexivity).
        replace (length (filter q (events InText (lit center_template 2)))) with 0 by (vm_compute; reflexivity).
        replace (length (filter q (events InText (lit center_template 4)))) with 0 by (vm_compute; reflexivity).
        destruct (Nat.leb_spec (S fi) fi), (Nat.leb_spec fi fi), (Nat.ltb_spec fi (fi + S (length ls))); cbn [andb]; lia.
      + replace (length (filter q (events InText (lit line_template 0)))) with 0 by (vm_compute; reflexivity).
        replace (length (filter q (events InText (lit line_template 2)))) with 0 by (vm_compute; reflexivity).
        replace (length (filter q (events InText (lit line_template 4)))) with 0 by (vm_compute; reflexivity).
        destruct (Nat.leb_spec (S i) fi), (Nat.leb_spec i fi), (Nat.ltb_spec fi (S i + length ls)), (Nat.ltb_spec fi (i + S (length ls))); cbn [andb]; lia. }
  induction fs as [|f fs IH]; intros b; [reflexivity|]. cbn [frames_ev]. rewrite filter_app, app_length, IH. unfold frame_ev, frame_events.
  rewrite !filter_app, !app_length, !Q, L.
  assert (C : forall i, In i [0; 2; 4; 6; 12; 20] -> length (filter q (events InText (lit frame_template i))) = 0) by (intros i I; cbn in I; repeat (destruct I as [<-|I]; [vm_compute; reflexivity|]); destruct I).
  assert (R : forall i, In i [10; 16; 18] -> length (filter q (rest_events (lit frame_template i))) = 0) by (intros i I; cbn in I; repeat (destruct I as [<-|I]; [vm_compute; reflexivity|]); destruct I).
  rewrite !C, !R by (cbn; tauto).
  assert (A1 : forall v, filter q [Attr (u "data-frame-id") v] = []) by (intros v; reflexivity).
  assert (A2 : forall v, filter q [Attr (u "id") v] = []) by (intros v; reflexivity).
  rewrite A1, A2.
  match goal with |- context [filter q [Attr (u "class") ?v]] => assert (A3 : filter q [Attr (u "class") v] = []) by (destruct b; vm_compute; reflexivity); rewrite A3 end. cbn [length filter Nat.leb andb Nat.add]. destruct (index_of f <? length (f_context f)); cbn [length]; reflexivity.
Qed.
Theorem C159_center : forall ty tx fs,
  length (filter (fun v => seqb v (u "center-line")) (attribute (u "class") (page ty tx fs))) = length (filter (fun f => index_of f <? length (f_context f)) fs).
Proof.
  intros ty tx fs. unfold attribute. destruct (page_read ty tx fs) as [-> _].
  set (q := fun e => match e with Attr n v => seqb n (u "class") && seqb v (u "center-line") | _ => false end).
  assert (E : forall es, length (filter (fun v => seqb v (u "center-line")) (flat_map (fun e => match e with Attr m v => if seqb m (u "class") then [v] else [] | _ => [] end) es)) = length (filter q es)).
  { induction es as [|e es IH]; [reflexivity|]. cbn [flat_map filter]. rewrite filter_app, app_length, IH. destruct e as [c| |c|n v]; try reflexivity. unfold q at 2.
    destruct (seqb n (u "class")); cbn [andb]; [|reflexivity]. cbn [filter]. destruct (seqb v (u "center-line")); reflexivity. }
  rewrite E, !filter_app, !app_length. assert (Q : forall d, filter q (map Char d) = []) by (induction d; [reflexivity|assumption]). rewrite Q.
  replace (length (filter q before_error)) with 0 by (vm_compute; reflexivity). replace (length (filter q (events InText (P 4)))) with 0 by (vm_compute; reflexivity).
  replace (length (filter q after_frames)) with 0 by (vm_compute; reflexivity). unfold q. rewrite class_count. cbn [length].
  rewrite Nat.add_0_r. cbn [Nat.add]. generalize (fun f => index_of f <? length (f_context f)). intros p. clear. induction fs as [|f fs IH]; [reflexivity|]. cbn [rev]. rewrite filter_app, app_length, IH. cbn [filter].
  destruct (p f); cbn [length]; lia.
Qed.
Print Assumptions C159_center.
(** A semicolon after a space is not shown: with the space it is taken for a reference. *)
Theorem C159_semicolon_refuted : ~ C159_statement.
Proof.
  intros (head & between & foot & H).
  pose proof (H [] [] [{| f_file := []; f_line := 1; f_name := []; f_context := [u "a ;"]; f_index := Some 0 |}]) as A.
  destruct C159_shown_partial as (h & m & z & G).
  pose proof (H [] [] []) as B. pose proof (G [] [] [] (Forall_nil _)) as C.
  set (len := @length str).
  assert (T : map decode (texts (page [] [] [{| f_file := []; f_line := 1; f_name := []; f_context := [u "a ;"]; f_index := Some 0 |}])) =
    map decode head_texts ++ [u ": "] ++ map decode between_texts ++ map decode (fst (raw_frames [] [{| f_file := []; f_line := 1; f_name := []; f_context := [u "a ;"]; f_index := Some 0 |}] false)) ++
      [decode nl4] ++ map decode foot_texts) by (rewrite page_texts, !map_app; reflexivity).
  rewrite T in A. clear T.
  assert (X : In (u " a" ++ [160%N; 59%N]) (map decode head_texts ++ [u ": "] ++ map decode between_texts ++
    map decode (fst (raw_frames [] [{| f_file := []; f_line := 1; f_name := []; f_context := [u "a ;"]; f_index := Some 0 |}] false)) ++ [decode nl4] ++ map decode foot_texts)).
  { rewrite A. rewrite !in_app_iff. right. right. right. left. vm_compute. do 16 right. left. reflexivity. }
  assert (Y : smem (u " a" ++ [160%N; 59%N]) (map decode head_texts ++ [u ": "] ++ map decode between_texts ++
    map decode (fst (raw_frames [] [{| f_file := []; f_line := 1; f_name := []; f_context := [u "a ;"]; f_index := Some 0 |}] false)) ++ [decode nl4] ++ map decode foot_texts) = false) by (vm_compute; reflexivity).
  apply smem_In in X. congruence.
Qed.
Print Assumptions C159_semicolon_refuted.

(** * C160: the buttons *)
Definition raw_id (f : frame) : str := escape (f_file f) ++ u "-" ++ dec (f_line f).
Lemma attribute_frames n fs : In n [u "id"; u "data-frame-id"] -> forall b,
  flat_map (fun e => match e with Attr m v => if seqb m n then [v] else [] | _ => [] end) (frames_ev fs b) = map raw_id fs.
Proof.
  intros N. set (q := fun e => match e with Attr m v => if seqb m n then [v] else [] | _ => [] end).
  assert (Q : forall d, flat_map q (map Char d) = []) by (induction d; [reflexivity|assumption]).
  assert (CI : forall t i, In t [line_template; center_template] -> In i [0; 2; 4] -> flat_map q (events InText (lit t i)) = []).
  { intros t i T I. cbn in T, I, N. destruct N as [<-|[<-|[]]]; destruct T as [<-|[<-|[]]]; repeat (destruct I as [<-|I]; [vm_compute; reflexivity|]); destruct I. }
  assert (L : forall ls no fi i, flat_map q (lines_ev i ls no fi) = []).
  { induction ls as [|l ls IH]; intros no fi i; [reflexivity|]. cbn [lines_ev]. unfold line_events. rewrite !flat_map_app, !Q, IH.
    destruct (i =? fi); rewrite !CI by (cbn; tauto); reflexivity. }
  assert (C : forall i, In i [0; 2; 4; 6; 12; 20] -> flat_map q (events InText (lit frame_template i)) = []).
  { intros i I. cbn in I, N. destruct N as [<-|[<-|[]]]; repeat (destruct I as [<-|I]; [vm_compute; reflexivity|]); destruct I. }
  assert (R : forall i, In i [10; 16; 18] -> flat_map q (rest_events (lit frame_template i)) = []).
  { intros i I. cbn in I, N. destruct N as [<-|[<-|[]]]; repeat (destruct I as [<-|I]; [vm_compute; reflexivity|]); destruct I. }
  induction fs as [|f fs IH]; intros b; [reflexivity|]. cbn [frames_ev map]. rewrite flat_map_app, IH. unfold frame_ev, frame_events. rewrite !flat_map_app, !Q, L.
  rewrite !C, !R by (cbn; tauto). fold (raw_id f).
  assert (A : flat_map q [Attr (u "data-frame-id") (raw_id f)] ++ flat_map q [Attr (u "id") (raw_id f)] = [raw_id f] /\ forall v, flat_map q [Attr (u "class") v] = []).
  { cbn in N. destruct N as [<-|[<-|[]]]; split; reflexivity. }
  destruct A as [A1 A2]. rewrite A2. cbn [app]. rewrite !app_nil_r. change (raw_id f :: map raw_id fs) with ([raw_id f] ++ map raw_id fs). rewrite <- A1. unfold raw_id. rewrite <- app_assoc. reflexivity.
Qed.
Lemma attribute_page n ty tx fs : In n [u "id"; u "data-frame-id"] -> attribute n (page ty tx fs) = map raw_id (rev fs).
Proof.
  intros N. unfold attribute. destruct (page_read ty tx fs) as [-> _]. set (q := fun e => match e with Attr m v => if seqb m n then [v] else [] | _ => [] end).
  assert (Q : forall d, flat_map q (map Char d) = []) by (induction d; [reflexivity|assumption]). rewrite !flat_map_app, Q. unfold q. rewrite (attribute_frames n (rev fs) N). fold q.
  assert (B : flat_map q before_error = [] /\ flat_map q (events InText (P 4)) = [] /\ flat_map q after_frames = []).
  { cbn in N. destruct N as [<-|[<-|[]]]; repeat split; vm_compute; reflexivity. }
  destruct B as (-> & -> & ->). cbn [app]. apply app_nil_r.
Qed.
(** The element that the script finds for an identifier: the first that has it. *)
Fixpoint first_with (x : str) (ids : list str) : option nat :=
  match ids with [] => None | i :: ids' => if seqb x i then Some 0 else option_map S (first_with x ids') end.
(** The [k]th button of the page and the [k]th list of lines belong to the same frame; the button must find that list. *)
Definition C160_statement : Prop := forall ty tx fs k, k < length fs ->
  exists raw, nth_error (attribute (u "data-frame-id") (page ty tx fs)) k = Some raw /\
    first_with (decode raw) (map decode (attribute (u "id") (page ty tx fs))) = Some k.
Lemma decode_id_of f : decode (raw_id f) = f_file f ++ u "-" ++ dec (f_line f).
Proof. unfold raw_id. rewrite decode_escape. f_equal. apply decode_id. intros I. apply in_app_iff in I as [[I|[]]|I]; [discriminate|exact (dec_amp _ I)]. Qed.
Lemma id_inj f g : f_file f ++ u "-" ++ dec (f_line f) = f_file g ++ u "-" ++ dec (f_line g) -> f_file f = f_file g /\ f_line f = f_line g.
Proof.
  assert (ND : forall n, ~ In 45%N (dec n)).
  { assert (D : forall fu n acc, ~ In 45%N acc -> ~ In 45%N (dec_aux fu n acc)).
    { induction fu as [|fu IH]; intros n acc A; [exact A|]. cbn [dec_aux]. assert (B : ~ In 45%N ((48 + n mod 10)%N :: acc)) by (intros [I|I]; [lia|contradiction]). destruct (n / 10)%N; [exact B|]. apply IH. exact B. }
    intros n. apply D. intros []. }
  intros E. assert (R : forall a b n m, ~ In 45%N n -> ~ In 45%N m -> a ++ u "-" ++ n = b ++ u "-" ++ m -> a = b /\ n = m).
  { clear. induction a as [|x a IH]; intros [|y b] n m A B E.
    - split; [reflexivity|]. cbn in E. congruence.
    - exfalso. change (45%N :: n = y :: b ++ 45%N :: m) in E. injection E as <- E. apply A. rewrite E. apply in_elt.
    - exfalso. change (x :: a ++ 45%N :: n = 45%N :: m) in E. injection E as -> E. apply B. rewrite <- E. apply in_elt.
    - change (x :: a ++ u "-" ++ n = y :: b ++ u "-" ++ m) in E. injection E as <- E. destruct (IH b n m A B E) as [-> ->]. split; reflexivity. }
  destruct (R _ _ _ _ (ND _) (ND _) E) as [A B]. split; [exact A|]. assert (X : int_parse (dec (f_line f)) = int_parse (dec (f_line g))) by congruence. rewrite !int_parse_dec0 in X. injection X. lia.
Qed.
Theorem C160_buttons_partial : forall ty tx fs k, k < length fs -> NoDup (map (fun f => (f_file f, f_line f)) fs) ->
  exists raw, nth_error (attribute (u "data-frame-id") (page ty tx fs)) k = Some raw /\
    first_with (decode raw) (map decode (attribute (u "id") (page ty tx fs))) = Some k.
Proof.
  intros ty tx fs k L ND. rewrite !attribute_page by (cbn; tauto).
  assert (ND' : NoDup (map (fun f => (f_file f, f_line f)) (rev fs))) by (rewrite map_rev; apply NoDup_rev; exact ND).
  assert (L' : k < length (rev fs)) by (rewrite rev_length; exact L). clear L ND. generalize dependent (rev fs). intros gs ND L.
  destruct (nth_error gs k) as [f|] eqn:E; [|apply nth_error_None in E; lia]. exists (raw_id f). split; [apply map_nth_error; exact E|].
  rewrite map_map. revert k E L. induction gs as [|g gs IH]; intros k E L; [cbn in L; lia|]. inversion ND as [|x xs NI ND']; subst. destruct k as [|k].
  - cbn in E. injection E as ->. cbn [map first_with]. rewrite seqb_refl. reflexivity.
  - cbn [nth_error] in E. cbn [map first_with length] in *. destruct (seqb_spec (decode (raw_id f)) (decode (raw_id g))) as [X|X].
    + exfalso. rewrite !decode_id_of in X. apply id_inj in X as [X1 X2]. apply NI. apply nth_error_In in E. apply in_map_iff. exists f. split; [congruence|exact E].
    + rewrite (IH ND' k E) by lia. reflexivity.
Qed.
Print Assumptions C160_buttons_partial.
Example C160_case : NoDup (map (fun f => (f_file f, f_line f)) [evil; blank]).
Proof. cbn [map]. constructor; [|constructor; [intros []|constructor]]. intros [I|[]]. vm_compute in I. discriminate I. Qed.
(** A function that calls itself from one place gives several frames with one identifier. *)
Theorem C160_recursion_refuted : ~ C160_statement.
Proof.
  intros H. destruct (H [] [] [evil; evil] 1 ltac:(cbn; lia)) as (raw & A & B). rewrite attribute_page in A by (cbn; tauto). rewrite attribute_page in B by (cbn; tauto).
  cbn [rev app map nth_error] in A. injection A as <-. cbn [rev app map first_with] in B. rewrite seqb_refl in B. discriminate B.
Qed.
Print Assumptions C160_recursion_refuted.
