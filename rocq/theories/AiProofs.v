(** Lemmas about the AI client. *)
From Coq Require Import QArith Lia.
From Verif Require Import PyStr PyStrFacts Utf8 JsonModel JsonSpec JsonProofs SseModel SseSpec SseProofs AiModel AiSpec.
Local Open Scope N_scope.

Lemma text_set_given o s : text_set o = Some s <-> given o s.
Proof.
  unfold given. destruct o as [[|c t]|]; cbn [text_set]; split.
  - discriminate.
  - intros [E NE]. injection E as E. now destruct NE.
  - intros E. injection E as <-. split; [reflexivity | discriminate].
  - intros [E _]. exact E.
  - discriminate.
  - intros [E _]. discriminate E.
Qed.
Lemma text_set_none o : text_set o = None <-> forall s, ~ given o s.
Proof.
  split.
  - intros E s G. apply text_set_given in G. congruence.
  - intros H. destruct (text_set o) as [s|] eqn:E; [|reflexivity]. apply text_set_given in E. destruct (H s E).
Qed.
Lemma nonempty_some {A} (l x : list A) : nonempty l = Some x <-> l <> [] /\ x = l.
Proof. destruct l; cbn; split; [discriminate | intros [H _]; congruence | intros [= <-]; split; [discriminate | reflexivity] | intros [_ ->]; reflexivity]. Qed.
Lemma get_set_if {A} k k' f (o : option A) d :
  dget k (set_if k' f o d) = if seqb k k' then match o with Some x => Some (f x) | None => dget k d end else dget k d.
Proof.
  unfold set_if. destruct o as [x|]; [|now destruct (seqb k k')]. destruct (seqb_spec k k') as [EQ|NE].
  - subst. apply dget_dset_same.
  - apply dget_dset_other. congruence.
Qed.
Lemma dget_over {V} k (e : dict V) : forall d, NoDup (map fst e) -> dget k (dupdate d e) = match dget k e with Some v => Some v | None => dget k d end.
Proof.
  unfold dupdate. induction e as [|[k' v] e IH]; intros d N; [reflexivity|]. inversion N as [|? ? NI N']; subst. cbn [fold_left fst snd]. rewrite IH by exact N'.
  cbn [dget]. destruct (seqb_spec k k') as [EQ|NE].
  - subst. rewrite (proj2 (dget_None_keys k' e) NI). apply dget_dset_same.
  - destruct (dget k e); [reflexivity|]. apply dget_dset_other. congruence.
Qed.

(** ** The event stream *)
Definition breaks_only (s : str) : Prop := forall c, In c s -> ~ odd_break c.
Definition line_end (c : N) : Prop := c = 10 \/ c = 13.
Lemma break_cases c : ~ odd_break c -> is_linebreak c = (c =? 10) || (c =? 13).
Proof.
  intros H. unfold odd_break in H. cbn [In] in H. unfold is_linebreak.
  destruct (N.eq_dec c 10) as [->|N1]; [reflexivity|]. destruct (N.eq_dec c 13) as [->|N2]; [reflexivity|].
  rewrite (proj2 (N.eqb_neq c 10) N1), (proj2 (N.eqb_neq c 13) N2). apply not_true_is_false. intros T. lia.
Qed.
Lemma lines_agree n : forall s w, (length s <= n)%nat -> breaks_only s -> (s = [] -> w = []) -> (s <> [] -> line_end (List.last s 0)) ->
  splitlines_aux w s = es_lines w s.
Proof.
  induction n as [|n IH]; intros s w L B E F; (destruct s as [|c s]; [rewrite (E eq_refl); reflexivity|]); cbn [length] in L; [lia|].
  cbn [splitlines_aux es_lines]. rewrite break_cases by (apply B; now left).
  assert (B' : breaks_only s) by (intros x I; apply B; now right).
  assert (F' : s <> [] -> line_end (List.last s 0)) by (intros NE; destruct s as [|d s]; [congruence | apply F; discriminate]).
  destruct (N.eqb_spec c 10) as [E10|N10]; [|destruct (N.eqb_spec c 13) as [E13|N13]]; cbn [orb].
  - subst c. destruct s as [|d s]; [reflexivity|]. cbn [andb]. change (10 =? 13) with false. cbn [andb]. f_equal. apply IH; auto; lia.
  - subst c. destruct s as [|d s]; [reflexivity|]. change (13 =? 13) with true. cbn [andb]. f_equal.
    destruct (N.eqb_spec d 10) as [D|D].
    + apply IH; auto.
      * cbn [length] in L. lia.
      * intros x I. apply B'. now right.
      * intros NE. destruct s as [|y s]; [congruence | apply F'; discriminate].
    + apply IH; auto; lia || congruence.
  - apply IH; auto; [lia|]. intros ->. exfalso. specialize (F ltac:(discriminate)). cbn in F. destruct F; congruence.
Qed.
Lemma join_snoc b (x : str) : b <> [] -> join [10] (b ++ [x]) = join [10] b ++ [10] ++ x.
Proof.
  induction b as [|y b IH]; [congruence|]. intros _. destruct b as [|z b]; [reflexivity|].
  change ((y :: z :: b) ++ [x]) with (y :: (z :: b) ++ [x]). rewrite (join_cons_ne y (z :: b)), (join_cons_ne y ((z :: b) ++ [x])) by discriminate. rewrite IH by discriminate. now rewrite <- app_assoc.
Qed.
(** A data line with at most one space after the colon. *)
Definition line_fine (l : str) : Prop :=
  l <> u "data" /\ forall v, l = u "data:" ++ v -> match drop_space v with c :: _ => is_space c = false | [] => True end.
Definition held (buffer : list str) : option str := match buffer with [] => None | _ => Some (join [10] buffer) end.
Lemma strip_one v : match drop_space v with c :: _ => is_space c = false | [] => True end -> lstrip_by is_space v = drop_space v.
Proof.
  intros H. destruct v as [|c v]; [reflexivity|]. cbn [drop_space] in *. destruct (N.eqb_spec c 32) as [E|E].
  - subst c. cbn [lstrip_by]. change (is_space 32) with true. apply lstrip_by_id, H.
  - apply lstrip_by_id, H.
Qed.
Lemma prefix_field l : prefixb (u "data:") l = true <-> exists v, split1 58 l = Some (u "data", v) /\ skipn 5 l = v.
Proof.
  rewrite prefixb_iff. split.
  - intros (v & ->). exists v. split; [|reflexivity]. apply (split1_app 58 (u "data") v). vm_compute. intuition discriminate.
  - intros (v & E & _). apply split1_some in E. destruct E as [-> _]. now exists v.
Qed.
Lemma run_agrees lines : forall buffer s, es_data s = held buffer -> Forall line_fine lines ->
  iter_sse buffer lines true = map ev_data (snd (es_run lines s)) ++ match es_data (fst (es_run lines s)) with Some d => [d] | None => [] end.
Proof.
  induction lines as [|l lines IH]; intros buffer s H F; cbn [iter_sse es_run].
  - cbn [fst snd map app]. rewrite H. now destruct buffer.
  - inversion F as [|? ? LF F']; subst. destruct (es_line l s) as [s1 e1] eqn:E. destruct (es_run lines s1) as [s2 e2] eqn:R.
    assert (GO : forall b, es_data s1 = held b -> iter_sse b lines true = map ev_data e2 ++ match es_data s2 with Some d => [d] | None => [] end).
    { intros b B. specialize (IH b s1 B F'). rewrite R in IH. exact IH. }
    cbn [fst snd]. rewrite map_app, <- app_assoc. destruct l as [|c l].
    + cbn [es_line] in E. rewrite H in E. destruct buffer as [|x b]; injection E as <- <-; cbn [map app]; rewrite <- (GO []) by reflexivity; reflexivity.
    + assert (K : es_data s1 = es_data s -> e1 = [] -> prefixb (u "data:") (c :: l) = false ->
        (if prefixb (u "data:") (c :: l) then iter_sse (buffer ++ [lstrip_by is_space (skipn 5 (c :: l))]) lines true else iter_sse buffer lines true) =
        map ev_data e1 ++ map ev_data e2 ++ match es_data s2 with Some d => [d] | None => [] end).
      { intros D N P. rewrite P, N. cbn [map app]. apply GO. now rewrite D. }
      unfold es_line in E. destruct (N.eqb_spec c 58) as [C|C].
      * injection E as <- <-. apply K; [reflexivity | reflexivity |]. subst c. reflexivity.
      * destruct (split1 58 (c :: l)) as [[name v]|] eqn:SP.
        -- injection E as <- <-. destruct (seqb_spec name (u "data")) as [EQ|NE].
           ++ subst name. assert (P : prefixb (u "data:") (c :: l) = true).
              { apply split1_some in SP. destruct SP as [-> _]. apply prefixb_iff. now exists v. }
              rewrite P. cbn [map app]. assert (V : c :: l = u "data:" ++ v) by (apply split1_some in SP; destruct SP as [-> _]; reflexivity).
              assert (SK : skipn 5 (c :: l) = v) by now rewrite V. rewrite SK, strip_one by (apply LF, V). apply GO.
              unfold es_field. change (seqb (u "data") (u "event")) with false. change (seqb (u "data") (u "data")) with true. cbn [es_data].
              rewrite H. destruct buffer as [|x b]; [reflexivity|]. unfold held. rewrite <- join_snoc by discriminate. reflexivity.
           ++ apply K; [|reflexivity|].
              ** unfold es_field. destruct (seqb name (u "event")); [reflexivity|]. destruct (seqb_spec name (u "data")); [congruence|].
                 destruct (seqb name (u "id")); [now destruct (cmem 0 (drop_space v))|]. destruct (seqb name (u "retry")); [|reflexivity]. now destruct (all_digits (drop_space v)).
              ** apply not_true_is_false. intros P. apply prefix_field in P. destruct P as (v' & P & _). congruence.
        -- injection E as <- <-. apply K; [|reflexivity|].
           ++ unfold es_field. destruct (seqb (c :: l) (u "event")); [reflexivity|]. destruct (seqb_spec (c :: l) (u "data")) as [D|D]; [destruct LF; congruence|].
              destruct (seqb (c :: l) (u "id")); [reflexivity|]. destruct (seqb (c :: l) (u "retry")); reflexivity.
           ++ apply not_true_is_false. intros P. apply prefix_field in P. destruct P as (v' & P & _). congruence.
Qed.

(** A text of one-line events. *)
Definition one_line (p : str) : Prop := (forall c, In c p -> is_linebreak c = false) /\ match p with c :: _ => is_space c = false | [] => False end.
Lemma splitlines_run w l rest : (forall c, In c l -> is_linebreak c = false) -> splitlines_aux w (l ++ 10 :: rest) = (w ++ l) :: splitlines_aux [] rest.
Proof.
  revert w. induction l as [|c l IH]; intros w H.
  - cbn [app splitlines_aux]. change (is_linebreak 10) with true. cbn [andb]. rewrite app_nil_r. destruct rest as [|d r]; [reflexivity|]. change (10 =? 13) with false. reflexivity.
  - cbn [app splitlines_aux]. rewrite (H c (or_introl eq_refl)). rewrite IH by (intros x I; apply H; now right). now rewrite <- app_assoc.
Qed.
Lemma iter_events payloads rest ended : Forall one_line payloads ->
  iter_sse [] (splitlines (sse_text payloads ++ rest)) ended = payloads ++ iter_sse [] (splitlines rest) ended.
Proof.
  induction payloads as [|p ps IH]; intros F; [reflexivity|]. inversion F as [|? ? [NB HD] F']; subst. cbn [sse_text flat_map]. fold (sse_text ps).
  assert (X : splitlines (((u "data: " ++ p ++ [10; 10]) ++ sse_text ps) ++ rest) = (u "data: " ++ p) :: [] :: splitlines (sse_text ps ++ rest)).
  { unfold splitlines. replace (((u "data: " ++ p ++ [10; 10]) ++ sse_text ps) ++ rest) with ((u "data: " ++ p) ++ 10 :: 10 :: (sse_text ps ++ rest)) by (rewrite <- !app_assoc; reflexivity).
    rewrite splitlines_run.
    - cbn [app]. f_equal. apply (splitlines_run [] [] (sse_text ps ++ rest)). intros c [].
    - intros c I. apply in_app_iff in I. destruct I as [I|I]; [|now apply NB]. vm_compute in I. repeat (destruct I as [<-|I]; [reflexivity|]). destruct I. }
  rewrite X. cbn [iter_sse]. change (u "data: " ++ p) with (100 :: 97 :: 116 :: 97 :: 58 :: 32 :: p).
  cbn [iter_sse]. change (prefixb (u "data:") (100 :: 97 :: 116 :: 97 :: 58 :: 32 :: p)) with true. cbv iota.
  cbn [app join skipn]. assert (ST : lstrip_by is_space (32 :: p) = p) by (cbn [lstrip_by]; change (is_space 32) with true; apply lstrip_by_id; destruct p; [contradiction | exact HD]).
  rewrite ST, IH by exact F'. reflexivity.
Qed.

(** ** JSON on one line *)
Lemma write_ascii v : writable v -> Forall (fun c => 32 <= c <= 126) (write true v).
Proof.
  set (good := fun c => 32 <= c <= 126).
  assert (LT : forall l, forallb (fun c => (32 <=? c) && (c <? 127)) l = true -> Forall good l).
  { intros l H. rewrite forallb_forall in H. apply Forall_forall. intros c I. specialize (H c I). unfold good. lia. }
  assert (DG : forall c, digit c -> good c) by (intros c D; unfold digit in D; unfold good; lia).
  assert (IG : forall i, int_part i -> Forall good i).
  { intros i [-> | (c & r & -> & C & F)]; [constructor; [unfold good; lia | constructor]|]. constructor; [unfold good; lia|]. rewrite Forall_forall in *. auto. }
  assert (HX : forall x, x < 16 -> good (hexlow x)) by (intros x L; unfold good, hexlow; destruct (N.ltb_spec x 10); lia).
  assert (UG : forall c, c < 65536 -> Forall good (u_escape c)).
  { intros c L. unfold u_escape. repeat (constructor; [first [apply HX; lia | unfold good; lia]|]). constructor. }
  assert (SG : forall s, Forall scalar s -> Forall good (write_string true s)).
  { intros s F. unfold write_string. constructor; [unfold good; lia|]. apply Forall_app. split; [|constructor; [unfold good; lia | constructor]].
    induction F as [|c s SC F IH]; [constructor|]. cbn [flat_map]. apply Forall_app. split; [|exact IH]. unfold write_char.
    destruct (short_escape c) as [e|] eqn:E.
    - constructor; [unfold good; lia|]. constructor; [|constructor]. unfold short_escape in E.
      repeat match type of E with context [if ?b then _ else _] => destruct b end; injection E as <- || discriminate E; unfold good; lia.
    - destruct (N.ltb_spec c 32) as [L|L]; [apply UG; lia|]. cbn [andb]. destruct (N.ltb_spec 126 c) as [H|H]; [|constructor; [unfold good; lia | constructor]].
      destruct (N.ltb_spec c 65536) as [H'|H']; [apply UG; lia|]. apply Forall_app. split; apply UG; unfold scalar in SC; lia. }
  assert (JG : forall ts, Forall (Forall good) ts -> Forall good (join (u ",") ts)).
  { intros ts F. induction F as [|t ts T F IH]; [constructor|]. destruct ts as [|t' ts]; [exact T|].
    change (join (u ",") (t :: t' :: ts)) with (t ++ u "," ++ join (u ",") (t' :: ts)). apply Forall_app. split; [exact T|]. apply Forall_app. split; [|exact IH].
    apply LT. reflexivity. }
  induction v as [|b|z|t|s|l IH|l IH] using jvalue_ind'; cbn [writable write].
  - intros _. apply LT. reflexivity.
  - intros _. destruct b; apply LT; reflexivity.
  - intros _. unfold decz. destruct z; [| |constructor; [unfold good; lia|]]; apply IG, dec_int.
  - intros (sign & i & f & e & -> & SI & P & F & E & _). repeat (apply Forall_app; split); [|apply IG, P| |].
    + cbn [In] in SI. destruct SI as [<-|[<-|[]]]; repeat constructor; unfold good; lia.
    + destruct F as [-> | (r & -> & _ & FD)]; [constructor|]. constructor; [unfold good; lia|]. rewrite Forall_forall in *. auto.
    + destruct E as [-> | (c & sg & r & -> & C & SGN & _ & FD)]; [constructor|]. cbn [In] in C, SGN. constructor; [unfold good; lia|].
      apply Forall_app. split; [destruct SGN as [<-|[<-|[<-|[]]]]; repeat constructor; unfold good; lia|]. rewrite Forall_forall in *. auto.
  - apply SG.
  - intros F. apply fold_and in F. apply Forall_app. split; [apply LT; reflexivity|]. apply Forall_app. split; [|apply LT; reflexivity].
    apply JG. rewrite Forall_forall in *. intros t I. apply in_map_iff in I. destruct I as (v & <- & I). apply IH; auto.
  - intros [_ F]. apply fold_and in F. apply Forall_app. split; [apply LT; reflexivity|]. apply Forall_app. split; [|apply LT; reflexivity].
    apply JG. rewrite Forall_forall in *. intros t I. apply in_map_iff in I. destruct I as (e & <- & I). apply Forall_app. split; [apply SG, F, I|].
    apply Forall_app. split; [apply LT; reflexivity|]. apply IH; [exact I | apply F, I].
Qed.
(** An object as a server may write it: with escapes for all but ASCII, or without odd breaks. *)
Lemma object_line a top : writable (JObj top) -> (a = true \/ forall c, In c (write a (JObj top)) -> ~ odd_break c) ->
  one_line (write a (JObj top)) /\ decode_json (write a (JObj top)) = Fine (JObj top) /\ write a (JObj top) <> u "[DONE]".
Proof.
  intros W A. assert (G : forall c, In c (write a (JObj top)) -> 32 <= c).
  { intros c I. destruct a.
    - pose proof (write_ascii _ W) as F. rewrite Forall_forall in F. apply F, I.
    - destruct (write_scalar _ W) as [_ F]. rewrite Forall_forall in F. apply F, I. }
  assert (B : forall c, In c (write a (JObj top)) -> is_linebreak c = false).
  { intros c I. pose proof (G c I) as L. destruct A as [-> | A].
    - pose proof (write_ascii _ W) as F. rewrite Forall_forall in F. specialize (F c I). cbv beta in F. unfold is_linebreak. apply not_true_is_false. intros T. lia.
    - rewrite break_cases by (apply A, I). apply not_true_is_false. intros T. lia. }
  assert (L : loads (write a (JObj top)) = Some (JObj top)).
  { apply loads_json. exists [], (write a (JObj top)), []. rewrite app_nil_r. exact (conj no_ws (conj no_ws (conj (write_denotes a _ W) eq_refl))). }
  split; [split; [exact B|]|split].
  - reflexivity.
  - unfold decode_json. now rewrite L.
  - cbn [write]. intros X. apply (f_equal (hd 0)) in X. vm_compute in X. discriminate X.
Qed.

(** ** Streams *)
Definition olist {A} (o : option A) : list A := match o with Some x => [x] | None => [] end.
Lemma consume_run done parse events outs rest ended :
  Forall2 (fun e o => (forall d, done = Some d -> e <> d) /\ bind (decode_json e) parse = Fine o) events outs ->
  consume done parse (events ++ rest) ended = (flat_map olist outs ++ fst (consume done parse rest ended), snd (consume done parse rest ended)).
Proof.
  induction 1 as [|e o es os [D P] F IH]; [cbn; now destruct (consume done parse rest ended)|]. cbn [app consume flat_map].
  assert (X : match done with Some d => seqb e d | None => false end = false).
  { destruct done as [d|]; [|reflexivity]. destruct (seqb_spec e d) as [E|]; [|reflexivity]. now apply D in E. }
  rewrite X, P. destruct o as [c|]; [|exact IH]. cbn [olist app]. rewrite IH. reflexivity.
Qed.
Lemma get_text k d s : text_at k d s -> exists v, get k JNull (JObj d) = Fine v /\ orv v (JStr []) = JStr s /\ (v = JStr s \/ (s = [] /\ v = JNull)) /\ truthy v = negb (seqb s []).
Proof.
  intros [E | [-> [E|E]]]; cbn [get]; rewrite E; eexists; (split; [reflexivity|]).
  - destruct s as [|c s]; cbn; auto.
  - cbn. auto.
  - cbn. auto.
Qed.
Lemma model_of top : exists m, get (u "model") JNull (JObj top) = Fine m /\ (dget (u "model") top = Some m \/ (dget (u "model") top = None /\ m = JNull)).
Proof. cbn [get]. destruct (dget (u "model") top) as [m|]; eauto. Qed.
Lemma openai_event_delta name e : openai_delta e ->
  exists o, openai_event name (d_event e) = Fine o /\ Forall2 (chunk_for name) (if speaks e then [e] else []) (olist o).
Proof.
  intros (top & choice & more & T & C & F & D). rewrite T. unfold openai_event. cbn [item]. rewrite C. cbn [first].
  destruct (get_text _ _ _ F) as (fv & FG & _ & FV & FT).
  assert (X : exists d, get (u "delta") JNull (JObj choice) = Fine d /\ exists c, get (u "content") JNull (orv d (JObj [])) = Fine c /\ orv c (JStr []) = JStr (d_text e)).
  { destruct D as [(d & E & TX) | (E & DG)].
    - exists (JObj d). split; [cbn [get]; now rewrite E|]. destruct (get_text _ _ _ TX) as (v & G & O & _).
      destruct d as [|x d]; exists v; cbn [orv truthy]; auto.
    - exists JNull. cbn [get]. split; [destruct DG as [-> | ->]; reflexivity|]. exists JNull. rewrite E. split; reflexivity. }
  destruct X as (d & DG & c & CG & TX). rewrite DG. cbn [bind]. rewrite CG. cbn [bind]. rewrite FG. cbn [bind]. rewrite TX.
  assert (SP : negb (truthy (JStr (d_text e))) && negb (truthy fv) = negb (speaks e)).
  { rewrite FT. unfold speaks. cbn [truthy]. destruct (d_text e) as [|x r]; cbn; now rewrite ?negb_involutive. }
  rewrite SP. destruct (speaks e); cbn [negb].
  - destruct (model_of top) as (m & MG & MV). rewrite MG. cbn [bind]. eexists. split; [reflexivity|]. cbn [olist]. constructor; [|constructor].
    unfold chunk_for. cbn [ch_text ch_delta ch_raw ch_provider ch_finish ch_model]. rewrite T.
    refine (conj eq_refl (conj eq_refl (conj eq_refl (conj eq_refl (conj _ _))))); [tauto | eauto].
  - eexists. split; [reflexivity|]. constructor.
Qed.
Lemma anthropic_event_delta e : anthropic_delta e ->
  exists o, anthropic_event (d_event e) = Fine o /\ Forall2 (chunk_for (u "anthropic")) (if speaks e || ends_message e then [e] else []) (olist o).
Proof.
  intros (top & t & T & TY & K). unfold ends_message. rewrite T, TY. unfold anthropic_event.
  assert (G : get (u "type") JNull (JObj top) = Fine (JStr t)) by (cbn [get]; now rewrite TY). rewrite G. cbn [bind is_type].
  destruct (model_of top) as (m & MG & MV). destruct K as [(-> & FE & d & DG & TX) | [(-> & TE & F) | (N1 & N2 & TE & FE)]].
  - change (seqb (u "content_block_delta") (u "content_block_delta")) with true. cbv iota. change (seqb (u "content_block_delta") (u "message_stop")) with false. rewrite orb_false_r.
    assert (G2 : get (u "delta") JNull (JObj top) = Fine (JObj d)) by (cbn [get]; now rewrite DG). rewrite G2. cbn [bind].
    destruct (get_text _ _ _ TX) as (v & VG & O & _). assert (G3 : get (u "text") JNull (orv (JObj d) (JObj [])) = Fine v) by (destruct d; exact VG). rewrite G3. cbn [bind].
    rewrite O. assert (SP : truthy (JStr (d_text e)) = speaks e) by (unfold speaks; rewrite FE; destruct (d_text e); reflexivity). rewrite SP. destruct (speaks e); cbn [negb].
    + rewrite MG. cbn [bind]. eexists. split; [reflexivity|]. cbn [olist]. constructor; [|constructor]. unfold chunk_for. cbn [ch_text ch_delta ch_raw ch_provider ch_finish ch_model].
      rewrite T. refine (conj eq_refl (conj eq_refl (conj eq_refl (conj eq_refl (conj _ _))))); [auto | eauto].
    + eexists. split; [reflexivity|]. constructor.
  - change (seqb (u "message_stop") (u "content_block_delta")) with false. change (seqb (u "message_stop") (u "message_stop")) with true. rewrite orb_true_r. cbv iota.
    rewrite MG. cbn [bind]. destruct (get_text _ _ _ F) as (fv & FG & _ & FV & _). rewrite FG. cbn [bind]. eexists. split; [reflexivity|]. cbn [olist]. constructor; [|constructor].
    unfold chunk_for. cbn [ch_text ch_delta ch_raw ch_provider ch_finish ch_model]. rewrite T, TE. refine (conj eq_refl (conj eq_refl (conj eq_refl (conj eq_refl (conj _ _))))); [tauto | eauto].
  - destruct (seqb_spec t (u "content_block_delta")); [congruence|]. destruct (seqb_spec t (u "message_stop")); [congruence|]. unfold speaks. rewrite TE, FE. cbn.
    eexists. split; [reflexivity|]. constructor.
Qed.
Lemma split_loop_all ms : forall parts ser, split_loop ms parts ser =
  (parts ++ map m_content (filter is_system ms), ser ++ map anthropic_message (filter (fun m => negb (is_system m)) ms)).
Proof.
  unfold is_system. induction ms as [|m ms IH]; intros parts ser; cbn [split_loop filter map]; [now rewrite !app_nil_r|].
  destruct (seqb (m_role m) (u "system")); cbn [negb map]; rewrite IH, <- app_assoc; reflexivity.
Qed.
