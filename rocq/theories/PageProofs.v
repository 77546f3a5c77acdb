(** Proofs for the error page. *)
From Coq Require Import List NArith ZArith Bool Lia.
From Verif Require Import PyStr PyStrFacts PageModel PageSpec.
Import ListNotations.

(** * Escaping *)
Lemma replace_one c new s : replace [c] new s = flat_map (fun x => if N.eqb x c then new else [x]) s.
Proof.
  induction s as [|x s IH]; [apply replace_nil; discriminate|]. cbn [flat_map]. destruct (N.eqb_spec x c) as [->|D].
  - change (c :: s) with ([c] ++ s). rewrite replace_hit by discriminate. rewrite IH. reflexivity.
  - rewrite replace_miss; [rewrite IH; reflexivity|discriminate|]. cbn. destruct (N.eqb_spec c x); [congruence|reflexivity].
Qed.
Lemma flat_map_flat_map {A B C} (f : A -> list B) (g : B -> list C) l : flat_map g (flat_map f l) = flat_map (fun x => flat_map g (f x)) l.
Proof. induction l as [|x l IH]; [reflexivity|]. cbn [flat_map]. rewrite flat_map_app, IH. reflexivity. Qed.
Definition esc (x : N) : str :=
  if N.eqb x 38 then u "&amp;" else if N.eqb x 60 then u "&lt;" else if N.eqb x 62 then u "&gt;" else if N.eqb x 34 then u "&quot;"
  else if N.eqb x 39 then u "&#x27;" else [x].
Definition esc_line (x : N) : str := if N.eqb x 32 then u "&nbsp" else esc x.
Lemma escape_map s : escape s = flat_map esc s.
Proof.
  unfold escape. change (u "'") with [39%N]. change (u ">") with [62%N]. change (u "<") with [60%N]. change (u "&") with [38%N].
  rewrite !replace_one, !flat_map_flat_map. apply flat_map_ext. intros x. unfold esc.
  destruct (N.eqb_spec x 38) as [->|D1]; [reflexivity|]. cbn [flat_map app].
  destruct (N.eqb_spec x 60) as [->|D2]; [reflexivity|]. cbn [flat_map app].
  destruct (N.eqb_spec x 62) as [->|D3]; [reflexivity|]. cbn [flat_map app].
  destruct (N.eqb_spec x 34) as [->|D4]; [reflexivity|]. cbn [flat_map app].
  destruct (N.eqb_spec x 39) as [->|D5]; reflexivity.
Qed.
Lemma escape_line_map s : replace (u " ") (u "&nbsp") (escape s) = flat_map esc_line s.
Proof.
  rewrite escape_map. change (u " ") with [32%N]. rewrite replace_one, flat_map_flat_map. apply flat_map_ext. intros x. unfold esc_line, esc.
  destruct (N.eqb_spec x 38) as [->|D1]; [reflexivity|].
  destruct (N.eqb_spec x 60) as [->|D2]; [reflexivity|].
  destruct (N.eqb_spec x 62) as [->|D3]; [reflexivity|].
  destruct (N.eqb_spec x 34) as [->|D4]; [reflexivity|].
  destruct (N.eqb_spec x 39) as [->|D5]; [reflexivity|].
  cbn [flat_map app]. destruct (N.eqb_spec x 32) as [->|D6]; reflexivity.
Qed.
Definition safe (d : str) : Prop := ~ In 60%N d /\ ~ In 34%N d.
Lemma esc_safe x : safe (esc x).
Proof.
  unfold esc. repeat match goal with |- context [N.eqb x ?k] => destruct (N.eqb_spec x k) as [->|?] end;
    split; intros I; cbn in I; repeat (destruct I as [I|I]; [first [discriminate I|congruence]|]); destruct I.
Qed.
Lemma safe_app a b : safe a -> safe b -> safe (a ++ b).
Proof. intros [A B] [C D]. split; intros I; apply in_app_iff in I as [I|I]; auto. Qed.
Lemma flat_safe (f : N -> str) (s : str) : (forall x, safe (f x)) -> safe (flat_map f s).
Proof. intros F. induction s as [|x s IH]; [split; intros []|]. cbn [flat_map]. apply safe_app; auto. Qed.
Lemma escape_safe s : safe (escape s).
Proof. rewrite escape_map. apply flat_safe, esc_safe. Qed.
Lemma escape_line_safe s : safe (replace (u " ") (u "&nbsp") (escape s)).
Proof.
  rewrite escape_line_map. apply flat_safe. intros x. unfold esc_line. destruct (N.eqb x 32); [|apply esc_safe].
  split; intros I; cbn in I; repeat (destruct I as [I|I]; [discriminate I|]); destruct I.
Qed.

(** * Decoding *)
Lemma refer_skip rs s c r : refer rs s = Some (c, r) -> (forall k x, In (k, x) rs -> k <> []) -> length r < length s.
Proof.
  induction rs as [|[k x] rs IH]; intros E H; [discriminate|]. cbn [refer] in E. destruct (prefixb k s) eqn:P.
  - injection E as <- <-. apply prefixb_iff in P as (t & ->). rewrite skipn_length, app_length. specialize (H k x (or_introl eq_refl)). destruct k; [congruence|]. cbn. lia.
  - apply IH; [exact E|]. intros k' x' I. apply (H k' x'). right. exact I.
Qed.
Lemma references_nonnil k x : In (k, x) references -> k <> [].
Proof. intros I. cbn in I. repeat (destruct I as [I|I]; [injection I as <- <-; discriminate|]). destruct I. Qed.
Lemma decode_enough n : forall m s, length s <= n -> length s <= m -> decode_n n s = decode_n m s.
Proof.
  induction n as [|n IH]; intros m s A B.
  - destruct s; [|cbn in A; lia]. destruct m; reflexivity.
  - destruct s as [|c s]; [destruct m; reflexivity|]. destruct m as [|m]; [cbn in B; lia|]. cbn [decode_n].
    destruct (refer references (c :: s)) as [[d r]|] eqn:R.
    + pose proof (refer_skip _ _ _ _ R references_nonnil) as L. cbn [length] in *. f_equal. apply IH; lia.
    + cbn [length] in *. f_equal. apply IH; lia.
Qed.
Lemma decode_ref s d r : refer references s = Some (d, r) -> decode s = d :: decode r.
Proof.
  intros R. pose proof (refer_skip _ _ _ _ R references_nonnil) as L. unfold decode at 1. destruct s as [|c s]; [cbn in L; lia|].
  cbn [length decode_n]. rewrite R. f_equal. apply decode_enough; cbn [length] in L; lia.
Qed.
Lemma refer_plain c s : c <> 38%N -> refer references (c :: s) = None.
Proof.
  intros H. assert (X : forall rs, (forall k x, In (k, x) rs -> exists k', k = 38%N :: k') -> refer rs (c :: s) = None).
  { induction rs as [|[k x] rs IH]; intros A; [reflexivity|]. cbn [refer]. destruct (A k x (or_introl eq_refl)) as (k' & ->).
    destruct (prefixb (38%N :: k') (c :: s)) eqn:P; [apply prefixb_iff in P as (t & P); cbn in P; congruence|]. apply IH. intros k0 x0 I. apply (A k0 x0). right. exact I. }
  apply X. intros k x I. cbn in I. repeat (destruct I as [I|I]; [injection I as <- <-; eexists; reflexivity|]). destruct I.
Qed.
Lemma decode_plain c s : c <> 38%N -> decode (c :: s) = c :: decode s.
Proof. intros H. unfold decode. cbn [length decode_n]. rewrite (refer_plain c s H). reflexivity. Qed.
Lemma decode_esc x s : decode (esc x ++ s) = x :: decode s.
Proof.
  unfold esc. repeat match goal with |- context [N.eqb x ?k] => destruct (N.eqb_spec x k) as [->|?] end; try (apply decode_ref; reflexivity).
  apply decode_plain. assumption.
Qed.
Lemma decode_app_plain t s : ~ In 38%N t -> decode (t ++ s) = t ++ decode s.
Proof. induction t as [|c t IH]; intros H; [reflexivity|]. cbn [app]. rewrite decode_plain, IH; [reflexivity| |]; intros I; apply H; [right; exact I|left; exact I]. Qed.
Lemma decode_escape s t : decode (escape s ++ t) = s ++ decode t.
Proof. rewrite escape_map. induction s as [|x s IH]; [reflexivity|]. cbn [flat_map app]. rewrite <- app_assoc, decode_esc, IH. reflexivity. Qed.
Lemma refer_nbsp s : hd_error s <> Some 59%N -> refer references (u "&nbsp" ++ s) = Some (160%N, s).
Proof.
  intros H. destruct s as [|c s]; [reflexivity|]. cbn in H. unfold references. cbn [refer].
    destruct (prefixb (u "&nbsp;") (u "&nbsp" ++ c :: s)) eqn:P; [apply prefixb_iff in P as (t & P); apply (f_equal (fun l => nth 5 l 0%N)) in P; exfalso; apply H; f_equal; exact P|]. reflexivity.
Qed.
Lemma esc_line_head y s : y <> 59%N -> hd_error (flat_map esc_line (y :: s)) <> Some 59%N.
Proof.
  intros H. cbn [flat_map]. unfold esc_line, esc. repeat match goal with |- context [N.eqb y ?k] => destruct (N.eqb_spec y k) as [->|?] end; cbn; try discriminate. congruence.
Qed.
(** A line is shown as it is, with no-break spaces, if no semicolon follows a space. *)
Definition spaced (l : str) : str := map (fun c => if N.eqb c 32 then 160%N else c) l.
Lemma decode_line l : (forall a b, l <> a ++ u " ;" ++ b) -> decode (flat_map esc_line l) = spaced l.
Proof.
  induction l as [|x l IH]; intros H; [reflexivity|].
  assert (IH' : decode (flat_map esc_line l) = spaced l) by (apply IH; intros a b ->; apply (H (x :: a) b); reflexivity).
  cbn [flat_map spaced map]. destruct (N.eqb_spec x 32) as [->|D].
  - change (esc_line 32) with (u "&nbsp"). rewrite (decode_ref _ 160%N (flat_map esc_line l)).
    + unfold spaced in IH'. rewrite IH'. reflexivity.
    + apply refer_nbsp. destruct l as [|y l]; [discriminate|]. apply esc_line_head. intros ->. apply (H [] l). reflexivity.
  - unfold esc_line at 1. destruct (N.eqb_spec x 32); [congruence|]. rewrite decode_esc. unfold spaced in IH'. rewrite IH'. reflexivity.
Qed.

(** * Reading *)
Definition final (p : place) (s : str) : place := fold_left (fun p c => fst (read p c)) s p.
Lemma final_app p a b : final p (a ++ b) = final (final p a) b.
Proof. apply fold_left_app. Qed.
Lemma events_app a : forall p b, events p (a ++ b) = events p a ++ events (final p a) b.
Proof. induction a as [|c a IH]; intros p b; [reflexivity|]. cbn [app events]. rewrite IH, app_assoc. reflexivity. Qed.
Lemma hole_text d : ~ In 60%N d -> final InText d = InText /\ events InText d = map Char d.
Proof.
  induction d as [|c d IH]; intros H; [split; reflexivity|].
  assert (E : read InText c = (InText, [Char c])) by (unfold read; destruct (N.eqb_spec c 60) as [->|]; [destruct H; left; reflexivity|reflexivity]).
  destruct IH as [A B]; [intros I; apply H; right; exact I|]. unfold final in *. cbn [fold_left events map]. rewrite E. cbn [fst snd app]. rewrite A, B. split; reflexivity.
Qed.
Lemma hole_quotes d : ~ In 34%N d -> forall n v, final (InQuotes n v) d = InQuotes n (v ++ d) /\ events (InQuotes n v) d = [].
Proof.
  induction d as [|c d IH]; intros H n v; [rewrite app_nil_r; split; reflexivity|].
  assert (E : read (InQuotes n v) c = (InQuotes n (v ++ [c]), [])) by (unfold read; destruct (N.eqb_spec c 34) as [->|]; [destruct H; left; reflexivity|reflexivity]).
  destruct (IH (fun I => H (or_intror I)) n (v ++ [c])) as [A B]. unfold final in *. cbn [fold_left events]. rewrite E. cbn [fst snd app]. rewrite A, B, <- app_assoc. split; reflexivity.
Qed.

(** * Templates *)
Fixpoint pieces_n (n : nat) (s : str) : list (str + str) :=
  match n, s with
  | S n', c :: r =>
      if N.eqb c 123 then
        match split1 125 r with
        | Some (name, rest) => inr name :: pieces_n n' rest
        | None => match pieces_n n' r with inl t :: ps => inl (c :: t) :: ps | ps => inl [c] :: ps end
        end
      else match pieces_n n' r with inl t :: ps => inl (c :: t) :: ps | ps => inl [c] :: ps end
  | _, _ => []
  end.
Definition value (vals : list (str * str)) (p : str + str) : str :=
  match p with inl t => t | inr n => match dget n vals with Some v => v | None => [] end end.
Lemma fmt_pieces vals n : forall s, fmt n vals s = flat_map (value vals) (pieces_n n s).
Proof.
  induction n as [|n IH]; intros s; [reflexivity|]. destruct s as [|c r]; [reflexivity|]. cbn [fmt pieces_n].
  destruct (N.eqb c 123); [|rewrite IH; destruct (pieces_n n r) as [|[t|x] ps]; reflexivity]. destruct (split1 125 r) as [[name rest]|]; [|rewrite IH; destruct (pieces_n n r) as [|[t|x] ps]; reflexivity]. cbn [flat_map]. rewrite IH. reflexivity.
Qed.
Definition pieces (tpl : str) := pieces_n (length tpl) tpl.
Lemma format_pieces tpl vals : format tpl vals = flat_map (value vals) (pieces tpl).
Proof. apply fmt_pieces. Qed.
Definition lit (tpl : str) (i : nat) : str := match nth i (pieces tpl) (inl []) with inl t => t | inr _ => [] end.
Lemma frame_pieces : pieces frame_template =
  [inl (lit frame_template 0); inr (u "frame_filename"); inl (lit frame_template 2); inr (u "frame_lineno"); inl (lit frame_template 4); inr (u "frame_name");
   inl (lit frame_template 6); inr (u "frame_filename"); inl (lit frame_template 8); inr (u "frame_lineno"); inl (lit frame_template 10); inr (u "collapse_button");
   inl (lit frame_template 12); inr (u "frame_filename"); inl (lit frame_template 14); inr (u "frame_lineno"); inl (lit frame_template 16); inr (u "collapsed");
   inl (lit frame_template 18); inr (u "code_context"); inl (lit frame_template 20)].
Proof. vm_compute. reflexivity. Qed.
Lemma line_pieces : pieces line_template = [inl (lit line_template 0); inr (u "lineno"); inl (lit line_template 2); inr (u "line"); inl (lit line_template 4)].
Proof. vm_compute. reflexivity. Qed.
Lemma center_pieces : pieces center_template = [inl (lit center_template 0); inr (u "lineno"); inl (lit center_template 2); inr (u "line"); inl (lit center_template 4)].
Proof. vm_compute. reflexivity. Qed.
Lemma page_pieces : pieces page_template =
  [inl (lit page_template 0); inr (u "styles"); inl (lit page_template 2); inr (u "error"); inl (lit page_template 4); inr (u "exc_html"); inl (lit page_template 6); inr (u "js"); inl (lit page_template 8)].
Proof. vm_compute. reflexivity. Qed.

Lemma final_text p t q : final p t = q -> forall s, events p (t ++ s) = events p t ++ events q s.
Proof. intros <- s. apply events_app. Qed.
Lemma text_step d s : ~ In 60%N d -> events InText (d ++ s) = map Char d ++ events InText s.
Proof. intros H. destruct (hole_text d H) as [A B]. rewrite events_app, A, B. reflexivity. Qed.
Lemma quotes_step d n v s : ~ In 34%N d -> events (InQuotes n v) (d ++ s) = events (InQuotes n (v ++ d)) s.
Proof. intros H. destruct (hole_quotes d H n v) as [A B]. rewrite events_app, A, B. reflexivity. Qed.

(** The tag after the closing quotation mark. *)
Definition rest_events (s : str) : list event := events (InTag []) (tl s).
Lemma close_quotes n v s : hd_error s = Some 34%N -> events (InQuotes n v) s = Attr n v :: rest_events s.
Proof. destruct s as [|c s]; [discriminate|]. intros E. injection E as ->. reflexivity. Qed.

Definition line_events (center : bool) (X Y : str) : list event :=
  let t := if center then center_template else line_template in
  events InText (lit t 0) ++ map Char Y ++ events InText (lit t 2) ++ map Char X ++ events InText (lit t 4).
Lemma format_line_events (center : bool) X Y : ~ In 60%N X -> ~ In 60%N Y ->
  events InText (format (if center then center_template else line_template) [(u "line", X); (u "lineno", Y)]) = line_events center X Y /\
  final InText (format (if center then center_template else line_template) [(u "line", X); (u "lineno", Y)]) = InText.
Proof.
  intros HX HY. rewrite format_pieces.
  assert (E : exists a b c, flat_map (value [(u "line", X); (u "lineno", Y)]) (pieces (if center then center_template else line_template)) = a ++ Y ++ b ++ X ++ c /\
    final InText a = InText /\ final InText b = InText /\ final InText c = InText /\
    line_events center X Y = events InText a ++ map Char Y ++ events InText b ++ map Char X ++ events InText c).
  { destruct center.
    - exists (lit center_template 0), (lit center_template 2), (lit center_template 4). rewrite center_pieces. repeat split; vm_compute; reflexivity.
    - exists (lit line_template 0), (lit line_template 2), (lit line_template 4). rewrite line_pieces. repeat split; vm_compute; reflexivity. }
  destruct E as (a & b & c & -> & A & B & C & ->). split.
  - rewrite (final_text _ _ _ A), (text_step Y) by exact HY. rewrite (final_text _ _ _ B), (text_step X) by exact HX. reflexivity.
  - rewrite !final_app, A, (proj1 (hole_text Y HY)), B, (proj1 (hole_text X HX)), C. reflexivity.
Qed.

Section Frame.
  Notation F := (lit frame_template).
  Definition frame_events (X Y Z btn col : str) (code : list event) : list event :=
    events InText (F 0) ++ map Char X ++ events InText (F 2) ++ map Char Y ++ events InText (F 4) ++ map Char Z ++
    events InText (F 6) ++ [Attr (u "data-frame-id") (X ++ u "-" ++ Y)] ++ rest_events (F 10) ++ map Char btn ++
    events InText (F 12) ++ [Attr (u "id") (X ++ u "-" ++ Y)] ++ rest_events (F 16) ++ [Attr (u "class") (u "source-code " ++ col)] ++ rest_events (F 18) ++
    code ++ events InText (F 20).
  Lemma format_frame_events X Y Z btn col C : safe X -> safe Y -> safe Z -> safe btn -> safe col -> final InText C = InText ->
    let h := format frame_template [(u "frame_filename", X); (u "frame_lineno", Y); (u "frame_name", Z); (u "code_context", C); (u "collapsed", col); (u "collapse_button", btn)] in
    events InText h = frame_events X Y Z btn col (events InText C) /\ final InText h = InText.
  Proof.
    intros [X1 X2] [Y1 Y2] [Z1 _] [B1 _] [_ C2] HC. cbv zeta. rewrite format_pieces, frame_pieces.
    assert (E : flat_map (value [(u "frame_filename", X); (u "frame_lineno", Y); (u "frame_name", Z); (u "code_context", C); (u "collapsed", col); (u "collapse_button", btn)])
      [inl (F 0); inr (u "frame_filename"); inl (F 2); inr (u "frame_lineno"); inl (F 4); inr (u "frame_name"); inl (F 6); inr (u "frame_filename"); inl (F 8); inr (u "frame_lineno");
       inl (F 10); inr (u "collapse_button"); inl (F 12); inr (u "frame_filename"); inl (F 14); inr (u "frame_lineno"); inl (F 16); inr (u "collapsed"); inl (F 18); inr (u "code_context"); inl (F 20)]
      = F 0 ++ X ++ F 2 ++ Y ++ F 4 ++ Z ++ F 6 ++ X ++ F 8 ++ Y ++ F 10 ++ btn ++ F 12 ++ X ++ F 14 ++ Y ++ F 16 ++ col ++ F 18 ++ C ++ F 20).
    { cbn [flat_map]. rewrite app_nil_r. reflexivity. }
    rewrite E. clear E.
    assert (T : forall i, In i [0; 2; 4; 20] -> final InText (F i) = InText) by (intros i I; cbn in I; repeat (destruct I as [<-|I]; [vm_compute; reflexivity|]); destruct I).
    assert (T6 : final InText (F 6) = InQuotes (u "data-frame-id") []) by (vm_compute; reflexivity).
    assert (T12 : final InText (F 12) = InQuotes (u "id") []) by (vm_compute; reflexivity).
    assert (E8 : F 8 = u "-") by (vm_compute; reflexivity). assert (E14 : F 14 = u "-") by (vm_compute; reflexivity).
    assert (D : ~ In 34%N (u "-")) by (intros [I|[]]; discriminate).
    assert (H10 : exists t, F 10 = 34%N :: t /\ final (InTag []) t = InText) by (eexists; split; [vm_compute; reflexivity|vm_compute; reflexivity]).
    assert (H16 : exists t, F 16 = 34%N :: t /\ final (InTag []) t = InQuotes (u "class") (u "source-code ")) by (eexists; split; [vm_compute; reflexivity|vm_compute; reflexivity]).
    assert (H18 : exists t, F 18 = 34%N :: t /\ final (InTag []) t = InText) by (eexists; split; [vm_compute; reflexivity|vm_compute; reflexivity]).
    destruct H10 as (t10 & E10 & N10), H16 as (t16 & E16 & N16), H18 as (t18 & E18 & N18).
    assert (K : forall t n v s, events (InQuotes n v) ((34%N :: t) ++ s) = Attr n v :: events (InTag []) t ++ events (final (InTag []) t) s).
    { intros t n v s. cbn [app events]. change (read (InQuotes n v) 34) with (InTag [], [Attr n v]). cbn [fst snd app]. rewrite events_app. reflexivity. }
    assert (KF : forall t n v s, final (InQuotes n v) ((34%N :: t) ++ s) = final (final (InTag []) t) s).
    { intros t n v s. cbn [app]. unfold final at 1. cbn [fold_left]. change (fst (read (InQuotes n v) 34)) with (InTag []). exact (final_app (InTag []) t s). }
    split.
    - unfold frame_events, rest_events. rewrite (final_text _ _ _ (T 0 ltac:(cbn; tauto))), (text_step X) by exact X1.
      rewrite (final_text _ _ _ (T 2 ltac:(cbn; tauto))), (text_step Y) by exact Y1.
      rewrite (final_text _ _ _ (T 4 ltac:(cbn; tauto))), (text_step Z) by exact Z1.
      rewrite (final_text _ _ _ T6), (quotes_step X) by exact X2. rewrite E8, (quotes_step (u "-")) by exact D. rewrite (quotes_step Y) by exact Y2.
      rewrite E10, K, N10, (text_step btn) by exact B1. rewrite (final_text _ _ _ T12), (quotes_step X) by exact X2.
      rewrite E14, (quotes_step (u "-")) by exact D. rewrite (quotes_step Y) by exact Y2. rewrite E16, K, N16, (quotes_step col) by exact C2.
      rewrite E18, K, N18, (final_text _ _ _ HC). cbn [tl]. change ([] ++ X) with X. rewrite <- !app_assoc. reflexivity.
    - rewrite final_app, (T 0 ltac:(cbn; tauto)), final_app, (proj1 (hole_text X X1)), final_app, (T 2 ltac:(cbn; tauto)), final_app, (proj1 (hole_text Y Y1)),
        final_app, (T 4 ltac:(cbn; tauto)), final_app, (proj1 (hole_text Z Z1)), final_app, T6, final_app, (proj1 (hole_quotes X X2 _ _)), E8, final_app,
        (proj1 (hole_quotes (u "-") D _ _)), final_app, (proj1 (hole_quotes Y Y2 _ _)), E10, KF, N10, final_app, (proj1 (hole_text btn B1)), final_app, T12,
        final_app, (proj1 (hole_quotes X X2 _ _)), E14, final_app, (proj1 (hole_quotes (u "-") D _ _)), final_app, (proj1 (hole_quotes Y Y2 _ _)), E16, KF, N16,
        final_app, (proj1 (hole_quotes col C2 _ _)), E18, KF, N18, final_app, HC. apply T. cbn. tauto.
  Qed.
End Frame.
