(** C305-C308: messages kept in files and in memory. *)
From Verif Require Import PyStr PyStrFacts Utf8 EncModel EncProps EmlModel.

(** str.isalnum is false of the characters that mean something in a path. *)
Definition sane (alnum : N -> bool) : Prop := alnum 47%N = false /\ alnum 46%N = false /\ alnum 92%N = false /\ alnum 0%N = false.
Definition moment_ok (t : moment) : Prop :=
  (year t < 10000 /\ month t < 100 /\ day t < 100 /\ hour t < 100 /\ minute t < 100 /\ second t < 100 /\ micro t < 1000000)%N.

(** ** C305 *)
(** Whatever the subjects are, a file is only written right inside the directory, under a name of letters,
    digits, hyphens and underscores with the suffix .eml; no other file changes. *)
Lemma stamp_chars t ch : In ch (stamp t) -> is_digit ch = true \/ ch = 45%N.
Proof.
  unfold stamp. assert (D : forall w n, In ch (pad w n) -> is_digit ch = true) by (intros w n I; exact (proj1 (forallb_forall _ _) (pad_digits w n) ch I)).
  rewrite !in_app_iff. intros H. repeat (destruct H as [H|H]; [first [left; exact (D _ _ H) | destruct H as [<-|[]]; right; reflexivity]|]). left. exact (D _ _ H).
Qed.
Lemma safe_chars alnum s ch : In ch (safe_subject alnum s) -> alnum ch = true \/ ch = 45%N \/ ch = 95%N.
Proof.
  unfold safe_subject. intros I. assert (I' : In ch (filter (fun ch => alnum ch || cmem ch (u "-_")) match s with [] => u "no-subject" | _ => s end)).
  { rewrite <- (firstn_skipn 60). apply in_or_app. left. exact I. }
  apply filter_In in I' as [_ I']. apply orb_prop in I' as [I'|I']; [left; exact I'|]. right. unfold cmem in I'. apply existsb_exists in I' as (x & X & E). apply N.eqb_eq in E. subst x.
  cbn in X. destruct X as [<-|[<-|[]]]; [left|right]; reflexivity.
Qed.
Lemma digit_facts x : is_digit x = true -> x <> 47%N /\ x <> 46%N /\ x <> 92%N /\ x <> 0%N.
Proof. unfold is_digit. lia. Qed.
Definition decent (n : str) : Prop := n <> [] /\ forall ch, In ch n -> ch <> 47%N /\ ch <> 46%N /\ ch <> 92%N /\ ch <> 0%N.
Lemma stamp_length t : length (stamp t) = 22%nat.
Proof. unfold stamp. rewrite !app_length, !pad_length. reflexivity. Qed.
Lemma stamp_head t : exists x r, stamp t = x :: r /\ is_digit x = true.
Proof.
  unfold stamp. pose proof (pad_digits 4 (year t)) as D. pose proof (pad_length 4 (year t)) as L. destruct (pad 4 (year t)) as [|x r]; [discriminate L|].
  exists x. eexists. split; [reflexivity|]. cbn [forallb] in D. apply andb_prop in D as [D _]. exact D.
Qed.
Lemma path_inside alnum dir now s : snd (file_path alnum dir now s) = dir ++ u "/" ++ stamp now ++ u "-" ++ safe_subject alnum s ++ u ".eml".
Proof.
  unfold file_path, joined. cbn [snd]. destruct (stamp_head now) as (x & r & E & D). rewrite E. cbn [List.app].
  replace (prefixb (u "/") (x :: r ++ u "-" ++ safe_subject alnum s ++ u ".eml")) with false; [reflexivity|].
  symmetry. change (u "/") with [47%N]. cbn [prefixb]. destruct (N.eqb_spec 47%N x) as [<-|NE]; [discriminate D|reflexivity].
Qed.
Theorem C305 : forall alnum dir create l s path,
  sane alnum -> dget path (files (fst (eml_run alnum dir create s l))) <> dget path (files s) ->
  exists n, path = dir ++ u "/" ++ n ++ u ".eml" /\ decent n
    /\ exists now subject b, In (Sends now subject (Some b)) l /\ dget path (files (fst (eml_run alnum dir create s l))) = Some b.
Proof.
  intros alnum dir create l s path (S1 & S2 & S3 & S4). revert s. induction l as [|o l IH]; intros s D; [contradiction D; reflexivity|].
  cbn [eml_run] in *. destruct (eml_step alnum dir create s o) as [s' x] eqn:E. destruct (eml_run alnum dir create s' l) as [s'' xs] eqn:E'. cbn [fst] in *.
  assert (DEC : {dget path (files s'') = dget path (files s')} + {dget path (files s'') <> dget path (files s')}).
  { decide equality. apply (list_eq_dec N.eq_dec). }
  destruct DEC as [EQ|NE].
  - rewrite EQ in D |- *. destruct o as [|now subject bytes]; cbn [eml_step] in E; [injection E as <- _; contradiction D; reflexivity|].
    destruct bytes as [b|]; [|injection E as <- _; contradiction D; reflexivity]. pose proof (path_inside alnum dir now subject) as P.
    destruct (file_path alnum dir now subject) as [name p] eqn:FP. cbn [snd] in P.
    destruct (negb (there s)); [injection E as <- _; contradiction D; reflexivity|]. destruct (255 <? length (utf8_enc name))%nat; [injection E as <- _; contradiction D; reflexivity|].
    injection E as <- _. cbn [files] in *. destruct (list_eq_dec N.eq_dec path p) as [->|NP]; [|rewrite dget_dset_other in D by (congruence); contradiction D; reflexivity].
    exists (stamp now ++ u "-" ++ safe_subject alnum subject). split; [rewrite P, <- !app_assoc; reflexivity|]. split.
    + destruct (stamp_head now) as (y & r & ES & DY). split; [rewrite ES; discriminate|]. intros ch I. apply in_app_or in I as [I|I].
      * apply stamp_chars in I as [I|I]; [exact (digit_facts _ I)|]. subst ch. repeat split; discriminate.
      * apply in_app_or in I as [I|I]; [destruct I as [<-|[]]; repeat split; discriminate|]. apply safe_chars in I as [I|[I|I]]; [|subst ch; repeat split; discriminate|subst ch; repeat split; discriminate].
        repeat split; intros ->; congruence.
    + exists now, subject, b. split; [left; reflexivity|]. apply dget_dset_same.
  - specialize (IH s'). rewrite E' in IH. cbn [fst] in IH. destruct (IH NE) as (n & A & B & now & subject & b & I & C).
    exists n. split; [exact A|]. split; [exact B|]. exists now, subject, b. split; [right; exact I|exact C].
Qed.
Print Assumptions C305.
Definition ascii_alnum (x : N) : bool := is_digit x || ((65 <=? x) && (x <=? 90))%N || ((97 <=? x) && (x <=? 122))%N.
Definition noon : moment := {| year := 2026; month := 11; day := 15; hour := 12; minute := 0; second := 5; micro := 42 |}.
Example C305_case : sane ascii_alnum
  /\ files (fst (eml_run ascii_alnum (u "/var/mail") true {| there := false; files := [] |}
       [Sends noon (u "lost") (Some (u "x")); Opens; Sends noon (u "../../etc/passwd") (Some (u "a")); Sends noon (u "") (Some (u "b")); Sends noon (u "c") None]))
     = [(u "/var/mail/20261115-120005-000042-etcpasswd.eml", u "a"); (u "/var/mail/20261115-120005-000042-no-subject.eml", u "b")].
Proof. split; [repeat split|vm_compute; reflexivity]. Qed.

(** ** C306 *)
(** In full, no message is overwritten: after a run that began with no files there are as many files as
    messages were accepted. *)
Definition accepted (l : list eml_op) (rs : list (option fault)) : nat :=
  length (filter (fun x => match x with (Sends _ _ _, None) => true | _ => false end) (combine l rs)).
Definition C306_statement : Prop := forall alnum dir create l,
  sane alnum -> (forall now s b, In (Sends now s b) l -> moment_ok now) ->
  length (files (fst (eml_run alnum dir create {| there := true; files := [] |} l)))
  = accepted l (snd (eml_run alnum dir create {| there := true; files := [] |} l)).
Theorem C306_refuted : ~ C306_statement.
Proof.
  intros H. specialize (H ascii_alnum (u "d") true [Sends noon (u "hello world") (Some (u "first")); Sends noon (u "hello, world!") (Some (u "second"))] ltac:(repeat split)).
  assert (E : forall P : Prop, (1%nat = 2%nat -> P) -> P); [|apply (E False); discriminate]. intros P K. apply K. vm_compute in H. apply H.
  intros now s b I. destruct I as [I|[I|[]]]; injection I as <- _ _; repeat split; vm_compute; reflexivity.
Qed.
Print Assumptions C306_refuted.

Lemma app_same_length {A} (a b c d : list A) : length a = length b -> a ++ c = b ++ d -> a = b /\ c = d.
Proof. revert b. induction a as [|x a IH]; intros [|y b] L E; try discriminate L; [split; [reflexivity|exact E]|]. injection E as -> E. injection L as L. destruct (IH b L E) as [-> ->]. split; reflexivity. Qed.
Lemma pad_inj w a b : (a < 10 ^ N.of_nat w)%N -> (b < 10 ^ N.of_nat w)%N -> pad w a = pad w b -> a = b.
Proof. intros A B E. rewrite <- (pad_value w a A), <- (pad_value w b B), E. reflexivity. Qed.
Lemma stamp_inj a b : moment_ok a -> moment_ok b -> stamp a = stamp b -> a = b.
Proof.
  intros (A1 & A2 & A3 & A4 & A5 & A6 & A7) (B1 & B2 & B3 & B4 & B5 & B6 & B7) E. unfold stamp in E.
  assert (LP : forall w n m, length (pad w n) = length (pad w m)) by (intros; rewrite !pad_length; reflexivity).
  apply (app_same_length _ _ _ _ (LP _ _ _)) in E as [E1 E]. apply (app_same_length _ _ _ _ (LP _ _ _)) in E as [E2 E]. apply (app_same_length _ _ _ _ (LP _ _ _)) in E as [E3 E].
  apply app_inv_head in E. apply (app_same_length _ _ _ _ (LP _ _ _)) in E as [E4 E]. apply (app_same_length _ _ _ _ (LP _ _ _)) in E as [E5 E]. apply (app_same_length _ _ _ _ (LP _ _ _)) in E as [E6 E].
  apply app_inv_head in E. apply pad_inj in E1, E2, E3, E4, E5, E6, E; try (cbn; assumption). destruct a, b. cbn in *. congruence.
Qed.
Definition when (o : eml_op) : list moment := match o with Sends t _ _ => [t] | Opens => [] end.
Lemma files_of alnum dir create l : forall s t b p, dget p (files s) = Some b -> (exists r, p = dir ++ u "/" ++ stamp t ++ r) -> ~ In t (flat_map when l) ->
  moment_ok t -> (forall t', In t' (flat_map when l) -> moment_ok t') -> dget p (files (fst (eml_run alnum dir create s l))) = Some b.
Proof.
  induction l as [|o l IH]; intros s t b p D R NI OK OKS; [exact D|]. cbn [eml_run]. destruct (eml_step alnum dir create s o) as [s' x] eqn:E.
  assert (D' : dget p (files s') = Some b).
  { destruct o as [|now subject bytes]; cbn [eml_step] in E; [injection E as <- _; exact D|]. destruct bytes as [b'|]; [|injection E as <- _; exact D].
    pose proof (path_inside alnum dir now subject) as P. destruct (file_path alnum dir now subject) as [name q]. cbn [snd] in P.
    destruct (negb (there s)); [injection E as <- _; exact D|]. destruct (255 <? length (utf8_enc name))%nat; [injection E as <- _; exact D|]. injection E as <- _. cbn [files].
    rewrite dget_dset_other; [exact D|]. intros EQ. destruct R as (r & R). apply NI. left. rewrite R, P in EQ. apply app_inv_head in EQ. apply app_inv_head in EQ.
    assert (EQ1 : stamp now = stamp t). { first [ apply (app_same_length _ _ _ _ (eq_trans (stamp_length _) (eq_sym (stamp_length _)))) in EQ as [EQ _]; (exact EQ || exact (eq_sym EQ)) ]. }
    apply stamp_inj; [apply OKS; left; reflexivity|exact OK|exact EQ1]. }
  destruct (eml_run alnum dir create s' l) as [s'' xs] eqn:E'. cbn [fst]. specialize (IH s' t b p D' R). rewrite E' in IH. apply IH; [|exact OK|].
  - intros I. apply NI. cbn [flat_map]. apply in_or_app. right. exact I.
  - intros t' I. apply OKS. cbn [flat_map]. apply in_or_app. right. exact I.
Qed.
(** Messages sent at different times keep their files: what was accepted is found at the end with its
    content, and there is one file for each. *)
Theorem C306_kept_partial : forall alnum dir create l1 now subject b l2 s,
  NoDup (flat_map when (l1 ++ Sends now subject (Some b) :: l2)) ->
  (forall t, In t (flat_map when (l1 ++ Sends now subject (Some b) :: l2)) -> moment_ok t) ->
  nth_error (snd (eml_run alnum dir create s (l1 ++ Sends now subject (Some b) :: l2))) (length l1) = Some None ->
  dget (dir ++ u "/" ++ stamp now ++ u "-" ++ safe_subject alnum subject ++ u ".eml")
    (files (fst (eml_run alnum dir create s (l1 ++ Sends now subject (Some b) :: l2)))) = Some b.
Proof.
  intros alnum dir create l1 now subject b l2. induction l1 as [|o l1 IH]; intros s ND OK R.
  - cbn [List.app eml_run length] in *. destruct (eml_step alnum dir create s (Sends now subject (Some b))) as [s' x] eqn:E.
    destruct (eml_run alnum dir create s' l2) as [s'' xs] eqn:E'. cbn [snd nth_error fst] in *. injection R as ->. cbn [eml_step] in E.
    pose proof (path_inside alnum dir now subject) as P. destruct (file_path alnum dir now subject) as [name p]. cbn [snd] in P.
    destruct (negb (there s)); [discriminate E|]. destruct (255 <? length (utf8_enc name))%nat; [discriminate E|]. injection E as <-.
    rewrite <- P. inversion ND as [|? ? N1 N2]; subst. replace s'' with (fst (eml_run alnum dir create {| there := there s; files := dset (dir ++ u "/" ++ stamp now ++ u "-" ++ safe_subject alnum subject ++ u ".eml") b (files s) |} l2)) by (rewrite E'; reflexivity).
    apply (files_of alnum dir create l2 _ now b).
    + apply dget_dset_same.
    + eexists. reflexivity.
    + exact N1.
    + apply OK. left. reflexivity.
    + intros t' I. apply OK. right. exact I.
  - cbn [List.app eml_run length] in *. destruct (eml_step alnum dir create s o) as [s' x] eqn:E.
    specialize (IH s'). destruct (eml_run alnum dir create s' (l1 ++ Sends now subject (Some b) :: l2)) as [s'' xs] eqn:E'. cbn [fst snd nth_error] in *. apply IH; [| |exact R].
    + cbn [flat_map] in ND. clear -ND. induction (when o) as [|y w IHw]; [exact ND|]. cbn [List.app] in ND. inversion ND; subst. exact (IHw H2).
    + intros t I. apply OK. cbn [flat_map]. apply in_or_app. right. exact I.
Qed.
Print Assumptions C306_kept_partial.
Example C306_case : let h := [Opens; Sends noon (u "a") (Some (u "1"));
     Sends {| year := 2026; month := 11; day := 15; hour := 12; minute := 0; second := 5; micro := 43 |} (u "a") (Some (u "2"))] in
  NoDup (flat_map when h) /\ nth_error (snd (eml_run ascii_alnum (u "d") true {| there := false; files := [] |} h)) 1 = Some None
  /\ length (files (fst (eml_run ascii_alnum (u "d") true {| there := false; files := [] |} h))) = 2%nat.
Proof. cbn zeta. split; [|split; vm_compute; reflexivity]. cbn. constructor; [intros [E|[]]; discriminate E|]. constructor; [intros []|constructor]. Qed.

(** ** C307 *)
(** In full, every message that can be built is written once the directory is there. *)
Definition C307_statement : Prop := forall alnum dir create now subject b s,
  sane alnum -> (forall ch, In ch subject -> scalar ch) -> there s = true -> snd (eml_step alnum dir create s (Sends now subject (Some b))) = None.
(** A subject of sixty letters that take four bytes each makes a name no file can have. *)
Theorem C307_refuted : ~ C307_statement.
Proof.
  intros H.
  assert (X : snd (eml_step (fun x => N.eqb x 131072) (u "d") true {| there := true; files := [] |} (Sends noon (repeat 131072%N 60) (Some []))) = Some NameTooLong) by (vm_compute; reflexivity).
  assert (Y : snd (eml_step (fun x => N.eqb x 131072) (u "d") true {| there := true; files := [] |} (Sends noon (repeat 131072%N 60) (Some []))) = None).
  { apply H; [repeat split| |reflexivity]. intros ch I. apply repeat_spec in I. subst ch. right. split; [discriminate|reflexivity]. }
  rewrite X in Y. discriminate Y.
Qed.
Print Assumptions C307_refuted.
Lemma enc_short s : (forall ch, In ch s -> (ch < 65536)%N) -> (length (utf8_enc s) <= 3 * length s)%nat.
Proof.
  induction s as [|x s IH]; intros H; [apply Nat.le_refl|]. cbn [utf8_enc flat_map length]. rewrite app_length. fold (utf8_enc s).
  assert (A : (length (enc1 x) <= 3)%nat).
  { unfold enc1. destruct (x <? 128)%N; [cbn; lia|]. destruct (x <? 2048)%N; [cbn; lia|]. destruct (N.ltb_spec x 65536); [cbn; lia|]. specialize (H x (or_introl eq_refl)). lia. }
  specialize (IH (fun ch I => H ch (or_intror I))). lia.
Qed.
Lemma enc_app a b : utf8_enc (a ++ b) = utf8_enc a ++ utf8_enc b.
Proof. unfold utf8_enc. apply flat_map_app. Qed.
(** With the characters of the basic plane every subject, however long, gives a name that fits; opening the
    backend is enough to have the directory. *)
Theorem C307_written_partial : forall alnum dir now subject b s,
  (forall ch, In ch subject -> (ch < 65536)%N) -> there (fst (eml_step alnum dir true s Opens)) = true
  /\ snd (eml_step alnum dir true (fst (eml_step alnum dir true s Opens)) (Sends now subject (Some b))) = None.
Proof.
  intros alnum dir now subject b s H. cbn [eml_step fst there]. rewrite orb_true_r. split; [reflexivity|].
  unfold file_path. cbn [negb]. destruct (Nat.ltb_spec 255 (length (utf8_enc (stamp now ++ u "-" ++ safe_subject alnum subject ++ u ".eml")))) as [L|L]; [|reflexivity]. exfalso.
  rewrite !enc_app, !app_length in L.
  assert (A : length (utf8_enc (stamp now)) = 22%nat).
  { rewrite enc_ascii; [apply stamp_length|]. intros ch I. apply stamp_chars in I as [I|I]; [unfold is_digit in I; lia|subst ch; reflexivity]. }
  assert (B : (length (utf8_enc (safe_subject alnum subject)) <= 180)%nat).
  { assert (C : (length (safe_subject alnum subject) <= 60)%nat) by (unfold safe_subject; apply firstn_le_length).
    etransitivity; [apply enc_short|lia]. intros ch I. unfold safe_subject in I.
    assert (I' : In ch (filter (fun ch => alnum ch || cmem ch (u "-_")) match subject with [] => u "no-subject" | _ => subject end)).
    { rewrite <- (firstn_skipn 60). apply in_or_app. left. exact I. }
    apply filter_In in I' as [I' _]. destruct subject as [|y r]; [|exact (H ch I')]. vm_compute in I'. repeat (destruct I' as [<-|I']; [reflexivity|]). destruct I'. }
  rewrite A in L. change (length (utf8_enc (u "-"))) with 1%nat in L. change (length (utf8_enc (u ".eml"))) with 4%nat in L. lia.
Qed.
Print Assumptions C307_written_partial.
Example C307_case : snd (eml_step (fun x => N.eqb x 20013) (u "d") true {| there := true; files := [] |} (Sends noon (repeat 20013%N 100) (Some []))) = None.
Proof. vm_compute. reflexivity. Qed.

(** ** C308 *)
Section Outbox.
Context {M : Type}.
(** The messages as they are when they are posted. *)
Fixpoint as_posted (b : box M) (l : list (box_op M)) : list (option M) :=
  match l with
  | [] => []
  | o :: r => (match o with Posts n => [nth_error (objects b) n] | PostsAll ns => map (nth_error (objects b)) ns | _ => [] end)
              ++ as_posted (box_step b o) r
  end.
End Outbox.
Definition empty_box (M : Type) : box M := {| objects := []; outbox := [] |}.
(** In full, the outbox shows the messages as they were sent, in that order. *)
Definition C308_statement : Prop := forall M (l : list (box_op M)), seen (fold_left box_step l (empty_box M)) = as_posted (empty_box M) l.
Theorem C308_refuted : ~ C308_statement.
Proof. intros H. specialize (H nat [Makes 1; Posts 0; Alters 0 S]). vm_compute in H. discriminate H. Qed.
Print Assumptions C308_refuted.
(** The messages are all there in the order of sending, the same objects; and with the content they had
    unless the program changes a message later. *)
Theorem C308_order : forall M (l : list (box_op M)) b,
  outbox (fold_left box_step l b) = outbox b ++ flat_map (fun o => match o with Posts n => [n] | PostsAll ns => ns | _ => [] end) l.
Proof.
  intros M l. induction l as [|o l IH]; intros b; cbn [fold_left flat_map]; [rewrite app_nil_r; reflexivity|]. rewrite IH.
  destruct o; cbn [box_step outbox]; rewrite <- ?app_assoc; reflexivity.
Qed.
Print Assumptions C308_order.
Theorem C308_kept_partial : forall M (l : list (box_op M)) b,
  (forall n, In n (outbox b) -> (n < length (objects b))%nat) ->
  (forall l1 o l2, l = l1 ++ o :: l2 -> match o with
     | Posts n => (n < length (objects (fold_left box_step l1 b)))%nat
     | PostsAll ns => forall n, In n ns -> (n < length (objects (fold_left box_step l1 b)))%nat
     | Alters n _ => ~ In n (outbox (fold_left box_step l1 b))
     | Makes _ => True end) ->
  seen (fold_left box_step l b) = seen b ++ as_posted b l.
Proof.
  intros M l. induction l as [|o l IH]; intros b V H; cbn [fold_left as_posted]; [rewrite app_nil_r; reflexivity|].
  pose proof (H [] o l eq_refl) as HO. cbn [fold_left] in HO.
  assert (V' : forall n, In n (outbox (box_step b o)) -> (n < length (objects (box_step b o)))%nat).
  { assert (LA : forall n (f : M -> M) l', length (alter n f l') = length l') by (intros n f l'; revert n; induction l' as [|y l' IHl]; intros [|n]; cbn; congruence).
    intros n I. destruct o as [m|k|ns|k f]; cbn [box_step outbox objects] in *; rewrite ?app_length, ?LA.
    - specialize (V n I). lia.
    - apply in_app_or in I as [I|[<-|[]]]; [exact (V n I)|exact HO].
    - apply in_app_or in I as [I|I]; [exact (V n I)|exact (HO n I)].
    - exact (V n I). }
  rewrite (IH _ V') by (intros l1 o' l2 E; specialize (H (o :: l1) o' l2); cbn [List.app fold_left] in H; apply H; rewrite E; reflexivity).
  rewrite app_assoc. f_equal. unfold seen. destruct o as [m|k|ns|k f]; cbn [box_step outbox objects].
  - rewrite app_nil_r. apply map_ext_in. intros n I. apply nth_error_app1. exact (V n I).
  - rewrite map_app. reflexivity.
  - rewrite map_app. reflexivity.
  - rewrite app_nil_r. apply map_ext_in. intros n I.
    assert (AO : forall (l' : list M) i j, j <> i -> nth_error (alter i f l') j = nth_error l' j).
    { induction l' as [|y l' IHl]; intros [|i] [|j] D; try reflexivity; [contradiction D; reflexivity|]. cbn. apply IHl. congruence. }
    apply AO. intros ->. exact (HO I).
Qed.
Print Assumptions C308_kept_partial.
Example C308_case : let l := [Makes 1; Makes 2; Alters 0 S; PostsAll [1; 0]; Posts 1; Makes 3] in
  seen (fold_left box_step l (empty_box nat)) = [Some 2; Some 2; Some 2]
  /\ (forall l1 o l2, l = l1 ++ o :: l2 -> match o with Alters n _ => ~ In n (outbox (fold_left box_step l1 (empty_box nat))) | _ => True end).
Proof.
  cbn zeta. split; [vm_compute; reflexivity|]. intros l1 o l2 E.
  do 6 (destruct l1 as [|? l1]; cbn [List.app] in E; [injection E as <- <-; vm_compute; tauto|injection E as <- E]). destruct l1; discriminate E.
Qed.
