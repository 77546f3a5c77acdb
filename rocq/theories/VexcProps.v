(** C387-C389: validation errors and the answers to them. *)
From Coq Require Import ZArith Lia.
From Verif Require Import PyStr PyStrFacts Utf8 Asgi HeaderModel HeaderSpec JsonModel JsonSpec JsonProofs JsonProps OutModel OutProps ExcModel AbtModel AbtProps LexcModel LexcProps VexcModel.

(** ** Specification *)
(** The value a detail is told as: the same structure, with texts for everything else. *)
Inductive told : detail -> jvalue -> Prop :=
| told_text s : told (DText s) (JStr s)
| told_bytes t : Forall scalar t -> told (DBytes (utf8_enc t)) (JStr t)
| told_other w : told (DOther w) (JStr w)
| told_list l vs : Forall2 told l vs -> told (DList l) (JArr vs)
| told_tuple l vs : Forall2 told l vs -> told (DTuple l) (JArr vs)
| told_dict l vs : Forall2 (fun e x => fst e = fst x /\ told (snd e) (snd x)) l vs -> told (DDict l) (JObj vs).
(** The detail of the exception: a text of its own for none, a list of one for a single thing. *)
Inductive told_of : option detail -> jvalue -> Prop :=
| of_none : told_of None (JStr (u "Validation error."))
| of_empty d : In d [DList []; DTuple []; DDict []] -> told_of (Some d) (JStr (u "Validation error."))
| of_many d v : told d v -> (exists x l, d = DList (x :: l) \/ d = DTuple (x :: l)) \/ (exists e l, d = DDict (e :: l)) -> told_of (Some d) v
| of_one d v : told d v -> (exists s, d = DText s \/ d = DBytes s \/ d = DOther s) -> told_of (Some d) (JArr [v]).

(** ** Proofs *)
Fixpoint detail_ind' (P : detail -> Prop) (ft : forall s, P (DText s)) (fb : forall b, P (DBytes b)) (fo : forall w, P (DOther w))
  (fl : forall l, Forall P l -> P (DList l)) (fu : forall l, Forall P l -> P (DTuple l)) (fd : forall l, Forall (fun e => P (snd e)) l -> P (DDict l)) (d : detail) : P d :=
  let go := detail_ind' P ft fb fo fl fu fd in
  let all := fix all l : Forall P l := match l with [] => Forall_nil _ | x :: r => Forall_cons x (go x) (all r) end in
  match d with
  | DText s => ft s | DBytes b => fb b | DOther w => fo w
  | DList l => fl l (all l)
  | DTuple l => fu l (all l)
  | DDict l => fd l ((fix alle l : Forall (fun e => P (snd e)) l := match l with [] => Forall_nil _ | x :: r => Forall_cons x (go (snd x)) (alle r) end) l)
  end.
Definition all_details : list detail -> option (list jvalue) :=
  fix all l := match l with
               | [] => Some []
               | x :: r => match get_error_details x, all r with Some a, Some b => Some (a :: b) | _, _ => None end
               end.
Definition all_entries : list (str * detail) -> option (list (str * jvalue)) :=
  fix all l := match l with
               | [] => Some []
               | (k, x) :: r => match get_error_details x, all r with Some a, Some b => Some ((k, a) :: b) | _, _ => None end
               end.
Lemma all_told l : Forall (fun d => forall v, get_error_details d = Some v <-> told d v) l -> forall vs, all_details l = Some vs <-> Forall2 told l vs.
Proof.
  induction 1 as [|x l H F IH]; intros vs; cbn [all_details].
  - split; [intros E; injection E as <-; constructor | intros E; inversion E; reflexivity].
  - fold all_details. split.
    + destruct (get_error_details x) as [a|] eqn:A; [|discriminate]. destruct (all_details l) as [b|] eqn:B; [|discriminate]. intros E. injection E as <-.
      constructor; [apply H; reflexivity | apply IH; reflexivity].
    + intros E. inversion E as [|? y ? ys T TS]; subst. apply H in T. apply IH in TS. rewrite T, TS. reflexivity.
Qed.
Lemma entries_told l : Forall (fun e : str * detail => forall v, get_error_details (snd e) = Some v <-> told (snd e) v) l ->
  forall vs, all_entries l = Some vs <-> Forall2 (fun e x => fst e = fst x /\ told (snd e) (snd x)) l vs.
Proof.
  induction 1 as [|[k x] l H F IH]; intros vs; cbn [all_entries].
  - split; [intros E; injection E as <-; constructor | intros E; inversion E; reflexivity].
  - fold all_entries. cbn [snd] in H. split.
    + destruct (get_error_details x) as [a|] eqn:A; [|discriminate]. destruct (all_entries l) as [b|] eqn:B; [|discriminate]. intros E. injection E as <-.
      constructor; [split; [reflexivity | apply H; reflexivity] | apply IH; reflexivity].
    + intros E. inversion E as [|? [k' y] ? ys [K T] TS]; subst. cbn [fst snd] in *. subst k'. apply H in T. apply IH in TS. rewrite T, TS. reflexivity.
Qed.
Lemma told_iff d : forall v, get_error_details d = Some v <-> told d v.
Proof.
  induction d as [s|b|w|l F|l F|l F] using detail_ind'; intros v.
  - cbn. split; [intros E; injection E as <-; constructor | intros T; inversion T; reflexivity].
  - cbn [get_error_details force_str]. split.
    + destruct (utf8_strict b) as [t|] eqn:E; [|discriminate]. intros H. injection H as <-. apply strict_inv in E as (<- & E). constructor.
      apply Forall_forall. intros c I. rewrite E in I. exact (dec_scalar _ _ I).
    + intros T. inversion T; subst. rewrite JsonProofs.strict_enc by assumption. reflexivity.
  - cbn. split; [intros E; injection E as <-; constructor | intros T; inversion T; reflexivity].
  - change (get_error_details (DList l)) with (option_map JArr (all_details l)). assert (A := all_told l F). split.
    + destruct (all_details l) as [vs|]; [|discriminate]. intros E. injection E as <-. constructor. apply A. reflexivity.
    + intros T. inversion T as [| | |? vs T2| |]; subst. apply A in T2. rewrite T2. reflexivity.
  - change (get_error_details (DTuple l)) with (option_map JArr (all_details l)). assert (A := all_told l F). split.
    + destruct (all_details l) as [vs|]; [|discriminate]. intros E. injection E as <-. constructor. apply A. reflexivity.
    + intros T. inversion T as [| | | |? vs T2|]; subst. apply A in T2. rewrite T2. reflexivity.
  - change (get_error_details (DDict l)) with (option_map JObj (all_entries l)). assert (A := entries_told l F). split.
    + destruct (all_entries l) as [vs|]; [|discriminate]. intros E. injection E as <-. constructor. apply A. reflexivity.
    + intros T. inversion T as [| | | | |? vs T2]; subst. apply A in T2. rewrite T2. reflexivity.
Qed.
Lemma built v status headers response : construct ValidationError [] status v headers response =
  Some {| x_mro := k_mro ValidationError; x_status := or_status status (Some 400%Z); x_detail := if falsy v then JStr (u "Validation error.") else v; x_headers := headers; x_response := response |}.
Proof. unfold construct. cbn [k_detail k_status ValidationError]. destruct (falsy v) eqn:F; [reflexivity | rewrite F; reflexivity]. Qed.
Lemma value_told d v : told_of d v <-> exists w, told (detail_value d) w /\ v = (if falsy w then JStr (u "Validation error.") else w).
Proof.
  split.
  - intros T. destruct T as [|d I|d v T N|d v T N].
    + exists (JArr []). split; [repeat constructor | reflexivity].
    + destruct I as [<-|[<-|[<-|[]]]]; [exists (JArr []) | exists (JArr []) | exists (JObj [])]; (split; [repeat constructor | reflexivity]).
    + exists v. destruct N as [(x & l & [-> | ->])|(e & l & ->)]; inversion T as [| | |? vs T2|? vs T2|? vs T2]; subst; inversion T2; subst; (split; [constructor; exact T2 | reflexivity]).
    + exists (JArr [v]). destruct N as (s & [-> |[-> | ->]]); (split; [repeat constructor; exact T | reflexivity]).
  - intros (w & T & ->). destruct d as [d|]; [|inversion T as [| | |? vs T2| |]; subst; inversion T2; subst; constructor].
    destruct d as [s|b|o|l|l|l]; cbn [detail_value] in T.
    1-3: inversion T as [| | |? vs T2| |]; subst; inversion T2 as [|? y ? ys T3 T4]; subst; inversion T4; subst; cbn [falsy]; apply of_one; [exact T3 | eauto].
    + inversion T as [| | |? vs T2| |]; subst. destruct l as [|x l]; inversion T2; subst; cbn [falsy]; [apply of_empty; cbn; tauto|]. apply of_many; [constructor; exact T2 | eauto].
    + inversion T as [| | |? vs T2| |]; subst. destruct l as [|x l]; inversion T2; subst; cbn [falsy]; [apply of_empty; cbn; tauto|]. apply of_many; [constructor; exact T2 | eauto].
    + inversion T as [| | | | |? vs T2]; subst. destruct l as [|x l]; inversion T2; subst; cbn [falsy]; [apply of_empty; cbn; tauto|]. apply of_many; [constructor; exact T2 | eauto].
Qed.

(** * C387: what a validation error holds *)
(** It can be made exactly if its detail can be told; its status is 400 unless another is given. *)
Theorem C387_holds : forall d status headers response v,
  (exists x, validation_error d status headers response = Some x /\ x_detail x = v) <-> told_of d v.
Proof.
  intros d status headers response v. unfold validation_error. rewrite value_told. split.
  - intros (x & E & <-). destruct (get_error_details (detail_value d)) as [w|] eqn:G; [|discriminate E]. rewrite built in E. injection E as <-. cbn [x_detail].
    exists w. split; [apply told_iff; exact G | reflexivity].
  - intros (w & T & ->). apply told_iff in T. rewrite T, built. eexists. split; reflexivity.
Qed.
Print Assumptions C387_holds.
Theorem C387_rest : forall d status headers response x, validation_error d status headers response = Some x ->
  (status = None \/ status = Some 0%Z -> x_status x = 400%Z) /\ (forall z, status = Some z -> z <> 0%Z -> x_status x = z) /\
  x_headers x = headers /\ x_response x = response /\ In cHTTP (x_mro x).
Proof.
  intros d status headers response x E. unfold validation_error in E. destruct (get_error_details (detail_value d)) as [w|]; [|discriminate E]. rewrite built in E. injection E as <-.
  cbn [x_status x_headers x_response x_mro]. refine (conj _ (conj _ (conj eq_refl (conj eq_refl _)))).
  - intros [-> | ->]; reflexivity.
  - intros z -> N. cbn [or_status]. destruct (Z.eqb_spec z 0) as [E|_]; [contradiction | reflexivity].
  - right. left. reflexivity.
Qed.
Print Assumptions C387_rest.
Definition some_detail : detail := DDict [(u "name", DTuple [DText (u "is empty"); DOther (u "None")]); (u "age", DBytes (u "too low"))].
Example C387_case : told_of (Some some_detail) (JObj [(u "name", JArr [JStr (u "is empty"); JStr (u "None")]); (u "age", JStr (u "too low"))]) /\
  told_of (Some (DText (u "no"))) (JArr [JStr (u "no")]) /\ validation_error (Some (DBytes [255%N])) None None None = None.
Proof.
  refine (conj _ (conj _ _)).
  - apply (C387_holds _ None None None). eexists. vm_compute. split; reflexivity.
  - apply (C387_holds _ None None None). eexists. vm_compute. split; reflexivity.
  - vm_compute. reflexivity.
Qed.

(** An order of sets. *)
Definition order0 : list str -> list str := nodup (list_eq_dec N.eq_dec).
Lemma order0_ok : set_order order0.
Proof. intros l. split; [apply NoDup_nodup | intros x; apply nodup_In]. Qed.

(** * C388: a validation error is answered *)
Definition C388_statement : Prop := forall order d status headers x, set_order order -> validation_error d status headers None = Some x -> default_response order x <> None.
Theorem C388_refuted : ~ C388_statement.
Proof.
  intros H. apply (H order0 (Some (DText (u "no"))) None None _ order0_ok eq_refl). vm_compute. reflexivity.
Qed.
Print Assumptions C388_refuted.
(** By default exactly those without a detail, or with a response of their own, or with a status without body are. *)
Theorem C388_partial : forall order d status headers response x, validation_error d status headers response = Some x ->
  (default_response order x <> None <-> In d [None; Some (DList []); Some (DTuple []); Some (DDict [])] \/ response <> None \/ In status [Some 204%Z; Some 304%Z]).
Proof.
  intros order d status headers response x E. assert (T : told_of d (x_detail x)) by (apply (C387_holds d status headers response); eauto).
  destruct (C387_rest _ _ _ _ _ E) as (S1 & S2 & _ & R & _). unfold default_response. rewrite R. destruct response as [ms|]; [split; [right; left; discriminate | discriminate]|].
  assert (SB : Z.eqb (x_status x) 204 || Z.eqb (x_status x) 304 = true <-> In status [Some 204%Z; Some 304%Z]).
  { rewrite orb_true_iff, !Z.eqb_eq. cbn [In]. destruct status as [z|].
    - destruct (Z.eq_dec z 0) as [-> |N]; [rewrite S1 by auto; split; [lia|]; intros [Q|[Q|[]]]; discriminate Q|]. rewrite (S2 z eq_refl N).
      split; [intros [-> | ->]; auto | intros [Q|[Q|[]]]; injection Q as <-; auto].
    - rewrite S1 by auto. split; [lia|]. intros [Q|[Q|[]]]; discriminate Q. }
  destruct (Z.eqb (x_status x) 204 || Z.eqb (x_status x) 304) eqn:B.
  - split; [intros _; right; right; apply SB; reflexivity | discriminate].
  - assert (NS : ~ In status [Some 204%Z; Some 304%Z]) by (intros Q; apply SB in Q; discriminate Q). clear SB.
    inversion T as [D V|d' I D V|d' v T2 N D V|d' v T2 N D V]; subst.
    + split; [left; left; reflexivity|]. intros _. vm_compute. discriminate.
    + split; [intros _; left; cbn [In] in I |- *; destruct I as [<-|[<-|[<-|[]]]]; tauto|]. intros _. vm_compute. discriminate.
    + split; [|intros [I|[I|I]]; [|congruence|contradiction]].
      * intros Q. exfalso. apply Q. destruct N as [(y & l & [-> | ->])|(e & l & ->)]; inversion T2 as [| | |? vs T3|? vs T3|? vs T3]; subst; inversion T3; subst; reflexivity.
      * exfalso. destruct N as [(y & l & [-> | ->])|(e & l & ->)]; cbn [In] in I; intuition discriminate.
    + split; [|intros [I|[I|I]]; [|congruence|contradiction]].
      * intros Q. exfalso. apply Q. reflexivity.
      * exfalso. destruct N as (s & [-> |[-> | ->]]); cbn [In] in I; intuition discriminate.
Qed.
Print Assumptions C388_partial.
Example C388_case : exists x, validation_error None None None None = Some x /\ default_response (fun l => l) x =
  Some [AStart 400 [(u "content-length", u "17"); (u "content-type", u "text/plain; charset=utf-8")]; ABody (u "Validation error.") false].
Proof. eexists. split; vm_compute; reflexivity. Qed.

(** * C389: with global interception a validation error is answered with what it holds *)
(** Texts of characters that have an encoding, and dicts, which have each key once. *)
Inductive plain : detail -> Prop :=
| plain_text s : Forall scalar s -> plain (DText s)
| plain_bytes b : plain (DBytes b)
| plain_other w : Forall scalar w -> plain (DOther w)
| plain_list l : Forall plain l -> plain (DList l)
| plain_tuple l : Forall plain l -> plain (DTuple l)
| plain_dict l : NoDup (map fst l) -> Forall (fun e => Forall scalar (fst e) /\ plain (snd e)) l -> plain (DDict l).
Lemma text_sayable s : Forall scalar s -> sayable (JStr s).
Proof. intros S. rewrite Forall_forall in S. split; intros c I; destruct (S c I); lia. Qed.
Lemma list_sayable vs : Forall sayable vs -> sayable (JArr vs).
Proof.
  intros F. split; cbn [proper presentable].
  - induction F as [|v vs (A & B) F IH]; cbn [map fold_right]; [exact Logic.I | split; [exact A | exact IH]].
  - induction F as [|v vs (A & B) F IH]; cbn [map fold_right]; [exact Logic.I | split; [exact B | exact IH]].
Qed.
Lemma dict_sayable (vs : list (str * jvalue)) : NoDup (map fst vs) -> Forall (fun e => Forall scalar (fst e) /\ sayable (snd e)) vs -> sayable (JObj vs).
Proof.
  intros N F. split; cbn [proper presentable].
  - split; [exact N|]. clear N. induction F as [|v vs (S & A & B) F IH]; cbn [map fold_right]; [exact Logic.I|]. split; [|exact IH].
    destruct (text_sayable _ S) as (P & _). split; [exact P | exact A].
  - clear N. induction F as [|v vs (S & A & B) F IH]; cbn [map fold_right]; [exact Logic.I|]. split; [|exact IH].
    destruct (text_sayable _ S) as (_ & P). split; [exact P | exact B].
Qed.
Lemma through {A B} (R : A -> B -> Prop) (P Q : A -> Prop) (S : B -> Prop) l vs : Forall2 R l vs -> Forall P l -> Forall Q l -> (forall x y, R x y -> P x -> Q x -> S y) -> Forall S vs.
Proof. intros T. induction T as [|x y l vs A0 T IH]; intros FP FQ H; constructor; inversion FP; inversion FQ; subst; eauto. Qed.
Lemma told_sayable d : plain d -> forall v, told d v -> sayable v.
Proof.
  induction d as [s|b|w|l F|l F|l F] using detail_ind'; intros P v T; inversion T as [| t S | |? vs T2|? vs T2|? vs T2]; subst; inversion P as [| | |? PL|? PL|? ND PL]; subst; try (apply text_sayable; assumption).
  - apply list_sayable. apply (through _ _ _ _ _ _ T2 F PL). auto.
  - apply list_sayable. apply (through _ _ _ _ _ _ T2 F PL). auto.
  - apply dict_sayable.
    + replace (map fst vs) with (map fst l); [assumption|]. clear - T2. induction T2 as [|x y l vs (A & _) B IH]; cbn [map]; [reflexivity | rewrite A, IH; reflexivity].
    + apply (through _ _ _ _ _ _ T2 F PL). intros x y (E & T1) H (S & PX). cbv beta. split; [exact (eq_ind _ (fun z => Forall scalar z) S _ E) | auto].
Qed.
Theorem C389_answer : forall order d status headers x, set_order order -> (forall e, d = Some e -> plain e) -> validation_error d status headers None = Some x ->
  exists h b v, told_of d v /\ create_exception_response order (Http (x_status x) (x_detail x) [] headers) = Some [AStart (x_status x) h; ABody b false] /\
    request_json b = Some (JObj [(u "status_code", JInt (x_status x)); (u "detail", v)]).
Proof.
  intros order d status headers x O P E. assert (T : told_of d (x_detail x)) by (apply (C387_holds d status headers None); eauto).
  destruct (C387_rest _ _ _ _ _ E) as (S1 & S2 & _).
  assert (NZ : x_status x <> 0%Z).
  { destruct status as [z|]; [destruct (Z.eq_dec z 0) as [-> |N]; [rewrite S1 by auto; discriminate | rewrite (S2 z eq_refl N); exact N] | rewrite S1 by auto; discriminate]. }
  assert (SD : sayable (x_detail x) /\ x_detail x <> JNull).
  { assert (SV : sayable (JStr (u "Validation error."))) by (apply text_sayable, Forall_forall; intros c I; vm_compute in I; unfold scalar; lia).
    inversion T as [D V|d' I D V|d' v T2 N D V|d' v T2 N D V]; subst.
    - split; [exact SV | discriminate].
    - split; [exact SV | discriminate].
    - split; [exact (told_sayable _ (P _ eq_refl) _ T2)|]. destruct T2; discriminate.
    - split; [|discriminate]. apply list_sayable. repeat constructor; apply (told_sayable _ (P _ eq_refl) _ T2). }
  destruct SD as (SD & NN).
  destruct (C372_answer order _ _ _ O (rep_detail (x_status x) (x_detail x) headers NN)) as (h & b & A & B & _).
  { split; [exact SD | split; [split; [constructor | exact Logic.I] | exact Logic.I]]. }
  destruct (Z.eqb_spec (x_status x) 0) as [Q|_]; [contradiction|]. exists h, b, (x_detail x). auto.
Qed.
Print Assumptions C389_answer.
Example C389_case : plain some_detail /\ exists x, validation_error (Some some_detail) (Some 422%Z) None None = Some x /\ x_status x = 422%Z.
Proof.
  split; [|eexists; split; vm_compute; reflexivity].
  assert (A : forall s, forallb (fun c => (c <? 128)%N) s = true -> Forall scalar s).
  { intros s F. apply Forall_forall. intros c I. rewrite forallb_forall in F. specialize (F c I). apply N.ltb_lt in F. unfold scalar. lia. }
  constructor; [cbn; repeat constructor; cbn; intuition discriminate|].
  constructor; [split; [apply A; reflexivity | constructor; repeat constructor; apply A; reflexivity]|].
  constructor; [split; [apply A; reflexivity | constructor] | constructor].
Qed.
