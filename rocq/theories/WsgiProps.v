(** C273 - C276: WSGI applications. *)
From Verif Require Import PyStr PyStrFacts Asgi ExcModel ExcSpec ExcProofs WsgiModel WsgiSpec.
Open Scope Z_scope.

Lemma first_start_some ms z : first_start ms = Some z <-> has_status ms z.
Proof.
  split.
  - induction ms as [|m ms IH]; [discriminate|]. destruct m as [st h|b more]; cbn.
    + intros [= ->]. exists [], h, ms. split; [reflexivity|]. intros st h' [].
    + intros E. destruct (IH E) as (p & h & q & -> & F). exists (ABody b more :: p), h, q. split; [reflexivity|].
      intros st h' [D|I]; [discriminate D|exact (F _ _ I)].
  - intros (p & h & q & -> & F). induction p as [|m p IH]; [reflexivity|]. destruct m as [st h'|b more]; cbn.
    + destruct (F st h' (or_introl eq_refl)).
    + apply IH. intros st h' I. exact (F st h' (or_intror I)).
Qed.
Lemma key_eqb_eq a b : key_eqb a b = true <-> a = b.
Proof.
  destruct a, b; cbn; split; intros E; try discriminate.
  - now apply Z.eqb_eq in E as ->.
  - injection E as ->. apply Z.eqb_refl.
  - now apply Nat.eqb_eq in E as ->.
  - injection E as ->. apply Nat.eqb_refl.
Qed.
Lemma aget_in k (t : table) n : NoDup (map fst t) -> In (k, n) t -> aget key_eqb k t = Some n.
Proof.
  induction t as [|[k' v] t IH]; [intros _ []|]. intros ND I. cbn. inversion ND as [|x y NI ND']; subst.
  destruct I as [E|I].
  - injection E as -> -> . now rewrite (proj2 (key_eqb_eq k k) eq_refl).
  - destruct (key_eqb k k') eqn:E; [|now apply IH]. apply key_eqb_eq in E as <-. destruct NI.
    apply in_map_iff. now exists (k, n).
Qed.
Lemma aget_none k (t : table) : (forall n, ~ In (k, n) t) -> aget key_eqb k t = None.
Proof.
  induction t as [|[k' v] t IH]; [reflexivity|]. intros F. cbn. destruct (key_eqb k k') eqn:E.
  - apply key_eqb_eq in E as <-. destruct (F v). now left.
  - apply IH. intros n I. apply (F n). now right.
Qed.

(** *** C273: an answer that no handler takes goes out whole and in order *)
Theorem C273_no_error en make app redirect ms : ~ is_error ms -> wsgi en redirect make app (ms, None) = (ms, None).
Proof.
  intros NE. destruct redirect; [|reflexivity]. cbn. destruct (first_start ms) as [z|] eqn:E; [|reflexivity].
  destruct (z >=? 400) eqn:G; [|reflexivity]. destruct NE. exists z. split; [now apply first_start_some|]. lia.
Qed.
Theorem C273_no_handler en make t c redirect ms : makes make c -> (forall n, ~ In (KClass c, n) t) ->
  wsgi en redirect make (Some t) (ms, None) = (ms, None).
Proof.
  intros M F. destruct redirect; [|reflexivity]. cbn. destruct (first_start ms) as [z|]; [|reflexivity].
  destruct (z >=? 400); [|reflexivity]. destruct (M z (abytes ms)) as (r & E). unfold e_class. rewrite E. cbn [hd].
  now rewrite (aget_none _ _ F).
Qed.
Theorem C273_plain en make app r : wsgi en false make app r = r.
Proof. reflexivity. Qed.
(** Nothing of the answer is mixed with the one of a handler. *)
Theorem C273_one_of_two en make t c ms : makes make c -> NoDup (map fst t) ->
  wsgi en true make (Some t) (ms, None) = (ms, None) \/
  is_error ms /\ exists n z, In (KClass c, n) t /\ has_status ms z /\
    (wsgi en true make (Some t) (ms, None) = handled_by en n (make z (abytes ms)) \/
     coroutine en n = false /\ wsgi en true make (Some t) (ms, None) = ([], Some (py_error en))).
Proof.
  intros M ND. cbn. destruct (first_start ms) as [z|] eqn:E; [|now left]. apply first_start_some in E.
  destruct (z >=? 400) eqn:G; [|now left]. destruct (M z (abytes ms)) as (r & Er). unfold e_class. rewrite Er. cbn [hd].
  destruct (aget key_eqb (KClass c) t) as [n|] eqn:A; [|now left]. right. split; [exists z; split; [exact E|lia]|].
  exists n, z. assert (In (KClass c, n) t) as I.
  { clear - A. induction t as [|[k v] t IH]; [discriminate|]. cbn [aget] in A. destruct (key_eqb (KClass c) k) eqn:K.
    - apply key_eqb_eq in K as <-. injection A as ->. now left.
    - right. auto. }
  refine (conj I (conj E _)). unfold handled_by. destruct (acts en n (make z (abytes ms))) as [ms' o|e']; [|now left].
  destruct (coroutine en n) eqn:Co; [now left|]. right. auto.
Qed.
Print Assumptions C273_no_error.
Print Assumptions C273_no_handler.
Print Assumptions C273_plain.
Print Assumptions C273_one_of_two.
Definition demo : env :=
  {| acts := fun n _ => Gives [AStart 418 []; ABody (u "tea") false] None; coroutine := fun n => Nat.eqb n 7; heads := fun _ => []; shown := e_text;
     py_error := {| e_id := 9; e_mro := [3; 0]%nat; e_status := NoAttr; e_text := u "TypeError"; e_response := None |} |}.
(** [HTTPException], and a class of the user, number 5, that inherits from it. *)
Definition http_exc (z : Z) (b : str) : exc := {| e_id := 1; e_mro := [1; 0]%nat; e_status := Has z; e_text := b; e_response := None |}.
Definition own_exc (z : Z) (b : str) : exc := {| e_id := 1; e_mro := [5; 1; 0]%nat; e_status := Has z; e_text := b; e_response := None |}.
Definition forbidden : list amsg := [AStart 403 []; ABody (u "no") true; ABody [] false].
Example C273_case : makes http_exc 1 /\ is_error forbidden /\ NoDup (map fst [(KClass 1, 7%nat)]) /\
  ~ is_error [AStart 200 []; ABody (u "hi") false] /\ (forall n, ~ In (KClass 1, n) [(KClass 5, 7%nat)]) /\
  wsgi demo true http_exc (Some [(KClass 5, 7%nat)]) (forbidden, None) = (forbidden, None).
Proof.
  refine (conj _ (conj _ (conj _ (conj _ (conj _ _))))).
  - intros z b. now exists [0%nat].
  - exists 403. split; [|lia]. exists [], [], [ABody (u "no") true; ABody [] false]. split; [reflexivity|]. now intros st h [].
  - repeat constructor. now intros [].
  - intros (z & H & L). apply first_start_some in H. cbn in H. injection H as <-. lia.
  - intros n [E|[]]. discriminate E.
  - reflexivity.
Qed.

(** *** C274: an error goes to the handler the application has for it *)
Definition C274_statement : Prop := forall en make t ms z n, NoDup (map fst t) -> has_status ms z -> 400 <= z ->
  chosen t (make z (abytes ms)) (User n) ->
  wsgi en true make (Some t) (ms, None) = handled_by en n (make z (abytes ms)).
Theorem C274_refuted : ~ C274_statement.
Proof.
  intros S. specialize (S demo own_exc [(KClass 1, 7%nat)] forbidden 403 7%nat).
  assert (has_status forbidden 403) as H.
  { exists [], [], [ABody (u "no") true; ABody [] false]. split; [reflexivity|]. now intros st h []. }
  assert (chosen [(KClass 1, 7%nat)] (own_exc 403 (abytes forbidden)) (User 7)) as C.
  { eapply (ch_class _ _ [5%nat] 1%nat [0%nat]).
    - intros n (_ & z & _ & [E|[]]). discriminate E.
    - reflexivity.
    - intros c' h' [<-|[]] D. inversion D as [n I| |]; [destruct I as [E|[]]; discriminate E|discriminate|discriminate].
    - apply hc_user. now left. }
  specialize (S (proj1 (proj2 (proj2 C273_case))) H ltac:(lia) C). vm_compute in S. discriminate S.
Qed.
(** A handler for a class the exception inherits from is passed over, whatever it is; the error of the WSGI
    application goes out. *)
Theorem C274_parent_refuted en make t ms c : makes make c -> (forall n, ~ In (KClass c, n) t) ->
  wsgi en true make (Some t) (ms, None) = (ms, None).
Proof. exact (fun M F => C273_no_handler en make t c true ms M F). Qed.
(** A handler for the status is passed over too. *)
Theorem C274_status_refuted en z ms n : wsgi en true http_exc (Some [(KStatus z, n)]) (ms, None) = (ms, None).
Proof.
  apply (C273_no_handler en http_exc _ 1%nat true ms).
  - intros z' b. now exists [0%nat].
  - intros m [E|[]]. discriminate E.
Qed.
(** A handler that is a plain function ends in a TypeError. *)
Theorem C274_plain_refuted en make t ms z n c ms' o : makes make c -> NoDup (map fst t) -> has_status ms z -> 400 <= z ->
  In (KClass c, n) t -> acts en n (make z (abytes ms)) = Gives ms' o -> coroutine en n = false ->
  wsgi en true make (Some t) (ms, None) = ([], Some (py_error en)).
Proof.
  intros M ND H L I A Co. cbn. rewrite (proj2 (first_start_some ms z) H). destruct (z >=? 400) eqn:G; [|lia].
  destruct (M z (abytes ms)) as (r & E). unfold e_class. rewrite E. cbn [hd].
  rewrite (aget_in _ _ _ ND I), A, Co. reflexivity.
Qed.
Theorem C274_exact_partial en make t ms z n c : makes make c -> NoDup (map fst t) -> has_status ms z -> 400 <= z ->
  In (KClass c, n) t -> coroutine en n = true ->
  wsgi en true make (Some t) (ms, None) = handled_by en n (make z (abytes ms)).
Proof.
  intros M ND H L I Co. cbn. rewrite (proj2 (first_start_some ms z) H). destruct (z >=? 400) eqn:G; [|lia].
  destruct (M z (abytes ms)) as (r & E). unfold e_class. rewrite E. cbn [hd].
  rewrite (aget_in _ _ _ ND I), Co. unfold handled_by. now destruct (acts en n (make z (abytes ms))).
Qed.
Print Assumptions C274_refuted.
Print Assumptions C274_parent_refuted.
Print Assumptions C274_status_refuted.
Print Assumptions C274_plain_refuted.
Print Assumptions C274_exact_partial.
Example C274_case : wsgi demo true http_exc (Some [(KClass 1, 7%nat)]) (forbidden, None) = ([AStart 418 []; ABody (u "tea") false], None) /\
  wsgi demo true http_exc (Some [(KClass 1, 6%nat)]) (forbidden, None) = ([], Some (py_error demo)).
Proof. split; reflexivity. Qed.

(** *** C275: an exception of a buffered WSGI application leaves nothing sent *)
Theorem C275_nothing_sent en make app ms e : wsgi en true make app (ms, Some e) = ([], Some e).
Proof. reflexivity. Qed.
(** The application around it can therefore still answer with its handler, however far the WSGI application had got. *)
Theorem C275_answered en make app ms e t n ms' : NoDup (map fst t) ->
  chosen t e (User n) -> acts en n e = Gives ms' None ->
  exception_middleware en t (wsgi en true make app (ms, Some e)) = (ms', None).
Proof. intros ND C A. apply (lookup_chosen t e _ ND) in C. cbn. rewrite C. cbn. now rewrite A. Qed.
(** Without buffering it cannot, once the answer has begun. *)
Theorem C275_unbuffered en make app ms e t : (exists z, has_status ms z) ->
  exception_middleware en t (wsgi en false make app (ms, Some e)) = (ms, Some e).
Proof.
  intros (z & p & h & q & -> & F). cbn. destruct (lookup (tables t) e); [|reflexivity].
  assert (started (p ++ AStart z h :: q) = true) as ->; [|reflexivity].
  apply existsb_exists. exists (AStart z h). split; [apply in_elt|reflexivity].
Qed.
Print Assumptions C275_nothing_sent.
Print Assumptions C275_answered.
Print Assumptions C275_unbuffered.
Definition boom : exc := {| e_id := 4; e_mro := [6; 0]%nat; e_status := NoAttr; e_text := u "boom"; e_response := None |}.
Example C275_case : chosen [(KClass 6, 7%nat)] boom (User 7) /\
  exception_middleware demo [(KClass 6, 7%nat)] (wsgi demo true http_exc None ([AStart 200 []; ABody (u "x") true], Some boom))
  = ([AStart 418 []; ABody (u "tea") false], None).
Proof. split; [|reflexivity]. apply lookup_chosen; [repeat constructor; now intros []|reflexivity]. Qed.

(** *** C276: redirection turns what a WSGI application raises into the exception class *)
Definition C276_statement : Prop := forall en make t c ms e n, makes make c -> NoDup (map fst t) -> In (KClass c, n) t -> coroutine en n = true ->
  exists z b, wsgi en true make (Some t) (ms, Some e) = handled_by en n (make z b).
Theorem C276_refuted : ~ C276_statement.
Proof.
  intros S. specialize (S demo http_exc [(KClass 1, 7%nat)] 1%nat [] boom 7%nat (proj1 C273_case) (proj1 (proj2 (proj2 C273_case))) (or_introl eq_refl) eq_refl).
  destruct S as (z & b & S). vm_compute in S. discriminate S.
Qed.
Theorem C276_kept_partial en redirect make app ms e : snd (wsgi en redirect make app (ms, Some e)) = Some e.
Proof. now destruct redirect. Qed.
(** Without an application in the scope an error answer becomes an AttributeError. *)
Theorem C276_no_app_refuted en make ms : is_error ms -> wsgi en true make None (ms, None) = ([], Some (py_error en)).
Proof.
  intros (z & H & L). cbn. rewrite (proj2 (first_start_some ms z) H). destruct (z >=? 400) eqn:G; [reflexivity|lia].
Qed.
Print Assumptions C276_refuted.
Print Assumptions C276_kept_partial.
Print Assumptions C276_no_app_refuted.
Example C276_case : wsgi demo true http_exc None (forbidden, None) = ([], Some (py_error demo)).
Proof. reflexivity. Qed.
