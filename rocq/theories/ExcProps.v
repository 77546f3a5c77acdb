(** C32, C63, C64: exception handlers. *)
From Verif Require Import PyStr Asgi ExcModel ExcSpec ExcProofs.
From Coq Require Import Lia.

(** C32. [ExceptionMiddleware] around any application and with any table of handlers: once the
    response has started, or without a handler for the exception, the messages are those of the
    application and the exception propagates; otherwise the chosen handler's response follows. *)
Theorem C32_middleware : forall en t ms e, NoDup (map fst t) ->
  (has_started ms \/ (forall h, ~ chosen t e h) -> exception_middleware en t (ms, Some e) = (ms, Some e)) /\
  (forall h, ~ has_started ms -> chosen t e h ->
     exception_middleware en t (ms, Some e) = match act en h e with Gives ms' o => (ms ++ ms', o) | Raises e' => (ms, Some e') end).
Proof.
  intros en t ms e N. cbn [exception_middleware]. split.
  - intros [S|S].
    + apply started_iff in S. rewrite S. destruct (lookup (tables t) e); reflexivity.
    + apply (lookup_none t e N) in S. rewrite S. reflexivity.
  - intros h S C. apply (lookup_chosen t e h N) in C. rewrite C. destruct (started ms) eqn:E; [apply started_iff in E; contradiction | reflexivity].
Qed.
Print Assumptions C32_middleware.

(** The choice is unique. *)
Theorem C32_unique : forall t e h h', NoDup (map fst t) -> chosen t e h -> chosen t e h' -> h = h'.
Proof. intros t e h h' N A B. apply (lookup_chosen t e _ N) in A, B. congruence. Qed.
Print Assumptions C32_unique.

(** The wrapper around endpoint functions chooses the same, and sends nothing of a handler once the
    response has started. *)
Theorem C32_endpoint : forall en t eh ms e, NoDup (map fst t) ->
  (has_started ms -> exists e', endpoint_wrapper en t eh (ms, Some e) = (ms, Some e')) /\
  (~ has_started ms -> (forall h, ~ chosen t e h) -> endpoint_wrapper en t eh (ms, Some e) = (ms, Some e)) /\
  (forall h, ~ has_started ms -> chosen t e h ->
     endpoint_wrapper en t eh (ms, Some e) = match act en h e with Gives ms' o => (ms ++ ms', o) | Raises e' => (ms, Some e') end).
Proof.
  intros en t eh ms e N. cbn [endpoint_wrapper]. split; [|split].
  - intros S. apply started_iff in S. rewrite S. destruct (lookup (tables t) e) as [h|]; [destruct (act en h e); eexists; reflexivity|].
    destruct eh as [n|]; [destruct (acts en n e); eexists; reflexivity | eexists; reflexivity].
  - intros S C. apply (lookup_none t e N) in C. rewrite C. destruct (started ms) eqn:E; [apply started_iff in E; contradiction | reflexivity].
  - intros h S C. apply (lookup_chosen t e h N) in C. rewrite C. destruct (started ms) eqn:E; [apply started_iff in E; contradiction | reflexivity].
Qed.
Print Assumptions C32_endpoint.

(** Full statement for an application: the client gets the response of the user's handler and no
    error reaches the server. *)
Definition C32_application_statement : Prop := forall en debug intercept wrapped t e n ms,
  NoDup (map fst t) -> chosen t e (User n) -> acts en n e = Gives ms None ->
  application en debug intercept wrapped t [] ([], Some e) = (ms, None).
(** False for the status 500: an http exception with it gets the default response. *)
Definition err (id : nat) (mro : list nat) (s : sattr) : exc := {| e_id := id; e_mro := mro; e_status := s; e_text := u "Oops"; e_response := None |}.
Definition plain : env :=
  {| acts := fun n e => Gives [AStart (Z.of_nat n) []; ABody (u "handled") false] None; coroutine := fun _ => false;
     heads := fun _ => []; shown := fun _ => u "Internal Server Error"; py_error := err 99 [7; cException] NoAttr |}.
Theorem C32_application_refuted : ~ C32_application_statement.
Proof.
  intros H. specialize (H plain false false true [(KStatus 500, 418)] (err 1 [cHTTP; cException] (Has 500)) 418 [AStart 418 []; ABody (u "handled") false]).
  assert (X : NoDup (map fst [(KStatus 500, 418)])) by (cbn [map fst]; constructor; [intros [] | constructor]).
  assert (Y : chosen [(KStatus 500, 418)] (err 1 [cHTTP; cException] (Has 500)) (User 418)).
  { apply ch_status. split; [left; reflexivity|]. exists 500%Z. split; [apply so_number; [reflexivity | discriminate] | left; reflexivity]. }
  specialize (H X Y eq_refl). vm_compute in H. discriminate H.
Qed.
Print Assumptions C32_application_refuted.
(** It holds when no handler is registered for 500 or Exception, for functions and controllers. *)
Theorem C32_application_partial : forall en debug intercept wrapped t e n ms,
  NoDup (map fst t) -> ~ In (KStatus 500) (map fst t) -> ~ In (KClass cException) (map fst t) ->
  chosen t e (User n) -> acts en n e = Gives ms None ->
  application en debug intercept wrapped t [] ([], Some e) = (ms, None).
Proof.
  intros en debug intercept wrapped t e n ms N A B C E. unfold application. destruct (other_same t A B) as (-> & ->). cbn [fold_left].
  assert (NS : ~ has_started []) by (intros (? & ? & [])).
  destruct wrapped.
  - destruct (C32_endpoint en t None [] e N) as (_ & _ & X). rewrite (X (User n) NS C). cbn [act]. rewrite E. cbn [app exception_middleware]. destruct intercept; reflexivity.
  - destruct (C32_middleware en t [] e N) as (_ & X). rewrite (X (User n) NS C). cbn [act]. rewrite E. cbn [app]. destruct intercept; reflexivity.
Qed.
Print Assumptions C32_application_partial.
(** An exception of class 5 < 4 < Exception, with handlers for 4 and for the status 404: the class in
    the middle is found; an http exception of that class goes by its status. *)
Example C32_case : let t := [(KClass 4, 1); (KStatus 404, 2)] in
  chosen t (err 1 [5; 4; cException] NoAttr) (User 1) /\ chosen t (err 2 [4; cHTTP; cException] (Has 404)) (User 2) /\
  chosen t (err 3 [3; cHTTP; cException] (Has 403)) HttpDefault /\
  exception_middleware plain t ([AStart 200 []], Some (err 1 [5; 4; cException] NoAttr)) = ([AStart 200 []], Some (err 1 [5; 4; cException] NoAttr)) /\
  fst (application plain false false true t [] ([], Some (err 1 [5; 4; cException] NoAttr))) = [AStart 1 []; ABody (u "handled") false].
Proof.
  assert (N : NoDup (map fst [(KClass 4, 1); (KStatus 404, 2)])) by (cbn [map fst]; constructor; [intros [X|[]]; discriminate X | constructor; [intros [] | constructor]]).
  split; [|split; [|split; [|split]]]; try (apply (lookup_chosen _ _ _ N)); vm_compute; reflexivity.
Qed.

(** C63. Full statement: the handler that a path registers for the class of the exception answers
    before those of the application. *)
Definition C63_statement : Prop := forall en wrapped t rt e n ms,
  NoDup (map fst t) -> NoDup (map fst rt) -> In (KClass (e_class e), n) rt -> (forall z m, ~ In (KStatus z, m) rt) ->
  coroutine en n = false -> acts en n e = Gives ms None ->
  application en false false wrapped t [rt] ([], Some e) = (ms, None).
(** False for endpoint functions: their wrapper asks the application's handlers first, which have one
    for every http exception. *)
Theorem C63_refuted : ~ C63_statement.
Proof.
  intros H. specialize (H plain true [] [(KClass 4, 418)] (err 1 [4; cHTTP; cException] (Has 404)) 418 [AStart 418 []; ABody (u "handled") false]).
  assert (X : NoDup (map fst [(KClass 4, 418)])) by (cbn [map fst]; constructor; [intros [] | constructor]).
  specialize (H (NoDup_nil _) X (or_introl eq_refl)). assert (Y : forall z m, ~ In (KStatus z, m) [(KClass 4, 418)]) by (intros z m [Y|[]]; discriminate Y).
  specialize (H Y eq_refl eq_refl). vm_compute in H. discriminate H.
Qed.
Print Assumptions C63_refuted.
(** It holds for controllers, and for functions when the application has no handler for the
    exception, with any number of includes outside. *)
Theorem C63_nearest_partial : forall en debug intercept wrapped t rt outer e n ms,
  NoDup (map fst t) -> NoDup (map fst rt) -> In (KClass (e_class e), n) rt -> (forall z m, ~ In (KStatus z, m) rt) ->
  coroutine en n = false -> acts en n e = Gives ms None ->
  wrapped = false \/ (forall h, ~ chosen (other_handlers t) e h) ->
  application en debug intercept wrapped t (rt :: outer) ([], Some e) = (ms, None).
Proof.
  intros en debug intercept wrapped t rt outer e n ms N NR I NS CO E W. unfold application.
  assert (R1 : (if wrapped then endpoint_wrapper en (other_handlers t) (error_handler t) ([], Some e) else ([], Some e)) = ([], Some e)).
  { destruct wrapped; [|reflexivity]. destruct W as [W|W]; [discriminate|]. destruct (C32_endpoint en (other_handlers t) (error_handler t) [] e (other_nodup t N)) as (_ & X & _). apply X; [intros (? & ? & []) | exact W]. }
  rewrite R1. cbn [fold_left]. cbn [route_handlers].
  assert (K : forall z, aget key_eqb (KStatus z) rt = None) by (intros z; destruct (aget key_eqb (KStatus z) rt) as [m|] eqn:A; [apply aget_In in A; exfalso; apply (NS z m A) | reflexivity]).
  rewrite (aget_of_In _ _ _ NR I).
  assert (R2 : (match e_status e with NoAttr => aget key_eqb (KStatus 500) rt | HasNone => None | Has z => aget key_eqb (KStatus z) rt end) = None) by (destruct (e_status e); rewrite ?K; reflexivity).
  rewrite R2, CO, E. cbn [respond app].
  assert (R3 : fold_left (fun r rt => route_handlers en rt r) outer (ms, None) = (ms, None)) by (induction outer as [|o outer IH]; [reflexivity | exact IH]).
  rewrite R3. cbn [exception_middleware]. destruct intercept; reflexivity.
Qed.
Print Assumptions C63_nearest_partial.
Example C63_case : application plain false false false [(KClass 4, 1)] [[(KClass 4, 2)]; [(KClass 4, 3)]] ([], Some (err 1 [4; cHTTP; cException] (Has 404))) = ([AStart 2 []; ABody (u "handled") false], None).
Proof. vm_compute. reflexivity. Qed.

(** C64. Full statement: whatever is raised and whenever, the client gets at most one response. *)
Definition C64_statement : Prop := forall en debug intercept wrapped t routes ms o,
  sober en -> one_response ms -> (forall e, o = Some e -> fits e) ->
  one_response (fst (application en debug intercept wrapped t routes (ms, o))).
(** False with handlers on a path or include: they answer although the response has started. *)
Lemma plain_sober : sober plain.
Proof. split; [intros n e _; split; [unfold one_response, starts; cbn; lia | discriminate] | exact I]. Qed.
Theorem C64_refuted : ~ C64_statement.
Proof.
  intros H. specialize (H plain false false true [] [[(KClass 4, 418)]] [AStart 200 []] (Some (err 1 [4; cException] NoAttr)) plain_sober).
  assert (X : one_response [AStart 200 []]) by (unfold one_response, starts; cbn; lia).
  assert (Y : forall e, Some (err 1 [4; cException] NoAttr) = Some e -> fits e) by (intros e E; injection E as <-; exact I).
  specialize (H X Y). unfold one_response in H. vm_compute in H. inversion H as [|? H2]. inversion H2.
Qed.
Print Assumptions C64_refuted.
(** It holds without them. *)
Theorem C64_one_response_partial : forall en debug intercept wrapped t ms o,
  sober en -> one_response ms -> (forall e, o = Some e -> fits e) ->
  one_response (fst (application en debug intercept wrapped t [] (ms, o))).
Proof.
  intros en debug intercept wrapped t ms o S A B. unfold application. cbn [fold_left].
  assert (R0 : run_ok (ms, o)) by (split; assumption).
  apply server_ok; [exact S|].
  assert (R1 : run_ok (if wrapped then endpoint_wrapper en (other_handlers t) (error_handler t) (ms, o) else (ms, o))) by (destruct wrapped; [apply wrapper_ok; assumption | exact R0]).
  pose proof (exception_ok en (other_handlers t) _ S R1) as R2. destruct intercept; [apply lilya_ok; assumption | exact R2].
Qed.
Print Assumptions C64_one_response_partial.
(** And an exception that nobody handles gives a 500 response, with the exception raised to the
    server. *)
Theorem C64_unhandled_500 : forall en debug wrapped t e,
  NoDup (map fst t) -> ~ In (KStatus 500) (map fst t) -> ~ In (KClass cException) (map fst t) -> (forall h, ~ chosen t e h) ->
  exists h b, application en debug false wrapped t [] ([], Some e) = ([AStart 500 h; ABody b false], Some e).
Proof.
  intros en debug wrapped t e N A B C. unfold application. destruct (other_same t A B) as (-> & ->). cbn [fold_left].
  apply (lookup_none t e N) in C as C'.
  assert (R1 : (if wrapped then endpoint_wrapper en t None ([], Some e) else ([], Some e)) = ([], Some e)) by (destruct wrapped; [cbn [endpoint_wrapper]; rewrite C'|]; reflexivity).
  rewrite R1. cbn [exception_middleware]. rewrite C'. cbn [server_error]. destruct debug; (exists (heads en e), (shown en e); reflexivity).
Qed.
Print Assumptions C64_unhandled_500.
Example C64_case : one_response (fst (application plain false true true [(KClass 4, 1)] [] ([AStart 200 []; ABody (u "a") true], Some (err 1 [4; cException] NoAttr)))) /\
  application plain false false true [(KClass 4, 1)] [] ([], Some (err 1 [3; cException] NoAttr)) = ([AStart 500 []; ABody (u "Internal Server Error") false], Some (err 1 [3; cException] NoAttr)).
Proof. split; [unfold one_response; vm_compute; lia | vm_compute; reflexivity]. Qed.

(** ** C309: an HTTP exception without a handler *)
(** Its own response if it carries one, else its status, headers and text, with no body for 204 and 304. *)
Theorem C309_default : forall en t ms e st, NoDup (map fst t) ->
  ~ has_started ms -> chosen t e HttpDefault -> status_of e st ->
  exception_middleware en t (ms, Some e) =
    (ms ++ match e_response e with
           | Some own => own
           | None => [AStart st (heads en e); ABody (if ((st =? 204) || (st =? 304))%Z then [] else e_text e) false]
           end, None).
Proof.
  intros en t ms e st N NS C ST. rewrite (proj2 (C32_middleware en t ms e N) HttpDefault NS C). cbn [act]. unfold http_default. destruct (e_response e) as [own|]; [reflexivity|].
  assert (S : status_or_500 e = st /\ match e_status e with Has z => (z =? 204)%Z || (z =? 304)%Z | _ => false end = ((st =? 204) || (st =? 304))%Z).
  { unfold status_or_500. destruct ST as [z E NZ|E|[E|E]]; rewrite E; try (split; reflexivity). destruct (Z.eqb_spec z 0); [contradiction|]. split; reflexivity. }
  destruct S as [-> ->]. destruct ((st =? 204) || (st =? 304))%Z; reflexivity.
Qed.
Print Assumptions C309_default.
(** An exception is answered this way when no class from it up to [HTTPException] has a handler, and neither has its status. *)
Theorem C309_reached : forall t e before after, e_mro e = before ++ cHTTP :: after ->
  (forall n, ~ by_status t e n) -> (forall c n, In c before \/ c = cHTTP -> ~ In (KClass c, n) t) -> ~ In cWS before -> ~ In cHTTP before ->
  chosen t e HttpDefault.
Proof.
  intros t e before after M S NC NW NH. refine (ch_class _ _ before cHTTP after HttpDefault S M _ _).
  - intros c h I H. destruct H as [n I2|E _|E _]; [exact (NC c n (or_introl I) I2)|subst c; contradiction|subst c; contradiction].
  - constructor; [reflexivity|]. intros n. apply NC. right. reflexivity.
Qed.
Print Assumptions C309_reached.
Example C309_case : let e z := err 1 [7; cHTTP; cException] (Has z) in
  chosen [(KClass 4, 1)] (e 404%Z) HttpDefault /\ ~ has_started [] /\ status_of (e 304%Z) 304
  /\ exception_middleware plain [(KClass 4, 1)] ([], Some (e 404%Z)) = ([AStart 404 []; ABody (e_text (e 404%Z)) false], None)
  /\ exception_middleware plain [(KClass 4, 1)] ([], Some (e 304%Z)) = ([AStart 304 []; ABody [] false], None).
Proof.
  cbn zeta. split; [|split; [intros (st & h & I); exact I|split; [apply so_number; [reflexivity|discriminate]|split; reflexivity]]].
  apply (C309_reached _ _ [7] [cException]); [reflexivity| | | |].
  - intros n (_ & z & _ & [I|[]]). discriminate I.
  - intros c n [[<-|[]]| ->] [I|[]]; discriminate I.
  - intros [I|[]]. discriminate I.
  - intros [I|[]]. discriminate I.
Qed.
