(** Websocket routes: errors, hooks and closes. C251-C258. *)
From Coq Require Import Lia.
From Verif Require Import PyStr PyStrFacts Utf8 ExcModel ExcSpec ExcProofs WsrModel WsrSpec.

Lemma node_ind' : forall P : node -> Prop,
  P Miss -> (forall o t, P (WsPath o t)) -> (forall o rs, Forall P rs -> P (Inc o rs)) ->
  (forall o a rs, Forall P rs -> P (Mount o a rs)) -> forall n, P n.
Proof.
  intros P H0 H1 H2 H3. fix IH 1. intros [|o t|o rs|o a rs]; [exact H0 | apply H1 | apply H2 | apply H3];
    (induction rs as [|n rs IHr]; constructor; [apply IH | exact IHr]).
Qed.

Lemma proper_tables : forall t, proper t -> tables_of (with_handlers t) = tables t.
Proof.
  intros t (_ & A & B). unfold tables_of. cbn [a_handlers with_handlers]. f_equal. unfold other_handlers.
  induction t as [|(k, v) t IH]; [reflexivity|]. cbn [map fst In] in A, B. cbn [filter fst].
  rewrite IH by tauto.
  replace (key_eqb k (KStatus 500) || key_eqb k (KClass cException)) with false; [reflexivity|]. symmetry.
  destruct k as [z|c]; cbn [key_eqb orb]; [rewrite orb_false_r|].
  - apply Z.eqb_neq. intros ->. apply A. left. reflexivity.
  - apply Nat.eqb_neq. intros ->. apply B. left. reflexivity.
Qed.

Lemma hooks_quiet : forall w p ns, (forall n, In n ns -> hook w n = ([], Done)) -> hooks w p ns = (map (Did p) ns, Done).
Proof.
  intros w p. induction ns as [|n ns IH]; intros H; [reflexivity|]. cbn [hooks map]. unfold says.
  rewrite (H n (or_introl eq_refl)), IH by (intros m Hm; apply H; right; exact Hm). reflexivity.
Qed.
Lemma guards_pass : forall w ns r, (forall n, In n ns -> guard w n = Pass) -> guards w ns r = (map (Did Guard) ns ++ fst r, snd r).
Proof.
  intros w. induction ns as [|n ns IH]; intros r H; [destruct r; reflexivity|]. cbn [guards map].
  rewrite (H n (or_introl eq_refl)), IH by (intros m Hm; apply H; right; exact Hm). reflexivity.
Qed.
Lemma route_in : forall w o r, let_in w o ->
  route w o r = closing w o (entering o ++ fst (seq r (hooks w After (o_after o))), snd (seq r (hooks w After (o_after o)))).
Proof.
  intros w o r (A & B). unfold route. rewrite (hooks_quiet w Before _ A), (guards_pass w _ _ B). unfold entering, seq.
  destruct r as (l, e). cbn [fst snd]. destruct e; cbn [fst snd]; rewrite <- ?app_assoc; reflexivity.
Qed.

(** What happens to a failing endpoint in its route, behind the wrapper. *)
Lemma failing : forall w s o t l e, let_in w o -> call w s t = (l, Raise e) ->
  run w s (WsPath o t) = (entering o ++ l ++ [Sent (MClose (status_of e) (repr w e))], Done).
Proof.
  intros w s o t l e H C. cbn [run]. rewrite C, (route_in _ _ _ H). unfold closing, seq. cbn [fst snd]. rewrite <- app_assoc. reflexivity.
Qed.
Lemma ending_well : forall w s o t l, let_in w o -> call w s t = (l, Done) ->
  fst (run w s (WsPath o t)) = entering o ++ l ++ fst (closing w o (hooks w After (o_after o))).
Proof.
  intros w s o t l H C. cbn [run]. rewrite C, (route_in _ _ _ H). unfold closing, seq. cbn [fst snd].
  destruct (snd (hooks w After (o_after o))); cbn [fst snd]; rewrite <- ?app_assoc; reflexivity.
Qed.

(** Behind the application: a route that has sent something is the last one. *)
Lemma served : forall w t n l, proper t -> n <> Miss -> run w (Some (tables t)) n = (l, Done) -> sent l = true ->
  serve w (with_handlers t) [n] = (l, Done).
Proof.
  intros w t n l P M R S. unfold serve, application. rewrite (proper_tables t P). cbn [with_handlers a_mids a_before a_perms a_after guards hooks].
  unfold loop. destruct n; [contradiction|..]; cbn [sent existsb]; rewrite R; cbn [fst snd app]; rewrite S; cbn [seq fst snd app exception_middleware];
    rewrite app_nil_r; reflexivity.
Qed.
Lemma kept : forall w t n l o, proper t -> n <> Miss -> run w (Some (tables t)) n = (l, o) ->
  exists k o', serve w (with_handlers t) [n] = (l ++ k, o').
Proof.
  intros w t n l o P M R. unfold serve, application. rewrite (proper_tables t P). cbn [with_handlers a_mids a_before a_perms a_after guards hooks].
  assert (L : exists k o', loop w (run w (Some (tables t))) (nothing_found w true) [n] [] = (l ++ k, o')).
  { destruct n; [contradiction|..]; cbn [loop sent existsb]; rewrite R; cbn [fst snd app];
      (destruct o as [|x| |]; [destruct (sent l)| |destruct (sent l)|]); first [exists [], Done; rewrite app_nil_r; reflexivity | eexists [], _; rewrite app_nil_r; reflexivity | eexists _, _; reflexivity]. }
  destruct L as (k & o' & L). rewrite L. unfold seq, exception_middleware. cbn [fst snd].
  destruct o' as [|x| |]; cbn [fst snd app].
  - exists k, Done. rewrite !app_nil_r. reflexivity.
  - destruct (lookup (tables t) x) as [h|]; [eexists _, _; rewrite <- app_assoc; reflexivity|eauto].
  - eauto.
  - eauto.
Qed.
Lemma sent_In : forall l m, In (Sent m) l -> sent l = true.
Proof. intros l m H. unfold sent. apply existsb_exists. exists (Sent m). auto. Qed.
Lemma route_ends : forall w o r e, snd (route w o r) <> Raise e.
Proof. intros w o r e. unfold route, closing. match goal with |- context [snd ?x] => destruct (snd x) eqn:E; cbn [snd]; congruence end. Qed.

(** * C251: a failing route does not take the connection's server down *)
Lemma run_ends : forall w s n e, snd (run w s n) <> Raise e.
Proof. intros w s [|o t|o rs|o a rs] e; cbn [run]; [discriminate | apply route_ends | apply route_ends | apply route_ends]. Qed.

Lemma hooks_plain : forall w p ns, plain_world w -> plain (snd (hooks w p ns)).
Proof.
  intros w p ns (H & _). induction ns as [|n ns IH]; [left; reflexivity|]. cbn [hooks]. unfold seq, says. cbn [fst snd].
  destruct (H n) as [-> | (e & E)]; [exact IH|]. rewrite E. right. exists e. reflexivity.
Qed.
Lemma guards_plain : forall w ns r, plain_world w -> (snd r = PassOn \/ plain (snd r)) -> snd (guards w ns r) = PassOn \/ plain (snd (guards w ns r)).
Proof.
  intros w ns r (_ & H & _) P. induction ns as [|n ns IH]; [exact P|]. cbn [guards]. destruct (guard w n) as [|ms o] eqn:G; [exact IH|].
  right. exact (H n ms o G).
Qed.
Lemma route_plain : forall w o r, plain_world w -> (snd r = PassOn \/ plain (snd r)) -> snd (route w o r) = Done \/ snd (route w o r) = PassOn.
Proof.
  intros w o r W P.
  assert (X : snd (seq (hooks w Before (o_before o)) (seq (guards w (o_guards o) r) (hooks w After (o_after o)))) = PassOn
    \/ plain (snd (seq (hooks w Before (o_before o)) (seq (guards w (o_guards o) r) (hooks w After (o_after o)))))).
  { unfold seq at 1 3. destruct (hooks_plain w Before (o_before o) W) as [E | (e & E)]; rewrite E; cbn [snd]; [|right; right; exists e; exact E].
    unfold seq. destruct (guards_plain w (o_guards o) r W P) as [G|[G | (e & G)]]; rewrite G; cbn [snd];
      [left; exact G | right; exact (hooks_plain w After _ W) | right; right; exists e; exact G]. }
  unfold route, closing. destruct X as [X|[X | (e & X)]]; rewrite X; cbn [snd]; auto.
Qed.
Lemma loop_plain : forall w go fin rs acc, (forall n, In n rs -> n <> Miss -> snd (go n) = Done \/ snd (go n) = PassOn) ->
  snd (loop w go fin rs acc) = Done \/ snd (loop w go fin rs acc) = snd fin.
Proof.
  intros w go fin. induction rs as [|n rs IH]; intros acc H; cbn [loop]; [right; reflexivity|].
  assert (IH' : forall a, snd (loop w go fin rs a) = Done \/ snd (loop w go fin rs a) = snd fin) by (intros a; apply IH; intros m Hm; apply H; right; exact Hm).
  destruct (sent acc); [left; reflexivity|]. destruct n as [|o t|o r|o a r]; [apply IH'|..];
    (match goal with |- context [go ?m] => destruct (H m (or_introl eq_refl)) as [E|E]; [discriminate|rewrite E..] end;
     [match goal with |- context [sent ?l] => destruct (sent l); [left; reflexivity|apply IH'] end | apply IH']).
Qed.
Lemma run_plain : forall w s n, plain_world w -> n <> Miss -> snd (run w s n) = Done \/ snd (run w s n) = PassOn.
Proof.
  intros w s n W. revert s. induction n as [|o t|o rs IH|o a rs IH] using node_ind'; intros s M; [contradiction|..]; cbn [run]; apply route_plain; try exact W.
  - right. destruct W as (_ & _ & E & H). unfold call. destruct t as [n|n]; [|exact (E n)]. unfold wrapped, says. cbn [fst snd].
    destruct (E n) as [X | (e & X)]; rewrite X; [left; reflexivity|]. destruct s as [ts|]; [|right; exists e; reflexivity].
    destruct (lookup ts e) as [h|]; [|right; exists e; reflexivity]. destruct h as [k| |]; cbn [handled snd]; [exact (H k e)|left; reflexivity|].
    destruct (existsb _ _); [right; eexists; reflexivity|left; reflexivity].
  - destruct (loop_plain w (run w s) ([], PassOn) rs []) as [X|X]; [intros n Hn M'; rewrite Forall_forall in IH; apply (IH n Hn s M')| |]; rewrite X; [right; left; reflexivity|left; reflexivity].
  - right. assert (L : plain (snd (loop w (run w (Some (tables_of a))) (nothing_found w true) rs []))).
    { destruct (loop_plain w (run w (Some (tables_of a))) (nothing_found w true) rs []) as [X|X]; [intros n Hn M'; rewrite Forall_forall in IH; apply (IH n Hn _ M')| |];
        rewrite X; [left; reflexivity|right; eexists; reflexivity]. }
    assert (G : forall ns r, plain (snd r) -> plain (snd (guards w ns r))).
    { intros ns r P. destruct W as (_ & W & _). induction ns as [|n ns IHn]; [exact P|]. cbn [guards]. destruct (guard w n) as [|ms o'] eqn:G; [exact IHn|exact (W n ms o' G)]. }
    assert (Q : forall r k, plain (snd r) -> plain (snd k) -> plain (snd (seq r k))).
    { intros r k A B. unfold seq. destruct A as [A | (e & A)]; rewrite A; cbn [snd]; [exact B|right; exists e; exact A]. }
    unfold application. apply G. unfold exception_middleware.
    match goal with |- context [match snd ?r with _ => _ end] => assert (P : plain (snd r)) end.
    { apply Q; [apply hooks_plain, W|]. apply Q; [apply G, L|apply hooks_plain, W]. }
    destruct P as [P | (e & P)]; rewrite P; [left; exact P|]. destruct (lookup _ e) as [h|]; [|right; exists e; exact P].
    destruct W as (_ & _ & _ & W). destruct h; cbn [handled snd]; [apply W|left; reflexivity|left; reflexivity].
Qed.

(** The application's own middlewares, permissions and hooks end normally, and so do its handlers. *)
Definition sound_app (w : world) (a : settings) : Prop :=
  (forall n, In n (a_before a ++ a_after a) -> snd (hook w n) = Done) /\
  (forall n, In n (a_mids a ++ a_perms a) -> guard w n = Pass \/ exists ms, guard w n = Stop ms Done) /\
  (forall n e, snd (handle w n e) = Done) /\ NoDup (map fst (a_handlers a)).

Lemma hooks_done : forall w p ns, (forall n, In n ns -> snd (hook w n) = Done) -> snd (hooks w p ns) = Done.
Proof.
  intros w p. induction ns as [|n ns IH]; intros H; [reflexivity|]. cbn [hooks]. unfold seq, says. cbn [snd].
  rewrite (H n (or_introl eq_refl)). apply IH. intros m Hm. apply H. right. exact Hm.
Qed.

Theorem C251_contained : forall w a rs, plain_world w -> sound_app w a -> In cHTTP (e_mro (not_found w)) ->
  snd (serve w a rs) = Done.
Proof.
  intros w a rs W (A & B & C & N) H. unfold serve, application.
  assert (G : forall ns r, incl ns (a_mids a ++ a_perms a) -> snd r = Done \/ snd r = Raise (not_found w) -> snd (guards w ns r) = Done \/ snd (guards w ns r) = Raise (not_found w)).
  { induction ns as [|n ns IH]; intros r I P; [exact P|]. cbn [guards]. destruct (B n (I n (or_introl eq_refl))) as [-> | (ms & ->)]; [|left; reflexivity].
    apply IH; [intros m Hm; apply I; right; exact Hm|exact P]. }
  assert (G' : forall ns r, incl ns (a_mids a ++ a_perms a) -> snd r = Done -> snd (guards w ns r) = Done).
  { induction ns as [|n ns IH]; intros r I P; [exact P|]. cbn [guards]. destruct (B n (I n (or_introl eq_refl))) as [-> | (ms & ->)]; [|reflexivity].
    apply IH; [intros m Hm; apply I; right; exact Hm|exact P]. }
  apply G'; [intros n Hn; apply in_or_app; left; exact Hn|].
  assert (L : snd (loop w (run w (Some (tables_of a))) (nothing_found w true) rs []) = Done \/ snd (loop w (run w (Some (tables_of a))) (nothing_found w true) rs []) = Raise (not_found w)).
  { apply loop_plain. intros n _ M. apply run_plain; assumption. }
  set (lp := loop _ _ _ _ _) in *.
  assert (X : snd (seq (hooks w Before (a_before a)) (seq (guards w (a_perms a) lp) (hooks w After (a_after a)))) = Done \/
    snd (seq (hooks w Before (a_before a)) (seq (guards w (a_perms a) lp) (hooks w After (a_after a)))) = Raise (not_found w)).
  { unfold seq at 1 3. rewrite (hooks_done w Before (a_before a)) by (intros n Hn; apply A, in_or_app; left; exact Hn). cbn [snd].
    unfold seq. destruct (G (a_perms a) lp) as [E|E]; [intros n Hn; apply in_or_app; right; exact Hn|exact L|rewrite E; cbn [snd]; left|rewrite E; cbn [snd]; right; exact E].
    apply hooks_done. intros n Hn. apply A, in_or_app. right. exact Hn. }
  unfold exception_middleware. destruct X as [X|X]; rewrite X; [exact X|].
  destruct (lookup (tables_of a) (not_found w)) as [h|] eqn:E.
  - destruct h; cbn [handled snd]; [apply C|reflexivity|reflexivity].
  - exfalso. unfold tables_of in E.
    assert (N' : NoDup (map fst (other_handlers (a_handlers a)))).
    { unfold other_handlers. clear -N. induction (a_handlers a) as [|(k, v) t IH]; [constructor|]. inversion N as [|? ? N1 N2]; subst. cbn [filter].
      match goal with |- context [negb ?b] => destruct b end; cbn [negb]; [apply IH, N2|]. cbn [map fst]. constructor; [|apply IH, N2].
      intros I. apply N1. apply in_map_iff in I as (x & Ex & I). apply filter_In in I as (I & _). apply in_map_iff. exists x. auto. }
    assert (Y : forall ct mro, aget Nat.eqb cHTTP ct <> None -> In cHTTP mro -> by_class ct mro <> None).
    { intros ct. induction mro as [|c mro IH]; intros K [].
      - subst c. cbn [by_class]. destruct (aget Nat.eqb cHTTP ct) eqn:Z; congruence.
      - cbn [by_class]. destruct (aget Nat.eqb c ct); [discriminate|]. apply IH; assumption. }
    revert E. unfold lookup. destruct (if is_http _ then _ else None) as [h|]; [discriminate|]. intros E. revert E. apply Y; [|exact H].
    unfold tables. rewrite (proj1 (tables_from _ _ N') cHTTP). cbn [fst aget]. destruct (aget key_eqb (KClass cHTTP) _); discriminate.
Qed.
Print Assumptions C251_contained.

(** An exception no handler of the application takes, in a function or in a controller: the client is told by a
    close, which is the last that is sent. *)
Theorem C251_told : forall w t o tg n ms e, proper t -> let_in w o -> endpoint w n = (ms, Raise e) ->
  (tg = Function n /\ no_handler t e) \/ tg = Controller n ->
  serve w (with_handlers t) [WsPath o tg] = (entering o ++ (Did Endpoint n :: map Sent ms) ++ [Sent (MClose (status_of e) (repr w e))], Done).
Proof.
  intros w t o tg n ms e P L E T. apply served; [exact P|discriminate| |].
  - apply failing; [exact L|]. destruct T as [(-> & T) | -> ]; cbn [call]; unfold says; rewrite E; cbn [fst snd]; [|reflexivity].
    unfold wrapped. cbn [fst snd]. rewrite (proj2 (lookup_none t e (proj1 P)) T). reflexivity.
  - apply sent_In with (MClose (status_of e) (repr w e)). rewrite !in_app_iff. right. right. left. reflexivity.
Qed.
Print Assumptions C251_told.

(** A world for the cases: components by number. Endpoint 0 accepts, sends and ends; 1 accepts and raises a
    ValueError; 2 raises a WebSocketException; 3 an HTTPException with status 403; 4 closes and raises; 5 closes.
    Hook 0 is silent, 1 raises a WebSocketException, 2 a ValueError. Guard 0 passes, 1 raises a WebSocketException. *)
Definition an (id : nat) (mro : list nat) (s : sattr) : exc := {| e_id := id; e_mro := mro; e_status := s; e_text := []; e_response := None |}.
Definition value_error : exc := an 1 [5; cException] NoAttr.
Definition policy : exc := an 2 [cWS; cException] NoAttr.
Definition denied : exc := an 3 [6; cHTTP; cException] (Has 403).
Definition ex_world : world :=
  {| hook := fun n => ([], match n with 1 => Raise policy | 2 => Raise value_error | _ => Done end);
     guard := fun n => match n with 1 => Stop [] (Raise policy) | _ => Pass end;
     endpoint := fun n => match n with
                          | 1 => ([MAccept], Raise value_error)
                          | 2 => ([], Raise policy)
                          | 3 => ([], Raise denied)
                          | 4 => ([MAccept; MClose (Some 1000%Z) []], Raise value_error)
                          | 5 => ([MAccept; MClose (Some 1000%Z) []], Done)
                          | _ => ([MAccept; MData (u "hi")], Done)
                          end;
     handle := fun _ _ => ([MClose (Some 1011%Z) []], Done);
     ws_code := fun _ => 1008%Z; ws_reason := fun _ => u "policy"; repr := fun _ => u "ValueError('secret')";
     runtime_error := an 7 [8; cException] NoAttr; assertion_error := an 9 [9; cException] NoAttr;
     not_found := an 10 [cHTTP; cException] (Has 404) |}.
Definition opts (b g f : list nat) : options := {| o_before := b; o_guards := g; o_after := f; o_handlers := [] |}.
Lemma ex_plain : plain_world ex_world.
Proof.
  refine (conj _ (conj _ (conj _ _))).
  - intros [|[|[|n]]]; cbn; [left|right; eexists|right; eexists|left]; reflexivity.
  - intros [|[|n]] ms o H; cbn in H; try discriminate. injection H as <- <-. right. eexists. reflexivity.
  - intros [|[|[|[|[|[|n]]]]]]; cbn; try (left; reflexivity); right; eexists; reflexivity.
  - intros n e. left. reflexivity.
Qed.
Lemma ex_in : forall b g f, (forall n, In n b -> n = 0) -> (forall n, In n g -> n = 0) -> let_in ex_world (opts b g f).
Proof. intros b g f A B. split; cbn [o_before o_guards opts]; intros n H; [rewrite (A n H)|rewrite (B n H)]; reflexivity. Qed.

Example C251_case : plain_world ex_world /\ sound_app ex_world (with_handlers []) /\ In cHTTP (e_mro (not_found ex_world)) /\
  serve ex_world (with_handlers []) [Miss; Inc (opts [0] [] [2]) [WsPath (opts [] [0] []) (Function 1)]]
  = ([Did Before 0; Did Guard 0; Did Endpoint 1; Sent MAccept; Sent (MClose (Some 500%Z) (u "ValueError('secret')")); Did After 2; Sent (MClose (Some 500%Z) (u "ValueError('secret')"))], Done) /\
  proper [] /\ no_handler [] value_error /\ endpoint ex_world 1 = ([MAccept], Raise value_error).
Proof.
  refine (conj ex_plain (conj _ (conj _ (conj eq_refl (conj _ (conj _ eq_refl)))))).
  - refine (conj _ (conj _ (conj _ (NoDup_nil _)))); [intros n []|intros n []|reflexivity].
  - left. reflexivity.
  - refine (conj (NoDup_nil _) (conj _ _)); intros [].
  - exact (proj1 (lookup_none [] value_error (NoDup_nil _)) eq_refl).
Qed.

(** * C252: a WebSocketException closes with its code and reason *)
Definition C252_statement : Prop := forall w t o tg n ms e, proper t -> let_in w o ->
  tg = Function n \/ tg = Controller n -> endpoint w n = (ms, Raise e) -> websocket_exception t e -> closings ms = 0 ->
  In (Sent (MClose (Some (ws_code w e)) (ws_reason w e))) (fst (serve w (with_handlers t) [WsPath o tg])).
Lemma no_close : forall ms, closings ms = 0 -> existsb is_close (map Sent ms) = false.
Proof. induction ms as [|[| |] ms IH]; intros H; [reflexivity|apply IH, H|apply IH, H|discriminate]. Qed.

(** In an endpoint function: all that happens. *)
Theorem C252_exception_partial : forall w t o n ms e, proper t -> let_in w o -> let_out w o ->
  endpoint w n = (ms, Raise e) -> websocket_exception t e -> closings ms = 0 ->
  serve w (with_handlers t) [WsPath o (Function n)]
  = (entering o ++ (Did Endpoint n :: map Sent ms) ++ [Sent (MClose (Some (ws_code w e)) (ws_reason w e))] ++ leaving o, Done).
Proof.
  intros w t o n ms e P L O E X C.
  assert (K : call w (Some (tables t)) (Function n) = ((Did Endpoint n :: map Sent ms) ++ [Sent (MClose (Some (ws_code w e)) (ws_reason w e))], Done)).
  { cbn [call]. unfold says. rewrite E. unfold wrapped. cbn [fst snd]. rewrite (proj2 (lookup_chosen t e WsDefault (proj1 P)) X).
    cbn [handled existsb is_close orb]. rewrite (no_close ms C). reflexivity. }
  apply served; [exact P|discriminate| |].
  - cbn [run]. rewrite K, (route_in _ _ _ L), (hooks_quiet w After _ O). unfold closing, seq, leaving. cbn [fst snd]. rewrite <- !app_assoc. reflexivity.
  - apply sent_In with (MClose (Some (ws_code w e)) (ws_reason w e)). rewrite !in_app_iff. right. right. left. left. reflexivity.
Qed.
Print Assumptions C252_exception_partial.
Lemma empty_proper : proper [].
Proof. refine (conj (NoDup_nil _) (conj _ _)); intros []. Qed.
Lemma policy_chosen : websocket_exception [] policy.
Proof. apply lookup_chosen; [constructor|]. reflexivity. Qed.
Example C252_case : proper [] /\ let_in ex_world (opts [0] [0] [0]) /\ let_out ex_world (opts [0] [0] [0]) /\
  endpoint ex_world 2 = ([], Raise policy) /\ websocket_exception [] policy /\
  serve ex_world (with_handlers []) [WsPath (opts [0] [0] [0]) (Function 2)]
  = ([Did Before 0; Did Guard 0; Did Endpoint 2; Sent (MClose (Some 1008%Z) (u "policy")); Did After 0], Done).
Proof.
  refine (conj empty_proper (conj _ (conj _ (conj eq_refl (conj policy_chosen eq_refl))))).
  - apply ex_in; intros n [<-|[]]; reflexivity.
  - intros n [<-|[]]. reflexivity.
Qed.
(** In a controller it is 500 and the [repr]. *)
Theorem C252_refuted : ~ C252_statement.
Proof.
  intros H. specialize (H ex_world [] (opts [] [] []) (Controller 2) 2 [] policy empty_proper).
  assert (X := H (ex_in [] [] [] ltac:(intros n []) ltac:(intros n [])) (or_intror eq_refl) eq_refl policy_chosen eq_refl).
  vm_compute in X. destruct X as [X|[X|[]]]; discriminate X.
Qed.
(** And raised by a hook or a permission of the route. *)
Theorem C252_hook_refuted : ~ (forall w t o tg n ms e, proper t -> o_before o = [n] -> hook w n = (ms, Raise e) -> websocket_exception t e ->
  In (Sent (MClose (Some (ws_code w e)) (ws_reason w e))) (fst (serve w (with_handlers t) [WsPath o tg]))).
Proof.
  intros H. assert (X := H ex_world [] (opts [1] [] []) (Function 0) 1 [] policy empty_proper eq_refl eq_refl policy_chosen).
  vm_compute in X. destruct X as [X|[X|[]]]; discriminate X.
Qed.
Theorem C252_permission_refuted : ~ (forall w t o tg n ms e, proper t -> o_before o = [] -> o_guards o = [n] -> guard w n = Stop ms (Raise e) ->
  websocket_exception t e -> In (Sent (MClose (Some (ws_code w e)) (ws_reason w e))) (fst (serve w (with_handlers t) [WsPath o tg]))).
Proof.
  intros H. assert (X := H ex_world [] (opts [] [1] []) (Function 0) 1 [] policy empty_proper eq_refl eq_refl eq_refl policy_chosen).
  vm_compute in X. destruct X as [X|[X|[]]]; discriminate X.
Qed.
Print Assumptions C252_refuted.
Print Assumptions C252_hook_refuted.
Print Assumptions C252_permission_refuted.

(** * C253: when an endpoint fails the connection is closed *)
Definition C253_statement : Prop := forall w t o tg n ms e, proper t -> let_in w o ->
  tg = Function n \/ tg = Controller n -> endpoint w n = (ms, Raise e) -> (forall k, ~ chosen t e (User k)) ->
  closed (fst (serve w (with_handlers t) [WsPath o tg])).
Theorem C253_closed_partial : forall w t o tg n ms e, proper t -> let_in w o ->
  tg = Function n \/ tg = Controller n -> endpoint w n = (ms, Raise e) -> (forall k, ~ chosen t e (User k)) ->
  ~ In cHTTP (e_mro e) \/ tg = Controller n ->
  closed (fst (serve w (with_handlers t) [WsPath o tg])).
Proof.
  intros w t o tg n ms e P L T E U H. assert (N := proj1 P).
  destruct (Bool.bool_dec (existsb is_close (map Sent ms)) true) as [S|S].
  (* the endpoint has closed itself: its messages are there *)
  - apply existsb_exists in S as (x & I & Q). destruct x as [[| |c r]|]; try discriminate.
    assert (Z : exists l o', call w (Some (tables t)) tg = ((Did Endpoint n :: map Sent ms) ++ l, o') /\ (o' = Done \/ exists e', o' = Raise e')).
    { destruct T as [-> | -> ]; cbn [call]; unfold says; rewrite E; cbn [fst snd]; [|exists [], (Raise e); rewrite app_nil_r; eauto].
      unfold wrapped. cbn [fst snd]. destruct (lookup (tables t) e) as [h|] eqn:Lk; [|exists [], (Raise e); rewrite app_nil_r; eauto].
      apply (lookup_chosen t e h N) in Lk. destruct h as [k| |]; cbn [handled fst snd]; [exfalso; apply (U k Lk)|exists [], Done; split; [reflexivity|auto]|].
      match goal with |- context [if ?b then _ else _] => destruct b end; cbn [fst snd]; [exists [], (Raise (runtime_error w))|eexists _, Done]; split; try reflexivity; eauto. }
    destruct Z as (l & o' & Z & Fin).
    exists c, r. destruct Fin as [-> | (e' & -> )].
    + assert (R := ending_well w _ o tg _ L Z). destruct (run w (Some (tables t)) (WsPath o tg)) as (tr, en) eqn:Rn. cbn [fst] in R.
      assert (I' : In (Sent (MClose c r)) tr) by (rewrite R, !in_app_iff; right; left; left; right; exact I).
      destruct (kept w t (WsPath o tg) tr en P ltac:(discriminate) Rn) as (k & o' & -> ). apply in_or_app. left. exact I'.
    + rewrite (served w t (WsPath o tg) _ P ltac:(discriminate) (failing w _ o tg _ e' L Z)).
      * cbn [fst]. rewrite !in_app_iff. right. left. left. right. exact I.
      * apply sent_In with (MClose c r). rewrite !in_app_iff. right. left. left. right. exact I.
  - apply Bool.not_true_is_false in S.
    destruct (lookup (tables t) e) as [h|] eqn:Lk; [apply (lookup_chosen t e h N) in Lk as Ch; destruct h as [k| |]|].
    + exfalso. apply (U k Ch).
    + destruct H as [H | -> ].
      * exfalso. inversion Ch as [|b c a h A B C D]; subst. inversion D as [|Q _|]; subst. apply H. rewrite B. apply in_or_app. right. left. reflexivity.
      * exists (status_of e), (repr w e). rewrite (C251_told w t o (Controller n) n ms e P L E (or_intror eq_refl)). cbn [fst]. rewrite !in_app_iff. right. right. left. reflexivity.
    + destruct T as [-> | -> ].
      * assert (K : call w (Some (tables t)) (Function n) = ((Did Endpoint n :: map Sent ms) ++ [Sent (MClose (Some (ws_code w e)) (ws_reason w e))], Done)).
        { cbn [call]. unfold says. rewrite E. unfold wrapped. cbn [fst snd]. rewrite Lk. cbn [handled existsb is_close orb]. rewrite S. reflexivity. }
        assert (R := ending_well w _ o _ _ L K). exists (Some (ws_code w e)), (ws_reason w e).
        destruct (run w (Some (tables t)) (WsPath o (Function n))) as (tr, en) eqn:Rn. cbn [fst] in R.
        assert (I' : In (Sent (MClose (Some (ws_code w e)) (ws_reason w e))) tr) by (rewrite R, !in_app_iff; right; left; right; left; reflexivity).
        destruct (kept w t (WsPath o (Function n)) tr en P ltac:(discriminate) Rn) as (k & o' & -> ). apply in_or_app. left. exact I'.
      * exists (status_of e), (repr w e). rewrite (C251_told w t o (Controller n) n ms e P L E (or_intror eq_refl)). cbn [fst]. rewrite !in_app_iff. right. right. left. reflexivity.
    + exists (status_of e), (repr w e). rewrite (C251_told w t o tg n ms e P L E).
      * cbn [fst]. rewrite !in_app_iff. right. right. left. reflexivity.
      * destruct T as [-> | -> ]; [left|right; reflexivity]. split; [reflexivity|]. exact (proj1 (lookup_none t e N) Lk).
Qed.
Print Assumptions C253_closed_partial.
Example C253_case : proper [] /\ let_in ex_world (opts [0] [0] [0]) /\ endpoint ex_world 1 = ([MAccept], Raise value_error) /\ (forall k, ~ chosen [] value_error (User k)) /\ ~ In cHTTP (e_mro value_error).
Proof.
  refine (conj empty_proper (conj _ (conj eq_refl (conj _ _)))).
  - apply ex_in; intros n [<-|[]]; reflexivity.
  - intros k H. apply lookup_chosen in H; [vm_compute in H; discriminate H|constructor].
  - intros [H|[H|[]]]; discriminate.
Qed.
(** A function that raises an HTTPException ends in silence: nothing at all is sent. *)
Theorem C253_refuted : ~ C253_statement.
Proof.
  intros H. assert (X : closed (fst (serve ex_world (with_handlers []) [WsPath (opts [] [] []) (Function 3)]))).
  { apply (H ex_world [] (opts [] [] []) (Function 3) 3 [] denied empty_proper); [apply ex_in; intros n []|left; reflexivity|reflexivity|].
    intros k K. apply lookup_chosen in K; [vm_compute in K; discriminate K|constructor]. }
  destruct X as (c & r & X). vm_compute in X. destruct X as [X|[]]; discriminate X.
Qed.
Print Assumptions C253_refuted.

(** * C254: a connection to a path that is not there is refused *)
Definition C254_statement : Prop := forall w t rs, proper t -> In cHTTP (e_mro (not_found w)) -> Forall (fun n => n = Miss) rs ->
  closed (fst (serve w (with_handlers t) rs)).
Lemma loop_miss : forall w go fin rs, Forall (fun n => n = Miss) rs -> loop w go fin rs [] = fin.
Proof. intros w go fin rs H. induction H as [|n rs -> H IH]; [destruct fin; reflexivity|]. cbn [loop sent existsb]. exact IH. Qed.
Theorem C254_router_partial : forall w rs, Forall (fun n => n = Miss) rs -> serve_router w rs = ([Sent (MClose (Some 1000%Z) [])], Done).
Proof. intros w rs H. unfold serve_router. apply (loop_miss w _ _ rs H). Qed.
(** In an application without a handler for it the exception is dropped: nothing is sent, nothing raised. *)
Theorem C254_silence : forall w t rs, proper t -> chosen t (not_found w) HttpDefault -> Forall (fun n => n = Miss) rs ->
  serve w (with_handlers t) rs = ([], Done).
Proof.
  intros w t rs P C H. unfold serve, application. rewrite (loop_miss w _ _ rs H), (proper_tables t P). cbn [with_handlers a_mids a_before a_perms a_after guards hooks nothing_found].
  unfold seq, exception_middleware; cbn [fst snd app]. rewrite (proj2 (lookup_chosen t _ HttpDefault (proj1 P)) C). reflexivity.
Qed.
Print Assumptions C254_router_partial.
Print Assumptions C254_silence.
Example C254_case : Forall (fun n => n = Miss) [Miss; Miss] /\ chosen [] (not_found ex_world) HttpDefault.
Proof. split; [repeat constructor|]. apply lookup_chosen; [constructor|]. reflexivity. Qed.
Theorem C254_refuted : ~ C254_statement.
Proof. intros H. destruct (H ex_world [] [] empty_proper (or_introl eq_refl) (Forall_nil _)) as (c & r & X). vm_compute in X. exact X. Qed.
Print Assumptions C254_refuted.

(** * C255: a websocket is closed at most once *)
Definition C255_statement : Prop := forall w a rs,
  (forall n, closings (fst (hook w n)) = 0) -> (forall n ms o, guard w n = Stop ms o -> closings ms = 0) ->
  (forall n, closings (fst (endpoint w n)) <= 1) -> (forall n e, closings (fst (handle w n e)) = 0) -> closes (fst (serve w a rs)) <= 1.

Lemma closes_app : forall a b, closes (a ++ b) = closes a + closes b.
Proof. intros a b. unfold closes. rewrite filter_app, app_length. reflexivity. Qed.
Lemma closes_sent : forall ms, closes (map Sent ms) = closings ms.
Proof. unfold closes, closings. induction ms as [|[| |] ms IH]; cbn [map filter length]; congruence. Qed.
Lemma closes_sent' : forall l, sent l = false -> closes l = 0.
Proof. unfold sent, closes. induction l as [|[m|p n] l IH]; cbn [existsb is_sent orb filter]; intros H; [reflexivity|discriminate|apply IH, H]. Qed.
(** A result that is tidy. *)
Definition neat (r : res) : Prop := closes (fst r) = 0 \/ (closes (fst r) = 1 /\ snd r = Done).
Lemma neat_says : forall p n x, tidy x -> neat (says p n x).
Proof. intros p n x H. unfold neat, says. cbn [fst snd]. change (closes (Did p n :: map Sent (fst x))) with (closes (map Sent (fst x))). rewrite closes_sent. exact H. Qed.
Lemma hooks_no_close : forall w p ns, tidy_world w -> closes (fst (hooks w p ns)) = 0.
Proof.
  intros w p ns (H & _). induction ns as [|n ns IH]; [reflexivity|]. cbn [hooks]. unfold seq, says. cbn [fst snd].
  assert (K : closes (Did p n :: map Sent (fst (hook w n))) = 0) by (change (closes (map Sent (fst (hook w n))) = 0); rewrite closes_sent; apply H).
  destruct (snd (hook w n)); cbn [fst]; [rewrite closes_app, K, IH; reflexivity|exact K|exact K|exact K].
Qed.
Lemma neat_guards : forall w ns r, tidy_world w -> neat r -> neat (guards w ns r).
Proof.
  intros w ns r (_ & H & _) N. induction ns as [|n ns IH]; [exact N|]. cbn [guards]. destruct (guard w n) as [|ms o] eqn:G; [|apply neat_says, (H n ms o G)].
  unfold neat in *. cbn [fst snd]. exact IH.
Qed.
Lemma neat_around : forall w b f r, tidy_world w -> (forall n, In n f -> snd (hook w n) = Done) -> neat r ->
  neat (seq (hooks w Before b) (seq r (hooks w After f))).
Proof.
  intros w b f r W F N. assert (B := hooks_no_close w Before b W). assert (A := hooks_no_close w After f W). assert (D := hooks_done w After f F).
  unfold neat, seq. destruct (snd (hooks w Before b)) eqn:E; cbn [fst snd]; auto.
  destruct N as [N | (N & N')]; [destruct (snd r) eqn:R; cbn [fst snd]; rewrite ?closes_app; left; lia|].
  rewrite N'. cbn [fst snd]. rewrite !closes_app. right. split; [lia|exact D].
Qed.
Lemma neat_closing : forall w o r, neat r -> neat (closing w o r).
Proof.
  intros w o r [N | (N & N')]; unfold neat, closing; [|rewrite N'; right; auto]. destruct (snd r) eqn:E; cbn [fst snd]; auto.
  rewrite closes_app, N. right. auto.
Qed.
Lemma neat_handled : forall w b h e, tidy_world w -> neat (handled w b h e).
Proof.
  intros w b h e (_ & _ & _ & H). destruct h as [n| |]; cbn [handled]; [apply neat_says, H|left; reflexivity|]. destruct b; [left|right; split]; reflexivity.
Qed.
Lemma neat_middleware : forall w ts r, tidy_world w -> neat r -> neat (exception_middleware w ts r).
Proof.
  intros w ts r W [N | (N & N')]; unfold exception_middleware; [|rewrite N'; right; auto]. destruct (snd r) eqn:E; [left; exact N| |left; exact N|left; exact N].
  destruct (lookup ts e) as [h|]; [|left; exact N]. destruct (neat_handled w false h e W) as [K | (K & K')]; unfold neat; cbn [fst snd]; rewrite closes_app, N, K; auto.
Qed.
Lemma neat_call : forall w s t, tidy_world w -> neat (call w s t).
Proof.
  intros w s t W. assert (E := proj1 (proj2 (proj2 W))). destruct t as [n|n]; cbn [call]; [|apply neat_says, E].
  assert (N := neat_says Endpoint n _ (E n)). destruct N as [N | (N & N')]; unfold wrapped; [|rewrite N'; right; auto].
  destruct (snd (says Endpoint n (endpoint w n))) eqn:X; [left; exact N| |left; exact N|left; exact N]. destruct s as [ts|]; [|left; exact N].
  destruct (lookup ts e) as [h|]; [|left; exact N]. destruct (neat_handled w (existsb is_close (fst (says Endpoint n (endpoint w n)))) h e W) as [K | (K & K')]; unfold neat; cbn [fst snd]; rewrite closes_app, N, K; auto.
Qed.
Lemma neat_loop : forall w go fin rs acc, neat fin -> Forall (fun n => neat (go n)) rs -> closes acc = 0 -> neat (loop w go fin rs acc).
Proof.
  intros w go fin. induction rs as [|n rs IH]; intros acc F H A; cbn [loop].
  - unfold neat. cbn [fst snd]. rewrite closes_app, A. exact F.
  - inversion H as [|? ? H1 H2]; subst. destruct (sent acc); [left; exact A|].
    assert (G : forall m, m = n -> neat (match snd (go m) with
       | Raise e => (acc ++ fst (go m), Raise e)
       | Done => if sent (acc ++ fst (go m)) then (acc ++ fst (go m), Done) else loop w go fin rs (acc ++ fst (go m))
       | Defer => if sent (acc ++ fst (go m)) then (acc ++ fst (go m), Raise (assertion_error w)) else loop w go fin rs (acc ++ fst (go m))
       | PassOn => loop w go fin rs (acc ++ fst (go m)) end)).
    { intros m ->. destruct H1 as [N | (N & N')].
      - assert (Z : closes (acc ++ fst (go n)) = 0) by (rewrite closes_app; lia).
        destruct (snd (go n)); [|left; exact Z| |apply IH; assumption]; (destruct (sent _); [left; exact Z|apply IH; assumption]).
      - rewrite N'. assert (Z : closes (acc ++ fst (go n)) = 1) by (rewrite closes_app; lia).
        destruct (sent (acc ++ fst (go n))) eqn:S; [right; split; [exact Z|reflexivity]|]. exfalso. assert (X := closes_sent' _ S). lia. }
    destruct n; [apply IH; assumption|apply (G _ eq_refl)..].
Qed.
Lemma neat_application : forall w a r, tidy_world w -> (forall n, In n (a_after a) -> snd (hook w n) = Done) -> neat r -> neat (application w a r).
Proof.
  intros w a r W F N. unfold application. apply neat_guards; [exact W|]. apply neat_middleware; [exact W|]. apply neat_around; [exact W|exact F|]. apply neat_guards; assumption.
Qed.
Lemma neat_run : forall w n s, tidy_world w -> calm w n -> neat (run w s n).
Proof.
  intros w n s W C. revert s. induction n as [|o t|o rs IH|o a rs IH] using node_ind'; intros s; cbn [run].
  - left. reflexivity.
  - inversion C; subst. unfold route. apply neat_closing, neat_around; [exact W|assumption|]. apply neat_guards; [exact W|]. apply neat_call, W.
  - inversion C as [| |? ? C1 C2|]; subst. unfold route. apply neat_closing, neat_around; [exact W|exact C1|]. apply neat_guards; [exact W|].
    apply neat_loop; [left; reflexivity| |reflexivity]. rewrite Forall_forall in IH, C2 |- *. intros n Hn. apply (IH n Hn (C2 n Hn)).
  - inversion C as [| | |? ? ? C1 C2]; subst. unfold route. apply neat_closing, neat_around; [exact W|intros n Hn; apply C1, in_or_app; left; exact Hn|]. apply neat_guards; [exact W|].
    apply neat_application; [exact W|intros n Hn; apply C1, in_or_app; right; exact Hn|].
    apply neat_loop; [left; reflexivity| |reflexivity]. rewrite Forall_forall in IH, C2 |- *. intros n Hn. apply (IH n Hn (C2 n Hn)).
Qed.
Theorem C255_once_partial : forall w a rs, tidy_world w -> (forall n, In n (a_after a) -> snd (hook w n) = Done) -> Forall (calm w) rs ->
  closes (fst (serve w a rs)) <= 1.
Proof.
  intros w a rs W A C. assert (N : neat (serve w a rs)).
  { apply neat_application; [exact W|exact A|]. apply neat_loop; [left; reflexivity| |reflexivity]. rewrite Forall_forall in C |- *. intros n Hn. apply neat_run; [exact W|apply C, Hn]. }
  destruct N as [-> | (-> & _)]; lia.
Qed.
Print Assumptions C255_once_partial.
Definition ex_tidy : world :=
  {| hook := hook ex_world; guard := guard ex_world; endpoint := fun n => match n with 4 => ([MAccept], Done) | _ => endpoint ex_world n end; handle := handle ex_world;
     ws_code := ws_code ex_world; ws_reason := ws_reason ex_world; repr := repr ex_world; runtime_error := runtime_error ex_world;
     assertion_error := assertion_error ex_world; not_found := not_found ex_world |}.
Example C255_case : tidy_world ex_tidy /\ Forall (calm ex_tidy) [Inc (opts [2] [] [0]) [WsPath (opts [] [] []) (Function 5)]; Mount (opts [] [] [0]) (with_handlers []) [WsPath (opts [] [] [0]) (Controller 1)]] /\
  closes (fst (serve ex_tidy (with_handlers []) [Inc (opts [] [] [0]) [WsPath (opts [] [] []) (Function 1)]; WsPath (opts [] [] []) (Function 5)])) = 1.
Proof.
  refine (conj (conj _ (conj _ (conj _ _))) (conj _ eq_refl)).
  - reflexivity.
  - intros [|[|n]] ms o H; cbn in H; try discriminate. injection H as <- <-. left. reflexivity.
  - intros [|[|[|[|[|[|n]]]]]]; cbn; try (left; reflexivity). right. split; reflexivity.
  - intros n e. right. split; reflexivity.
  - constructor; [|constructor; [|constructor]].
    + apply calm_inc; [intros n [<-|[]]; reflexivity|]. constructor; [|constructor]. apply calm_path. intros n [].
    + apply calm_mount; [intros n [<-|[]]; reflexivity|]. constructor; [|constructor]. apply calm_path. intros n [<-|[]]; reflexivity.
Qed.
(** An endpoint that has closed and then fails is closed once more. *)
Definition ex_mild : world :=
  {| hook := hook ex_world; guard := guard ex_world; endpoint := endpoint ex_world; handle := fun _ _ => ([], Done);
     ws_code := ws_code ex_world; ws_reason := ws_reason ex_world; repr := repr ex_world; runtime_error := runtime_error ex_world;
     assertion_error := assertion_error ex_world; not_found := not_found ex_world |}.
Theorem C255_refuted : ~ C255_statement.
Proof.
  intros H. assert (X : closes (fst (serve ex_mild (with_handlers []) [WsPath (opts [] [] []) (Function 4)])) <= 1).
  { apply H; [reflexivity| |intros [|[|[|[|[|[|n]]]]]]; cbn; lia|reflexivity]. intros [|[|n]] ms o G; cbn in G; try discriminate. injection G as <- <-. reflexivity. }
  vm_compute in X. lia.
Qed.
Print Assumptions C255_refuted.

(** * C256: an exception handler registered for a class gets the exceptions of websockets *)
Definition C256_statement : Prop := forall w t o tg n ms e h, proper t -> let_in w o -> tg = Function n \/ tg = Controller n ->
  endpoint w n = (ms, Raise e) -> chosen t e (User h) -> In (Did Handler h) (fst (serve w (with_handlers t) [WsPath o tg])).
Theorem C256_function_partial : forall w t o n ms e h hs, proper t -> let_in w o -> let_out w o -> endpoint w n = (ms, Raise e) -> chosen t e (User h) ->
  handle w h e = (hs, Done) -> ms ++ hs <> [] ->
  serve w (with_handlers t) [WsPath o (Function n)] = (entering o ++ (Did Endpoint n :: map Sent ms) ++ (Did Handler h :: map Sent hs) ++ leaving o, Done).
Proof.
  intros w t o n ms e h hs P L O E X Hd Ne.
  assert (K : call w (Some (tables t)) (Function n) = ((Did Endpoint n :: map Sent ms) ++ (Did Handler h :: map Sent hs), Done)).
  { cbn [call]. unfold says. rewrite E. unfold wrapped. cbn [fst snd]. rewrite (proj2 (lookup_chosen t e (User h) (proj1 P)) X).
    cbn [handled]. unfold says. rewrite Hd. reflexivity. }
  apply served; [exact P|discriminate| |].
  - cbn [run]. rewrite K, (route_in _ _ _ L), (hooks_quiet w After _ O). unfold closing, seq, leaving. cbn [fst snd]. rewrite <- !app_assoc. reflexivity.
  - destruct (ms ++ hs) as [|m l] eqn:Q; [contradiction|]. assert (I : In m (ms ++ hs)) by (rewrite Q; left; reflexivity). apply sent_In with m.
    apply in_app_or in I as [I|I]; apply (in_map Sent) in I; rewrite !in_app_iff; [right; left; right; exact I|right; right; left; right; exact I].
Qed.
Print Assumptions C256_function_partial.
Definition one_handler : table := [(KClass 5, 7)].
Lemma one_proper : proper one_handler.
Proof. refine (conj _ (conj _ _)); cbn; [constructor; [intros []|constructor]|intros [H|[]]; discriminate|intros [H|[]]; discriminate]. Qed.
Lemma one_chosen : chosen one_handler value_error (User 7).
Proof. apply lookup_chosen; [apply one_proper|]. reflexivity. Qed.
Example C256_case : proper one_handler /\ let_in ex_world (opts [0] [] [0]) /\ let_out ex_world (opts [0] [] [0]) /\ chosen one_handler value_error (User 7) /\
  serve ex_world (with_handlers one_handler) [WsPath (opts [0] [] [0]) (Function 1)]
  = ([Did Before 0; Did Endpoint 1; Sent MAccept; Did Handler 7; Sent (MClose (Some 1011%Z) []); Did After 0], Done).
Proof.
  refine (conj one_proper (conj _ (conj _ (conj one_chosen eq_refl)))); [apply ex_in; [intros n [<-|[]]; reflexivity|intros n []]|intros n [<-|[]]; reflexivity].
Qed.
Theorem C256_refuted : ~ C256_statement.
Proof.
  intros H. assert (X := H ex_world one_handler (opts [] [] []) (Controller 1) 1 [MAccept] value_error 7 one_proper (ex_in [] [] [] ltac:(intros n []) ltac:(intros n [])) (or_intror eq_refl) eq_refl one_chosen).
  vm_compute in X. repeat (destruct X as [X|X]; [discriminate X|]). exact X.
Qed.
(** A handler given to the route itself is never asked. *)
Theorem C256_route_refuted : ~ (forall w o n ms e h, let_in w o -> endpoint w n = (ms, Raise e) -> chosen (o_handlers o) e (User h) ->
  In (Did Handler h) (fst (serve w (with_handlers []) [WsPath o (Function n)]))).
Proof.
  intros H. assert (X := H ex_world {| o_before := []; o_guards := []; o_after := []; o_handlers := one_handler |} 1 [MAccept] value_error 7).
  specialize (X ltac:(split; intros n []) eq_refl one_chosen). vm_compute in X. repeat (destruct X as [X|X]; [discriminate X|]). exact X.
Qed.
Print Assumptions C256_refuted.
Print Assumptions C256_route_refuted.

(** * C257: the hooks around a websocket endpoint are called from the outside to the inside and back *)
Lemma around_cons : forall o os l, around (o :: os) l = entering o ++ around os l ++ leaving o.
Proof.
  intros o os l. unfold around. cbn [map concat rev]. rewrite map_app, concat_app. cbn [map concat]. rewrite app_nil_r, <- !app_assoc. reflexivity.
Qed.
Lemma sent_app : forall a b, sent (a ++ b) = sent a || sent b.
Proof. intros a b. unfold sent. apply existsb_app. Qed.
Lemma around_sent : forall os l, sent l = true -> sent (around os l) = true.
Proof. intros os l H. unfold around. rewrite !sent_app, H, orb_true_r. reflexivity. Qed.
Lemma nested_run : forall w s os n l, Forall (fun o => let_in w o /\ let_out w o) os -> n <> Miss -> run w s n = (l, Done) -> sent l = true ->
  run w s (nested os n) = (around os l, Done).
Proof.
  intros w s os n l H M R S. induction H as [|o os (Hi & Ho) H IH]; [unfold around; cbn; rewrite app_nil_r; exact R|].
  cbn [nested run]. rewrite (route_in _ _ _ Hi), (hooks_quiet w After _ Ho), around_cons.
  assert (L : loop w (run w s) ([], PassOn) [nested os n] [] = (around os l, Done)).
  { cbn [loop sent existsb]. destruct (nested os n) eqn:E; [destruct os; [contradiction|discriminate]|..]; rewrite IH; cbn [fst snd app]; rewrite (around_sent os l S); reflexivity. }
  rewrite L. unfold closing, seq, leaving. cbn [fst snd]. reflexivity.
Qed.
Theorem C257_order : forall w t os o tg n ms, proper t -> Forall (fun x => let_in w x /\ let_out w x) (os ++ [o]) ->
  tg = Function n \/ tg = Controller n -> endpoint w n = (ms, Done) -> ms <> [] ->
  serve w (with_handlers t) [nested os (WsPath o tg)] = (around (os ++ [o]) (Did Endpoint n :: map Sent ms), Done).
Proof.
  intros w t os o tg n ms P H T E Ne. apply Forall_app in H as (H & Ho). inversion Ho as [|? ? (Hi & Ho') _]; subst.
  assert (C : call w (Some (tables t)) tg = (Did Endpoint n :: map Sent ms, Done)) by (destruct T as [-> | -> ]; cbn [call]; unfold wrapped, says; rewrite E; reflexivity).
  assert (S : sent (entering o ++ (Did Endpoint n :: map Sent ms) ++ leaving o) = true) by (destruct ms as [|m ms]; [contradiction|]; apply sent_In with m; rewrite !in_app_iff; right; left; right; left; reflexivity).
  assert (R : run w (Some (tables t)) (WsPath o tg) = (entering o ++ (Did Endpoint n :: map Sent ms) ++ leaving o, Done)).
  { cbn [run]. rewrite C, (route_in _ _ _ Hi), (hooks_quiet w After _ Ho'). reflexivity. }
  assert (Q : around (os ++ [o]) (Did Endpoint n :: map Sent ms) = around os (entering o ++ (Did Endpoint n :: map Sent ms) ++ leaving o)).
  { unfold around. rewrite rev_app_distr, map_app, concat_app. cbn [rev app map concat]. rewrite app_nil_r, <- !app_assoc. cbn [app]. rewrite <- !app_assoc. reflexivity. }
  rewrite Q. apply served; [exact P| |apply nested_run; [exact H|discriminate|exact R|exact S]|apply around_sent, S]. destruct os; discriminate.
Qed.
Print Assumptions C257_order.
(** If the endpoint fails, the hooks after it of its own route are left out, those of the includes around run. *)
Theorem C257_failure : forall w t os o tg n ms e, proper t -> Forall (fun x => let_in w x /\ let_out w x) os -> let_in w o ->
  endpoint w n = (ms, Raise e) -> (tg = Function n /\ no_handler t e) \/ tg = Controller n ->
  serve w (with_handlers t) [nested os (WsPath o tg)]
  = (around os (entering o ++ (Did Endpoint n :: map Sent ms) ++ [Sent (MClose (status_of e) (repr w e))]), Done).
Proof.
  intros w t os o tg n ms e P H Hi E T.
  assert (C : call w (Some (tables t)) tg = (Did Endpoint n :: map Sent ms, Raise e)).
  { destruct T as [(-> & T) | -> ]; cbn [call]; unfold says; rewrite E; cbn [fst snd]; [|reflexivity]. unfold wrapped. cbn [fst snd]. rewrite (proj2 (lookup_none t e (proj1 P)) T). reflexivity. }
  assert (S : sent (entering o ++ (Did Endpoint n :: map Sent ms) ++ [Sent (MClose (status_of e) (repr w e))]) = true) by (apply sent_In with (MClose (status_of e) (repr w e)); rewrite !in_app_iff; right; right; left; reflexivity).
  apply served; [exact P|destruct os; discriminate| |apply around_sent, S]. apply nested_run; [exact H|discriminate|apply (failing w _ o tg _ e Hi C)|exact S].
Qed.
Print Assumptions C257_failure.
Example C257_case : proper [] /\ Forall (fun x => let_in ex_world x /\ let_out ex_world x) [opts [0] [0] [0; 3]; opts [3] [] [0]] /\
  endpoint ex_world 0 = ([MAccept; MData (u "hi")], Done) /\
  serve ex_world (with_handlers []) [nested [opts [0] [0] [0; 3]] (WsPath (opts [3] [] [0]) (Function 0))]
  = ([Did Before 0; Did Guard 0; Did Before 3; Did Endpoint 0; Sent MAccept; Sent (MData (u "hi")); Did After 0; Did After 0; Did After 3], Done).
Proof.
  refine (conj empty_proper (conj _ (conj eq_refl eq_refl))).
  constructor; [|constructor; [|constructor]]; (split; [split|]); cbn [o_before o_guards opts]; intros n H; cbn in H;
    repeat (destruct H as [<-|H]; [reflexivity|]); destruct H.
Qed.

(** * C258: what the framework closes with is a legal close frame *)
Definition legal (c : option Z) (r : str) : Prop := (exists z, c = Some z /\ legal_code z) /\ length (utf8_enc r) <= 123.
Definition C258_statement : Prop := forall w t o tg n ms e, proper t -> let_in w o -> let_out w o -> tg = Function n \/ tg = Controller n ->
  endpoint w n = (ms, Raise e) -> closings ms = 0 -> (forall k, ~ chosen t e (User k)) -> legal (Some (ws_code w e)) (ws_reason w e) ->
  forall c r, In (Sent (MClose c r)) (fst (serve w (with_handlers t) [WsPath o tg])) -> legal c r.
Lemma in_sent_close : forall c r ms, closings ms = 0 -> ~ In (Sent (MClose c r)) (map Sent ms).
Proof. intros c r ms H I. apply in_map_iff in I as (m & E & I). injection E as ->. revert H I. induction ms as [|[| |] ms IH]; intros H I; [exact I|..]; destruct I as [I|I]; try discriminate; apply IH; assumption. Qed.
Lemma in_entering : forall c r o, ~ In (Sent (MClose c r)) (entering o).
Proof. intros c r o I. unfold entering in I. apply in_app_or in I as [I|I]; apply in_map_iff in I as (x & E & _); discriminate. Qed.
Theorem C258_legal_partial : forall w t o n ms e, proper t -> let_in w o -> let_out w o ->
  endpoint w n = (ms, Raise e) -> closings ms = 0 -> websocket_exception t e -> legal (Some (ws_code w e)) (ws_reason w e) ->
  forall c r, In (Sent (MClose c r)) (fst (serve w (with_handlers t) [WsPath o (Function n)])) -> legal c r.
Proof.
  intros w t o n ms e P L O E C X G c r I. rewrite (C252_exception_partial w t o n ms e P L O E X C) in I. cbn [fst] in I.
  apply in_app_or in I as [I|I]; [destruct (in_entering _ _ _ I)|]. apply in_app_or in I as [[I|I]|I]; [discriminate|destruct (in_sent_close _ _ _ C I)|].
  apply in_app_or in I as [[I|[]]|I]; [injection I as <- <-; exact G|]. unfold leaving in I. apply in_map_iff in I as (x & E' & _). discriminate.
Qed.
Print Assumptions C258_legal_partial.
Example C258_case : proper [] /\ let_in ex_world (opts [0] [0] [0]) /\ endpoint ex_world 2 = ([], Raise policy) /\ websocket_exception [] policy /\ legal (Some (ws_code ex_world policy)) (ws_reason ex_world policy).
Proof.
  refine (conj empty_proper (conj _ (conj eq_refl (conj policy_chosen _)))).
  - apply ex_in; intros n [<-|[]]; reflexivity.
  - split; [exists 1008%Z; split; [reflexivity|unfold legal_code; lia]|apply Nat.leb_le; vm_compute; reflexivity].
Qed.
Theorem C258_refuted : ~ C258_statement.
Proof.
  intros H. assert (X : legal (Some 500%Z) (u "ValueError('secret')")).
  { apply (H ex_world [] (opts [] [] []) (Function 1) 1 [MAccept] value_error empty_proper).
    - apply ex_in; intros n [].
    - intros n [].
    - left. reflexivity.
    - reflexivity.
    - reflexivity.
    - intros k K. apply lookup_chosen in K; [vm_compute in K; discriminate K|constructor].
    - split; [exists 1008%Z; split; [reflexivity|unfold legal_code; lia]|apply Nat.leb_le; vm_compute; reflexivity].
    - right. right. left. reflexivity. }
  destruct X as ((z & E & L) & _). injection E as <-. unfold legal_code in L. lia.
Qed.
(** The reason of a close shows the text of an error that nobody was to see. *)
Definition C258_text_statement : Prop := forall w t o tg n ms e secret, proper t -> let_in w o -> tg = Function n \/ tg = Controller n ->
  endpoint w n = (ms, Raise e) -> closings ms = 0 -> no_handler t e -> containsb secret (repr w e) = true -> secret <> [] ->
  forall c r, In (Sent (MClose c r)) (fst (serve w (with_handlers t) [WsPath o tg])) -> containsb secret r = false.
Theorem C258_text_refuted : ~ C258_text_statement.
Proof.
  intros H. assert (X : containsb (u "secret") (u "ValueError('secret')") = false).
  { apply (H ex_world [] (opts [] [] []) (Function 1) 1 [MAccept] value_error (u "secret") empty_proper) with (c := Some 500%Z).
    - apply ex_in; intros n [].
    - left. reflexivity.
    - reflexivity.
    - reflexivity.
    - exact (proj1 (lookup_none [] value_error (NoDup_nil _)) eq_refl).
    - reflexivity.
    - discriminate.
    - right. right. left. reflexivity. }
  vm_compute in X. discriminate.
Qed.
Print Assumptions C258_refuted.
Print Assumptions C258_text_refuted.
