From Verif Require Import PyStr PyStrFacts HeaderModel UrlModel OtelModel OtelSpec.
Local Open Scope Z_scope.

Lemma run_note_all v l : forall h n r q p, run v h n r q (note_all l p) = run v h (n ++ l) r q p.
Proof. induction l as [|e l IH]; intros h n r q p; cbn [note_all run]; [now rewrite app_nil_r|]. rewrite IH, <- app_assoc. reflexivity. Qed.
Lemma last_of_app {A B} (f : A -> option B) a b : last_of f (a ++ b) = match last_of f b with Some y => Some y | None => last_of f a end.
Proof.
  unfold last_of. rewrite fold_left_app. generalize (fold_left (fun r x => match f x with Some y => Some y | None => r end) a None). intros o.
  induction b as [|x b IH] using rev_ind; [reflexivity|]. rewrite !fold_left_app. cbn [fold_left]. destruct (f x); [reflexivity | exact IH].
Qed.
Lemma last_of_one {A B} (f : A -> option B) x : last_of f [x] = f x.
Proof. cbn. destruct (f x); reflexivity. Qed.
Definition code_now (holder : Z) (h : list io) : Z := match last_code h with Some z => z | None => holder end.
(** What the middleware writes at the end. *)
Definition address (s : oscope) : str := match o_server s with At h _ => h | _ => u "testserver" end.
Definition tail_notes (s : oscope) (route path : str) (code : Z) (e : option exn) : list ev :=
  match e with Some (Exn c t) => [Recorded (Exn c t); SetStatus true (Some t)] | _ => [] end ++
  [Attr (u "http.server.duration_ms") ADuration; Attr (u "http.request.method") (AStr (o_method s)); Attr (u "server.address") (AStr (address s));
   Attr (u "url.path") (AStr path); Attr (u "lilya.route") (AStr route)] ++
  match e with Some (Exn _ _) => [] | _ => [SetStatus ((400 <=? code) && (code <? 600)) None] end.
Definition written (o : outcome) (route : option str) (path : str) : str * str :=
  let q := match left_path o with Some q => q | None => path end in
  (match left_route o with Some r => r | None => match route with Some r => r | None => q end end, q).
Definition over {A} (o d : option A) : option A := match o with Some x => Some x | None => d end.
Definition cur (q : option str) (path : str) : str := match q with Some q => q | None => path end.
Lemma run_finish v s holder e after h n r q route path : o_server s <> Null ->
  run v h n r q (finish s route path holder e after) =
  run v h (n ++ [Attr (u "http.server.duration_ms") ADuration; Attr (u "http.request.method") (AStr (o_method s)); Attr (u "server.address") (AStr (address s));
   Attr (u "url.path") (AStr path); Attr (u "lilya.route") (AStr (match route with Some r => r | None => path end))] ++
   if e then [] else [SetStatus ((400 <=? holder) && (holder <? 600)) None]) r q after.
Proof.
  intros NN. unfold finish, address. rewrite run_note_all. destruct (o_server s) as [| |host pt]; [|now destruct NN|]; rewrite run_note_all, <- app_assoc; reflexivity.
Qed.
Lemma code_now_start holder h st hd r : code_now holder (h ++ [Sent (Start st hd) r]) = match st with Some z => z | None => 200 end.
Proof. unfold code_now, last_code. rewrite last_of_app, last_of_one. reflexivity. Qed.
Lemma code_now_same holder h i : (forall st hd r, i <> Sent (Start st hd) r) -> code_now holder (h ++ [i]) = code_now holder h.
Proof. intros H. unfold code_now, last_code. rewrite last_of_app, last_of_one. destruct i as [m|[st hd|b w|ty] r]; try reflexivity. now destruct (H st hd r). Qed.
Lemma run_traced v s holder route path p : o_server s <> Null -> forall h n n' r q,
  let o := run v h n r q p in
  let t := run v h n' r q (traced s (over r route) (cur q path) (code_now holder h) p) in
  calls t = calls o /\ ended t = ended o /\ left_route t = left_route o /\ left_path t = left_path o /\
  exists mid, notes t = n' ++ mid ++ tail_notes s (fst (written o route path)) (snd (written o route path)) (code_now holder (calls o)) (ended o) /\
    (silent p -> recorded mid = [] /\ forall k, k <> u "http.response.status_code" -> attribute k mid = None).
Proof.
  intros NN. induction p as [|e|k IH|m k IH|x p IH|x p IH|e p IH]; intros h n n' r q; cbn [traced].
  - rewrite run_finish by exact NN. cbn [run calls ended left_route left_path notes]. refine (conj eq_refl (conj eq_refl (conj eq_refl (conj eq_refl _)))).
    exists []. split; [|now auto]. destruct r; reflexivity.
  - destruct e as [c t|c].
    + rewrite run_note_all, run_finish by exact NN. cbn [run calls ended left_route left_path notes]. refine (conj eq_refl (conj eq_refl (conj eq_refl (conj eq_refl _)))).
      exists []. split; [|now auto]. rewrite <- app_assoc. destruct r; reflexivity.
    + rewrite run_finish by exact NN. cbn [run calls ended left_route left_path notes]. refine (conj eq_refl (conj eq_refl (conj eq_refl (conj eq_refl _)))).
      exists []. split; [|now auto]. destruct r; reflexivity.
  - cbn [run]. set (m := answer v h). rewrite <- (code_now_same holder h (Received m)) by (intros; discriminate).
    destruct (IH m (h ++ [Received m]) n n' r q) as (A & B & C & D & mid & M & S0). refine (conj A (conj B (conj C (conj D _)))). exists mid. split; [exact M|]. cbn [silent]. auto.
  - destruct m as [st hd|b w|ty].
    + cbn [run]. set (a := accept v h (Start st hd)). rewrite <- (code_now_start holder h st hd a).
      destruct (IH a (h ++ [Sent (Start st hd) a]) n (n' ++ [Attr (u "http.response.status_code") (AInt (code_now holder (h ++ [Sent (Start st hd) a])))]) r q) as (A & B & C & D & mid & M & S0).
      refine (conj A (conj B (conj C (conj D _)))). eexists (_ :: mid). split; [rewrite M, <- app_assoc; reflexivity|]. cbn [silent]. intros SI. destruct (S0 (SI a)) as (S1 & S2). split; [exact S1|].
      intros k0 K. change (attribute k0 ([Attr (u "http.response.status_code") (AInt (code_now holder (h ++ [Sent (Start st hd) a])))] ++ mid) = None).
      unfold attribute in *. rewrite last_of_app, last_of_one, (S2 k0 K). rewrite (proj2 (seqb_neq _ _) (fun E => K (eq_sym E))). reflexivity.
    + cbn [run]. set (a := accept v h (Chunk b w)). rewrite <- (code_now_same holder h (Sent (Chunk b w) a)) by (intros; discriminate).
      destruct (IH a (h ++ [Sent (Chunk b w) a]) n n' r q) as (A & B & C & D & mid & M & S0). refine (conj A (conj B (conj C (conj D _)))). exists mid. split; [exact M|]. cbn [silent]. auto.
    + cbn [run]. set (a := accept v h (Extra ty)). rewrite <- (code_now_same holder h (Sent (Extra ty) a)) by (intros; discriminate).
      destruct (IH a (h ++ [Sent (Extra ty) a]) n n' r q) as (A & B & C & D & mid & M & S0). refine (conj A (conj B (conj C (conj D _)))). exists mid. split; [exact M|]. cbn [silent]. auto.
  - cbn [run]. exact (IH h n n' (Some x) q).
  - cbn [run]. exact (IH h n n' r (Some x)).
  - cbn [run silent]. destruct (IH h (n ++ [e]) (n' ++ [e]) r q) as (A & B & C & D & mid & M & S0).
    refine (conj A (conj B (conj C (conj D _)))). exists (e :: mid). split; [rewrite M, <- app_assoc; reflexivity | now intros []].
Qed.
Lemma run_ends v s p : o_server s = Null -> forall h n n' r q route path holder,
  let t := run v h n' r q (traced s route path holder p) in
  calls t = calls (run v h n r q p) /\ ended t = Some TypeError.
Proof.
  intros NN. assert (F : forall h n r q route path holder e after, calls (run v h n r q (finish s route path holder e after)) = h /\ ended (run v h n r q (finish s route path holder e after)) = Some TypeError).
  { intros. unfold finish. rewrite run_note_all, NN. split; reflexivity. }
  induction p as [|e|k IH|m k IH|x p IH|x p IH|e p IH]; intros h n n' r q route path holder; cbn [traced].
  - apply F.
  - destruct e as [c t|c]; [rewrite run_note_all|]; apply F.
  - cbn [run]. apply IH.
  - destruct m as [st hd|b w|ty]; cbn [run]; apply IH.
  - cbn [run]. apply IH.
  - cbn [run]. apply IH.
  - cbn [run]. apply (IH h (n ++ [e]) (n' ++ [e])).
Qed.
(** The status code on the span follows the starts of responses. *)
Lemma run_code v s p : o_server s <> Null -> silent p -> forall h n' r q route path holder,
  attribute (u "http.response.status_code") n' = option_map AInt (last_code h) ->
  let t := run v h n' r q (traced s route path holder p) in
  attribute (u "http.response.status_code") (notes t) = option_map AInt (last_code (calls t)).
Proof.
  intros NN. assert (F : forall h n r q route path holder e after, (after = Done \/ exists x, after = Raise x) -> attribute (u "http.response.status_code") n = option_map AInt (last_code h) ->
    attribute (u "http.response.status_code") (notes (run v h n r q (finish s route path holder e after))) = option_map AInt (last_code (calls (run v h n r q (finish s route path holder e after))))).
  { intros h n r q route path holder e after A E. rewrite run_finish by exact NN. destruct A as [-> |(x & ->)]; cbn [run calls notes]; rewrite <- E; unfold attribute; rewrite last_of_app; destruct e; reflexivity. }
  assert (G : forall h i n, (forall st hd r, i <> Sent (Start st hd) r) -> attribute (u "http.response.status_code") n = option_map AInt (last_code h) ->
    attribute (u "http.response.status_code") n = option_map AInt (last_code (h ++ [i]))).
  { intros h i n H E. unfold last_code. rewrite last_of_app, last_of_one. destruct i as [m|[st hd|b w|ty] r]; try exact E. now destruct (H st hd r). }
  induction p as [|e|k IH|m k IH|x p IH|x p IH|e p IH]; intros SI h n' r q route path holder E; cbn [traced silent] in *.
  - apply F; auto.
  - destruct e as [c t|c]; [rewrite run_note_all; apply F; [eauto|]|apply F; [eauto|exact E]]. unfold attribute in *. rewrite last_of_app. exact E.
  - cbn [run]. apply IH; [apply SI | apply G; [intros; discriminate | exact E]].
  - destruct m as [st hd|b w|ty]; cbn [run]; apply IH; try apply SI; try (apply G; [intros; discriminate | exact E]).
    unfold attribute, last_code. rewrite !last_of_app, !last_of_one. reflexivity.
  - cbn [run]. now apply IH.
  - cbn [run]. now apply IH.
  - destruct SI.
Qed.
