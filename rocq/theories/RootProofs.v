(** Proofs about root paths. *)
From Verif Require Import PyStr PyStrFacts PathModel RouterModel RootModel RootSpec.

Lemma router_ind (P : route -> Prop) : (forall p, P (RPath p)) -> (forall rx cv rd cs, Forall P cs -> P (RInclude rx cv rd cs)) -> forall r, P r.
Proof. intros A B. fix go 1. intros [p|rx cv rd cs]; [apply A|]. apply B. induction cs; constructor; [apply go|assumption]. Qed.

(** ** Moving a request *)
Section Move.
Context (handlers : nat -> scope -> prog) (IND : indifferent handlers) (fr fp : str -> str) (good weak : scope -> Prop) (ok : route -> Prop).
Definition mv (sc : scope) : scope := {| sc_root := fr (sc_root sc); sc_path := fp (sc_path sc); sc_method := sc_method sc; sc_params := sc_params sc |}.
Definition mv_search (s : search_result) : search_result := match s with SFull c => SFull (mv c) | x => x end.
Definition mv_answer (a : answer) : answer := match a with ARedirect p => ARedirect (fp p) | x => x end.
Definition mv_call (c : call) : call := {| c_id := c_id c; c_root := fr (c_root c); c_params := c_params c; c_seen := c_seen c |}.
Definition mv_state (st : state) : state := {| st_sn := st_sn st; st_in := st_in st; st_log := map mv_call (st_log st) |}.
Definition mv_disp (d : dispatched) : dispatched :=
  match d with
  | DSent a st => DSent (mv_answer a) (mv_state st)
  | DSilent st => DSilent (mv_state st)
  | DContinue st => DContinue (mv_state st)
  | DPass ps st => DPass ps (mv_state st)
  | DError a st => DError (map mv_answer a) (mv_state st)
  end.
Definition mv_loop (l : loop_result) : loop_result :=
  match l with
  | LSent a st => LSent (mv_answer a) (mv_state st)
  | LEnd sc st had ps => LEnd (mv sc) (mv_state st) had ps
  | LError a st => LError (map mv_answer a) (mv_state st)
  end.
Context (H0 : forall sc, good sc -> weak sc).
Context (H1 : forall r sc, ok r -> weak sc -> search r (mv sc) = mv_search (search r sc)).
Context (H2 : forall r sc c, ok r -> good sc -> search r sc = SFull c -> good c).
Context (H3 : forall sc, good sc -> redirect_path (mv sc) = option_map fp (redirect_path sc)).
Context (H4 : forall sc p, good sc -> redirect_path sc = Some p -> weak (set_path sc p)).
Context (H5 : forall sc ps, good sc -> good (set_params sc ps)).
Context (H6 : forall rx cv rd cs, ok (RInclude rx cv rd cs) -> Forall ok cs).

Lemma mv_path p sc st : path_dispatch handlers p (mv sc) (mv_state st) = mv_disp (path_dispatch handlers p sc st).
Proof.
  unfold path_dispatch. rewrite (IND (pr_id p) (mv sc) sc) by reflexivity. cbn [mv_state st_sn st_in].
  destruct (run_prog _ _ _ _) as [[[[sent e] seen] sn'] inp']. assert (E : forall c l, map mv_call (l ++ [c]) = map mv_call l ++ [mv_call c]) by (intros; apply map_app).
  destruct sent, e; unfold mv_disp, mv_state; cbn [st_sn st_in st_log]; rewrite E; reflexivity.
Qed.
Lemma mv_any rs sc : Forall ok rs -> weak sc -> any_match rs (mv sc) = any_match rs sc.
Proof.
  intros F G. induction F as [|r rs O F IH]; [reflexivity|]. cbn [any_match]. rewrite H1 by assumption. destruct (search r sc); cbn [mv_search]; auto.
Qed.
Definition mv_redirect (r : redirect_result) : redirect_result := match r with RTo p => RTo (fp p) | x => x end.
Lemma mv_try en had rs sc : Forall ok rs -> good sc -> try_redirect en had rs (mv sc) = mv_redirect (try_redirect en had rs sc).
Proof.
  intros F G. unfold try_redirect. destruct (negb had && en); [|reflexivity]. rewrite H3 by assumption. destruct (redirect_path sc) as [p|] eqn:E; [|reflexivity].
  cbn [option_map]. change (set_path (mv sc) (fp p)) with (mv (set_path sc p)). rewrite mv_any; [|exact F|exact (H4 _ _ G E)]. destruct (any_match rs (set_path sc p)) as [[|]|]; reflexivity.
Qed.
Lemma mv_loop_eq disp rs : Forall ok rs ->
  (forall r, In r rs -> forall sc st, good sc -> disp r (mv sc) (mv_state st) = mv_disp (disp r sc st)) ->
  forall sc st had ps, good sc -> loop disp rs (mv sc) (mv_state st) had ps = mv_loop (loop disp rs sc st had ps).
Proof.
  intros F. induction F as [|r rs O F IH]; intros D sc st had ps G; [reflexivity|]. cbn [loop]. rewrite H1 by (try apply H0; assumption).
  assert (D' : forall r, In r rs -> forall sc st, good sc -> disp r (mv sc) (mv_state st) = mv_disp (disp r sc st)) by (intros; apply D; [right|]; assumption).
  destruct (search r sc) as [| | |c] eqn:E; cbn [mv_search].
  - apply (IH D'). exact G.
  - reflexivity.
  - apply (IH D'). exact G.
  - rewrite (D r (or_introl eq_refl)) by exact (H2 _ _ _ O G E).
    set (sc' := set_params sc (dupdate (sc_params sc) (sc_params c))).
    assert (G' : good sc') by (apply H5; exact G).
    assert (S1 : set_params (mv sc) (dupdate (sc_params (mv sc)) (sc_params (mv c))) = mv sc') by reflexivity. rewrite S1.
    assert (S2 : forall st, set_sn (mv_state st) (rearm (st_sn (mv_state st))) = mv_state (set_sn st (rearm (st_sn st)))) by reflexivity.
    destruct (disp r c st) as [a st'|st'|st'|qs st'|a st']; cbn [mv_disp].
    + reflexivity.
    + rewrite S2. apply (IH D'). exact G'.
    + rewrite S2. apply (IH D'). exact G'.
    + apply (IH D'). exact G'.
    + reflexivity.
Qed.
Lemma loop_good disp rs sc st had ps sc' st' had' ps' : good sc -> loop disp rs sc st had ps = LEnd sc' st' had' ps' -> good sc'.
Proof.
  revert sc st had ps. induction rs as [|r rs IH]; intros sc st had ps G E; cbn [loop] in E; [injection E as <- _ _ _; exact G|].
  destruct (search r sc) as [| | |c]; [exact (IH _ _ _ _ G E)|discriminate E|exact (IH _ _ _ _ G E)|].
  destruct (disp r c st); try discriminate E; (eapply IH; [|exact E]; apply H5; exact G).
Qed.
Lemma mv_dispatch r : ok r -> forall sc st, good sc -> dispatch handlers r (mv sc) (mv_state st) = mv_disp (dispatch handlers r sc st).
Proof.
  induction r as [p|rx cv rd cs IH] using router_ind; intros O sc st G; [apply mv_path|]. cbn [dispatch].
  assert (F : Forall ok cs) by exact (H6 _ _ _ _ O). rewrite Forall_forall in IH.
  change (set_sn (mv_state st) (fresh_sniffer :: st_sn (mv_state st))) with (mv_state (set_sn st (fresh_sniffer :: st_sn st))).
  rewrite (mv_loop_eq (dispatch handlers) cs F); [| |exact G].
  2:{ intros r I sc0 st0 G0. apply IH; [exact I| |exact G0]. rewrite Forall_forall in F. exact (F r I). }
  destruct (loop (dispatch handlers) cs sc (set_sn st (fresh_sniffer :: st_sn st)) false []) as [a st'|sc' st' had ps|a st'] eqn:E; cbn [mv_loop].
  - reflexivity.
  - rewrite mv_try; [|exact F|exact (loop_good _ _ _ _ _ _ _ _ _ _ G E)]. destruct (try_redirect rd had cs sc'); reflexivity.
  - reflexivity.
Qed.
Definition mv_outcome (o : outcome) : outcome := {| o_answers := map mv_answer (o_answers o); o_error := o_error o; o_calls := map mv_call (o_calls o) |}.
Lemma mv_router redirect rs sc inp : Forall ok rs -> good sc -> router_app handlers redirect rs (mv sc) inp = mv_outcome (router_app handlers redirect rs sc inp).
Proof.
  intros F G.
  assert (GEN : app_general handlers redirect rs (mv sc) inp = mv_outcome (app_general handlers redirect rs sc inp)).
  { unfold app_general. change {| st_sn := [fresh_sniffer]; st_in := inp; st_log := [] |} with (mv_state {| st_sn := [fresh_sniffer]; st_in := inp; st_log := [] |}) at 1.
    rewrite (mv_loop_eq (dispatch handlers) rs F); [| |exact G].
    2:{ intros r I sc0 st0 G0. apply mv_dispatch; [|exact G0]. rewrite Forall_forall in F. exact (F r I). }
    destruct (loop _ rs sc _ false []) as [a st'|sc' st' had ps|a st'] eqn:E; cbn [mv_loop]; [reflexivity| |reflexivity].
    rewrite mv_try; [|exact F|exact (loop_good _ _ _ _ _ _ _ _ _ _ G E)]. destruct (try_redirect redirect had rs sc'); [|reflexivity|reflexivity]. destruct ps; reflexivity. }
  unfold router_app. destruct rs as [|[p|] [|]]; try exact GEN.
  unfold app_fast. pose proof (H1 (RPath p) sc ltac:(inversion F; assumption) (H0 _ G)) as S. cbn [search] in S. rewrite S.
  destruct (path_search p sc) as [| | |c]; cbn [mv_search].
  - rewrite mv_try by assumption. destruct (try_redirect redirect false [RPath p] sc); reflexivity.
  - reflexivity.
  - reflexivity.
  - rewrite (IND (pr_id p) (mv c) c) by reflexivity. destruct (run_prog _ _ _ _) as [[[[sent e] seen] sn'] inp']. destruct sent, e; reflexivity.
Qed.
End Move.

(** ** Texts *)
Lemma route_below root rest : get_route_path root (root ++ rest) = rest.
Proof. unfold get_route_path. destruct root as [|c r]; [reflexivity|]. rewrite (proj2 (prefixb_iff (c :: r) ((c :: r) ++ rest))) by (eexists; reflexivity). rewrite skipn_app, skipn_all, Nat.sub_diag. reflexivity. Qed.
Definition no_double (path : str) : Prop := forall a b, path <> a ++ slash :: slash :: b.
Lemma strip_one x : last x 0%N <> slash -> rstrip_by is_slash (x ++ [slash]) = x.
Proof.
  intros L. unfold rstrip_by. rewrite rev_app_distr. cbn [rev app lstrip_by]. change (is_slash slash) with true. cbn iota.
  destruct (rev x) as [|c r] eqn:E; [apply (f_equal (@rev _)) in E; rewrite rev_involutive in E; subst; reflexivity|].
  assert (X : x = rev r ++ [c]) by (apply (f_equal (@rev _)) in E; rewrite rev_involutive in E; exact E). subst x. rewrite last_last in L.
  cbn [lstrip_by]. destruct (is_slash c) eqn:S; [unfold is_slash in S; apply N.eqb_eq in S; congruence|]. rewrite <- E, rev_involutive. reflexivity.
Qed.
Lemma suffix_slash x : suffixb [slash] x = true -> exists y, x = y ++ [slash].
Proof. unfold suffixb. cbn [rev app]. rewrite prefixb_iff. intros (r & E). exists (rev r). apply (f_equal (@rev _)) in E. rewrite rev_involutive in E. exact E. Qed.
