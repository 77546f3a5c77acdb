(** Properties of the documentation pages of openapi: the addresses they name, and the routes added. *)
From Verif Require Import PyStr PyStrFacts PathModel DocuiModel DocuiSpec.

(** C236: what a page shows as addresses: the root path of the request without its last slashes, then the address. *)
Definition without_slashes (root r : str) : Prop :=
  exists n, root = r ++ repeat 47%N n /\ forall q, r <> q ++ [47%N].
Definition reader (p : page) := match p with Swagger => js_text | _ => attr_text end.
Definition shown (c : urls) (p : page) (r : str) : list str :=
  (r ++ openapi_url c) :: match p with
                          | Swagger => match redirect_url c with [] => [] | a => [r ++ a] end
                          | _ => []
                          end.
Definition C236_statement : Prop := forall c k p,
  harmless (openapi_url c) -> harmless (redirect_url c) ->
  exists ps, forall root r, without_slashes root r -> values (reader p) ps (html c k p root) = Some (shown c p r).

Lemma rstrip_ok root r : without_slashes root r -> rstrip_by (N.eqb 47) root = r.
Proof.
  intros (n & -> & H). unfold rstrip_by. rewrite rev_app_distr.
  replace (rev (repeat 47%N n)) with (repeat 47%N n).
  2:{ clear. induction n as [|n IH]; [reflexivity|]. cbn [repeat rev]. rewrite <- IH. apply repeat_cons. }
  assert (L : lstrip_by (N.eqb 47) (rev r) = rev r).
  { destruct r as [|x r'] using rev_ind; [reflexivity|]. rewrite rev_app_distr. cbn [rev List.app lstrip_by].
    destruct (N.eqb_spec 47 x) as [<-|]; [|reflexivity]. destruct (H r' eq_refl). }
  induction n as [|n IH]; cbn [repeat List.app lstrip_by].
  - rewrite L. apply rev_involutive.
  - exact IH.
Qed.

Lemma js_harmless v t : harmless v -> js_text (v ++ u "'" ++ t) = Some (v, t).
Proof.
  intros H. induction v as [|c v IH]; [reflexivity|].
  destruct (H c (or_introl eq_refl)) as (A & B & C).
  assert (Hv : harmless v) by (intros x X; apply H; right; exact X). specialize (IH Hv).
  cbn [List.app js_text].
  destruct (N.eqb_spec c 39) as [->|_]; [destruct A; vm_compute; tauto|].
  destruct (N.eqb_spec c 10) as [->|_]; [congruence|]. destruct (N.eqb_spec c 13) as [->|_]; [congruence|].
  destruct (N.eqb_spec c 60) as [->|_]; [destruct A; vm_compute; tauto|].
  destruct (N.eqb_spec c 92) as [->|_]; [destruct A; vm_compute; tauto|].
  cbn [orb andb]. rewrite IH. reflexivity.
Qed.
Lemma attr_harmless v t : harmless v -> attr_text (v ++ u """" ++ t) = Some (v, t).
Proof.
  intros H. induction v as [|c v IH]; [reflexivity|].
  destruct (H c (or_introl eq_refl)) as (A & B & C).
  assert (Hv : harmless v) by (intros x X; apply H; right; exact X). specialize (IH Hv).
  cbn [List.app attr_text].
  destruct (N.eqb_spec c 34) as [->|_]; [destruct A; vm_compute; tauto|].
  destruct (N.eqb_spec c 38) as [->|_]; [destruct A; vm_compute; tauto|].
  rewrite IH. reflexivity.
Qed.
Lemma values_fixed rd s ps t : values rd (Fixed s :: ps) (s ++ t) = values rd ps t.
Proof.
  cbn [values]. replace (prefixb s (s ++ t)) with true by (symmetry; apply prefixb_iff; eexists; reflexivity).
  rewrite skipn_app, skipn_all, Nat.sub_diag. reflexivity.
Qed.
Lemma harmless_app a b : harmless a -> harmless b -> harmless (a ++ b).
Proof. intros A B c H. apply in_app_or in H. destruct H; auto. Qed.

Lemma values_value rd ps t0 v t : rd t0 = Some (v, t) ->
  values rd (Value :: ps) t0 = match values rd ps t with Some vs => Some (v :: vs) | None => None end.
Proof. intros E. cbn [values]. rewrite E. reflexivity. Qed.

(** Texts with one value after the other, for all harmless root paths. *)
Definition good (rd : str -> option (str * str)) (F : str -> str) (vs : str -> list str) : Prop :=
  exists ps, forall r, harmless r -> values rd ps (F r) = Some (vs r).
Lemma good_end rd A : good rd (fun _ => A) (fun _ => []).
Proof. exists [Fixed A]. intros r _. replace A with (A ++ []) at 2 by apply app_nil_r. rewrite values_fixed. reflexivity. Qed.
Lemma good_fixed rd A X vs : good rd X vs -> good rd (fun r => A ++ X r) vs.
Proof. intros [ps H]. exists (Fixed A :: ps). intros r Hr. rewrite values_fixed. apply H, Hr. Qed.
Lemma good_assoc rd (A T : str) V X vs : good rd (fun r => A ++ V r ++ T ++ X r) vs -> good rd (fun r => (A ++ V r ++ T) ++ X r) vs.
Proof. intros [ps H]. exists ps. intros r Hr. rewrite <- !app_assoc. apply H, Hr. Qed.
Lemma good_value rd q s T T' X vs :
  (forall v t, harmless v -> rd (v ++ q ++ t) = Some (v, t)) -> harmless s -> T = q ++ T' -> good rd X vs ->
  good rd (fun r => (r ++ s) ++ T ++ X r) (fun r => (r ++ s) :: vs r).
Proof.
  intros R Hs -> H. apply (good_fixed rd T') in H. destruct H as [ps H]. exists (Value :: ps). intros r Hr.
  rewrite <- app_assoc with (m := T'). rewrite (values_value rd ps _ (r ++ s) (T' ++ X r)).
  - rewrite (H r Hr). reflexivity.
  - apply R. apply harmless_app; assumption.
Qed.
Lemma good_last rd q s T T' :
  (forall v t, harmless v -> rd (v ++ q ++ t) = Some (v, t)) -> harmless s -> T = q ++ T' ->
  good rd (fun r => (r ++ s) ++ T) (fun r => [r ++ s]).
Proof.
  intros R Hs E. destruct (good_value rd q s T T' (fun _ => []) (fun _ => []) R Hs E) as [ps H].
  { exists []. reflexivity. }
  exists ps. intros r Hr. specialize (H r Hr). rewrite app_nil_r in H. exact H.
Qed.

Lemma quoted (T q : str) : seqb T (q ++ skipn (length q) T) = true -> T = q ++ skipn (length q) T.
Proof. apply seqb_eq. Qed.
#[local] Opaque u.
Lemma pages_good c k p : harmless (openapi_url c) -> harmless (redirect_url c) -> exists ps, forall root r,
  without_slashes root r -> harmless r -> values (reader p) ps (html c k p root) = Some (shown c p r).
Proof.
  intros HA HR.
  assert (G : good (reader p) (fun r => match p with
    | Swagger => swagger_html k (r ++ openapi_url c) (if given (redirect_url c) then Some (r ++ redirect_url c) else None)
    | Redoc => redoc_html k (r ++ openapi_url c)
    | Stoplight => stoplight_html k (r ++ openapi_url c)
    | Rapidoc => rapidoc_html k (r ++ openapi_url c) end) (shown c p)).
  { destruct p; cbn [reader].
    - unfold swagger_html. do 9 apply good_fixed.
      change (shown c Swagger) with (fun r => (r ++ openapi_url c) :: match redirect_url c with [] => [] | a => [r ++ a] end).
      eapply (good_value js_text (u "'")); [exact js_harmless|exact HA|apply quoted; vm_compute; reflexivity|]. apply good_fixed.
      destruct (redirect_url c) as [|x a] eqn:E; cbn [given].
      + do 2 apply good_fixed. apply good_end.
      + apply good_assoc. apply good_fixed.
        eapply (good_value js_text (u "'")); [exact js_harmless|exact HR|apply quoted; vm_compute; reflexivity|]. apply good_end.
    - unfold redoc_html. do 7 apply good_fixed. change (shown c Redoc) with (fun r => [r ++ openapi_url c]). eapply (good_value attr_text (u """")); [exact attr_harmless|exact HA|apply quoted; vm_compute; reflexivity|]. apply good_end.
    - unfold stoplight_html. do 10 apply good_fixed. change (shown c Stoplight) with (fun r => [r ++ openapi_url c]). eapply (good_last attr_text (u """")); [exact attr_harmless|exact HA|apply quoted; vm_compute; reflexivity].
    - unfold rapidoc_html. do 8 apply good_fixed. change (shown c Rapidoc) with (fun r => [r ++ openapi_url c]). eapply (good_last attr_text (u """")); [exact attr_harmless|exact HA|apply quoted; vm_compute; reflexivity]. }
  destruct G as [ps G]. exists ps. intros root r W Hr. unfold html. rewrite (rstrip_ok _ _ W).
  rewrite <- (G r Hr). reflexivity.
Qed.
#[local] Transparent u.

(** For every page, every configuration and every root path without special characters: the page is the same text for all
    requests, but for its quoted values, and they are the root path followed by the configured addresses. *)
Theorem C236_pages_partial c k p : harmless (openapi_url c) -> harmless (redirect_url c) ->
  exists ps, forall root r, without_slashes root r -> harmless r ->
  values (reader p) ps (html c k p root) = Some (shown c p r).
Proof. exact (pages_good c k p). Qed.
Print Assumptions C236_pages_partial.
Definition c1 : urls := {| openapi_url := u "/openapi.json"; docs_url := u "/docs/swagger"; redirect_url := u "/docs/oauth2-redirect";
  redoc_url := u "/docs/redoc"; stoplight_url := u "/docs/elements"; rapidoc_url := u "/docs/rapidoc" |}.
Definition k1 : look := {| title := u "Lilya"; css := u "a.css"; icon := u "a.ico"; js := u "a.js"; params := u """layout"": ""BaseLayout"","; init_oauth := None; fonts := false |}.
Example C236_case : harmless (openapi_url c1) /\ harmless (redirect_url c1) /\ harmless (u "/api") /\ without_slashes (u "/api//") (u "/api").
Proof.
  assert (H : forall s, forallb (fun c => negb (cmem c (u "'""\<&")) && negb (c =? 10)%N && negb (c =? 13)%N) s = true -> harmless s).
  { intros s F x X. rewrite forallb_forall in F. specialize (F x X). apply andb_prop in F as [F F3]. apply andb_prop in F as [F1 F2].
    apply negb_true_iff in F1, F2, F3. apply cmem_not_In in F1. apply N.eqb_neq in F2, F3. auto. }
  split; [|split; [|split]]; try (apply H; vm_compute; reflexivity).
  exists 2%nat. split; [reflexivity|]. intros q E. apply (f_equal (@rev N)) in E. rewrite rev_app_distr in E. vm_compute in E. discriminate.
Qed.

(** A value read from a script holds a quote only if the page has a backslash; one read from an attribute holds a double quote
    only if the page has an ampersand. *)
Definition needs (rd : str -> option (str * str)) (x y : N) : Prop :=
  forall t v t', rd t = Some (v, t') -> (In x v -> In y t) /\ (In y t' -> In y t).
Lemma js_needs : needs js_text 39 92.
Proof.
  intros t. induction t as [|c t IH]; intros v t' E; [discriminate|]. cbn [js_text] in E.
  destruct (N.eqb_spec c 39) as [->|N39].
  { injection E as <- <-. split; [intros []|intros H; right; exact H]. }
  destruct ((c =? 10)%N || (c =? 13)%N); [discriminate|].
  destruct ((c =? 60)%N && _); [discriminate|].
  destruct (N.eqb_spec c 92) as [->|_].
  { split; intros _; left; reflexivity. }
  destruct (js_text t) as [[w w']|] eqn:F; [|discriminate]. cbn [put] in E. injection E as <- <-.
  destruct (IH w w' eq_refl) as [A B]. split.
  - intros [->|H]; [congruence|right; auto].
  - intros H. right. auto.
Qed.
Lemma attr_needs : needs attr_text 34 38.
Proof.
  intros t. induction t as [|c t IH]; intros v t' E; [discriminate|]. cbn [attr_text] in E.
  destruct (N.eqb_spec c 34) as [->|N34].
  { injection E as <- <-. split; [intros []|intros H; right; exact H]. }
  destruct (N.eqb_spec c 38) as [->|_].
  { split; intros _; left; reflexivity. }
  destruct (attr_text t) as [[w w']|] eqn:F; [|discriminate]. cbn [put] in E. injection E as <- <-.
  destruct (IH w w' eq_refl) as [A B]. split.
  - intros [->|H]; [congruence|right; auto].
  - intros H. right. auto.
Qed.
Lemma values_need rd x y : needs rd x y -> forall ps t vs v, values rd ps t = Some vs -> In v vs -> In x v -> In y t.
Proof.
  intros R. induction ps as [|[s|] ps IH]; intros t vs v E Hv Hx; cbn [values] in E.
  - destruct t; [|discriminate]. injection E as <-. destruct Hv.
  - destruct (prefixb s t); [|discriminate]. specialize (IH _ _ _ E Hv Hx). rewrite <- (firstn_skipn (length s) t). apply in_or_app. right. exact IH.
  - destruct (rd t) as [[w t']|] eqn:F; [|discriminate]. destruct (values rd ps t') as [ws|] eqn:G; [|discriminate].
    injection E as <-. destruct (R _ _ _ F) as [A B]. destruct Hv as [->|Hv]; [auto|]. apply B. exact (IH _ _ _ G Hv Hx).
Qed.

(** The root path of a request is what a mount with a parameter matched, and any text without slash is. So no page of the four
    is safe: a quote in the path ends the text. *)
Theorem C236_refuted : ~ C236_statement /\
  forall p, ~ exists ps, forall root r rx fmt convs path params,
    compile_path (include_template (u "/{tenant}")) = Compiled rx fmt convs ->
    include_search rx convs [] path [] = IncFull params root -> without_slashes root r ->
    values (reader p) ps (html c1 k1 p root) = Some (shown c1 p r).
Proof.
  assert (W : forall s, match rev s with 47%N :: _ => False | _ => True end -> without_slashes s s).
  { intros s H. exists 0%nat. split; [symmetry; apply app_nil_r|]. intros q ->. rewrite rev_app_distr in H. exact H. }
  assert (K : forall p ps, values (reader p) ps (html c1 k1 p (u "/'""")) = Some (shown c1 p (u "/'""")) -> False).
  { intros p ps E.
    assert (In (match p with Swagger => 92 | _ => 38 end)%N (html c1 k1 p (u "/'"""))) as H.
    { assert (In ((u "/'""") ++ openapi_url c1) (shown c1 p (u "/'"""))) as I by (left; reflexivity).
      destruct p; (eapply values_need; [first [exact js_needs | exact attr_needs]|exact E|exact I|vm_compute; tauto]). }
    apply cmem_In in H. destruct p; vm_compute in H; discriminate. }
  split.
  - intros S. destruct (S c1 k1 Swagger) as [ps H]; [apply C236_case|apply C236_case|].
    apply (K Swagger ps). apply H. apply W. vm_compute. exact I.
  - intros p [ps H]. apply (K p ps).
    destruct (compile_path (include_template (u "/{tenant}"))) as [|rx fmt convs] eqn:C; [vm_compute in C; discriminate|].
    destruct (include_search rx convs [] (u "/'""/docs/swagger") []) as [| |params root] eqn:E;
      vm_compute in C; injection C as <- <- <-; vm_compute in E; try discriminate.
    injection E as <- <-. eapply (H _ _ _ _ _ (u "/'""/docs/swagger")); [reflexivity|vm_compute; reflexivity|apply W; vm_compute; exact I].
Qed.
Print Assumptions C236_refuted.

(** C237: the address shown reaches the document: at the same root path, the browser's request is routed to the address
    of the document, the first route added. *)
Theorem C237_reaches c k p : harmless (openapi_url c) -> harmless (redirect_url c) -> openapi_url c <> [] ->
  exists ps, forall root, harmless root -> (forall q, root <> q ++ [47%N]) ->
  exists address others, values (reader p) ps (html c k p root) = Some (address :: others) /\
    get_route_path root address = openapi_url c /\
    exists routes, enable c = (get_route_path root address, Document) :: routes.
Proof.
  intros HA HR Hne. destruct (pages_good c k p HA HR) as [ps H].
  exists ps. intros root Hr Hs. exists (root ++ openapi_url c), (tl (shown c p root)).
  assert (E : get_route_path root (root ++ openapi_url c) = openapi_url c).
  { unfold get_route_path. destruct root as [|x root']; [reflexivity|].
    replace (prefixb (x :: root') ((x :: root') ++ openapi_url c)) with true by (symmetry; apply prefixb_iff; eexists; reflexivity).
    rewrite skipn_app, skipn_all, Nat.sub_diag. reflexivity. }
  refine (conj _ (conj E _)).
  - rewrite (H root root); [reflexivity| |exact Hr]. exists 0%nat. split; [symmetry; apply app_nil_r|exact Hs].
  - rewrite E. unfold enable. destruct (openapi_url c) as [|x a]; [congruence|]. eexists. reflexivity.
Qed.
Print Assumptions C237_reaches.
Example C237_case : values js_text [Fixed (firstn 382 (html c1 k1 Swagger (u "/api"))); Value;
    Fixed (firstn 74 (skipn 400 (html c1 k1 Swagger (u "/api")))); Value; Fixed (skipn 500 (html c1 k1 Swagger (u "/api")))]
  (html c1 k1 Swagger (u "/other")) = Some [u "/other/openapi.json"; u "/other/docs/oauth2-redirect"].
Proof. vm_compute. reflexivity. Qed.

(** C238: without an address for the document there is no documentation. *)
Definition C238_statement : Prop := forall c, openapi_url c = [] -> enable c = [].
Theorem C238_refuted : ~ C238_statement.
Proof. intros S. specialize (S {| openapi_url := []; docs_url := []; redirect_url := u "/docs/oauth2-redirect"; redoc_url := []; stoplight_url := []; rapidoc_url := [] |} eq_refl). discriminate. Qed.
Print Assumptions C238_refuted.
(** Whatever the configuration: an address answered is one that was configured, with the page it was configured for; without
    an address for the document only the fixed page of oauth2 is left, and it goes with its address; with one, every
    configured address is answered. *)
Definition configured (c : urls) (t : target) : str :=
  match t with
  | Document => openapi_url c
  | Page Swagger => docs_url c
  | Page Redoc => redoc_url c
  | Page Stoplight => stoplight_url c
  | Page Rapidoc => rapidoc_url c
  | Redirected => redirect_url c
  end.
Theorem C238_partial c :
  (forall a t, In (a, t) (enable c) <-> a = configured c t /\ a <> [] /\ (openapi_url c <> [] \/ t = Redirected)) /\
  (openapi_url c = [] -> redirect_url c = [] -> enable c = []).
Proof.
  assert (G : forall s, given s = true <-> s <> []) by (intros [|x s]; cbn; split; congruence).
  split.
  - intros a t. unfold enable. rewrite !in_app_iff.
    destruct (given (openapi_url c)) eqn:O.
    + pose proof (proj1 (G _) O) as O'. cbn [andb].
      assert (X : forall (b : str) (r : target), In (a, t) (if given b then [(b, r)] else []) <-> a = b /\ t = r /\ b <> []).
      { intros b r. destruct (given b) eqn:Gb; cbn [In].
        - apply G in Gb. split; [intros [[= <- <-]|[]]; auto|intros (-> & -> & _); left; reflexivity].
        - split; [intros []|]. intros (_ & _ & Y). apply G in Y. congruence. }
      rewrite !X. cbn [In]. split.
      * intros [[[= <- <-]|[]]|[(-> & -> & Y)|[(-> & -> & Y)|[(-> & -> & Y)|[(-> & -> & Y)|(-> & -> & Y)]]]]]; cbn [configured]; auto.
      * intros (-> & Y & _). destruct t as [|[| | |]|]; cbn [configured] in Y |- *; tauto.
    + cbn [andb In]. assert (O' : openapi_url c = []) by (destruct (openapi_url c); [reflexivity|discriminate]).
      destruct (given (redirect_url c)) eqn:R; cbn [In].
      * apply G in R. split.
        -- intros [[]|[[]|[[[= <- <-]|[]]|[[]|[[]|[]]]]]]. cbn [configured]. auto.
        -- intros (-> & Y & [Z| ->]); [congruence|]. right; right; left; left. reflexivity.
      * split; [tauto|]. intros (-> & Y & [Z| ->]); [congruence|]. cbn [configured] in Y. apply G in Y. congruence.
  - intros O R. unfold enable. rewrite O, R. reflexivity.
Qed.
Print Assumptions C238_partial.
Example C238_case : enable c1 = [(u "/openapi.json", Document); (u "/docs/swagger", Page Swagger); (u "/docs/oauth2-redirect", Redirected);
  (u "/docs/redoc", Page Redoc); (u "/docs/elements", Page Stoplight); (u "/docs/rapidoc", Page Rapidoc)].
Proof. reflexivity. Qed.
