(** C48, C49, C85-C89: the reverse proxy. *)
From Coq Require Import Permutation.
From Verif Require Import PyStr PyStrFacts RelayModel.
Local Open Scope N_scope.

(** Hop-by-hop names of RFC 2616 13.5.1 (with "Trailer" for "Trailers"). *)
Definition hop_name (n : str) : Prop :=
  lower n = u "connection" \/ lower n = u "keep-alive" \/ lower n = u "proxy-authenticate" \/ lower n = u "proxy-authorization"
  \/ lower n = u "te" \/ lower n = u "trailer" \/ lower n = u "transfer-encoding" \/ lower n = u "upgrade".
(** A name is in a list of names, whatever the case. *)
Definition listed (n : str) (l : list str) : Prop := exists m, In m l /\ lower m = lower n.
Lemma hop_iff n : smem (lower n) hop_by_hop = true <-> hop_name n.
Proof.
  rewrite smem_In. unfold hop_by_hop, hop_name. split.
  - intros I. repeat (destruct I as [I|I]; [symmetry in I; tauto|]). destruct I.
  - intros H. repeat (destruct H as [H|H]; [rewrite H; cbn [In]; tauto|]). rewrite H. cbn [In]. tauto.
Qed.
Lemma listed_iff n l : smem (lower n) (lowers l) = true <-> listed n l.
Proof. rewrite smem_In. unfold lowers, listed. rewrite in_map_iff. split; intros (m & A & B); exists m; auto. Qed.

(** ** C48 *)
(** What the proxy adds to every request by itself. *)
Definition own_name (cfg : config) (k : str) : Prop :=
  k = u "x-forwarded-for" \/ k = u "x-forwarded-proto" \/ k = u "x-forwarded-host" \/ (preserve_host cfg = false /\ k = u "host").
Definition C48_request_drop_statement : Prop := forall cfg hs client scheme k, extra cfg = [] ->
  In k (dkeys (prepare_request_headers cfg hs client scheme)) -> ~ hop_name k /\ ~ listed k (drop_request cfg).
Definition C48_request_keep_statement : Prop := forall cfg hs client scheme k v, extra cfg = [] -> allow_request cfg = None ->
  In (k, v) hs -> ~ hop_name k -> ~ listed k (drop_request cfg) -> ~ own_name cfg k -> In (k, v) (prepare_request_headers cfg hs client scheme).
Definition C48_request_allow_statement : Prop := forall cfg hs client scheme k l, extra cfg = [] -> allow_request cfg = Some l ->
  In k (dkeys (prepare_request_headers cfg hs client scheme)) -> ~ own_name cfg k -> listed k l.
Definition plain_config : config :=
  {| base_host := u "auth.local"; upstream_prefix := u "/api"; preserve_host := false; extra := []; drop_request := []; drop_response := [];
     allow_request := None; allow_response := None; max_retries := 2; retry_statuses := [502; 503; 504]; rewrite := None |}.
Definition dropping (l : list str) : config :=
  {| base_host := u "auth.local"; upstream_prefix := u "/api"; preserve_host := false; extra := []; drop_request := l; drop_response := l;
     allow_request := None; allow_response := None; max_retries := 2; retry_statuses := [502; 503; 504]; rewrite := Some (fun _ => None) |}.
Definition allowing (l : list str) : config :=
  {| base_host := u "auth.local"; upstream_prefix := u "/api"; preserve_host := false; extra := []; drop_request := []; drop_response := [];
     allow_request := Some l; allow_response := Some l; max_retries := 2; retry_statuses := [502; 503; 504]; rewrite := None |}.
(** A dropped X-Forwarded-For is sent all the same. *)
Theorem C48_request_drop_refuted : ~ C48_request_drop_statement.
Proof.
  intros H. destruct (H (dropping [u "X-Forwarded-For"]) [] None (u "http") (u "x-forwarded-for") eq_refl) as [_ N]; [vm_compute; tauto|].
  apply N. exists (u "X-Forwarded-For"). split; [left; reflexivity|reflexivity].
Qed.
Print Assumptions C48_request_drop_refuted.
(** Of two headers of one name only the last is forwarded. *)
Theorem C48_request_keep_refuted : ~ C48_request_keep_statement.
Proof.
  intros H. specialize (H plain_config [(u "cookie", u "a=1"); (u "cookie", u "b=2")] None (u "http") (u "cookie") (u "a=1") eq_refl eq_refl (or_introl eq_refl)).
  assert (N : ~ In (u "cookie", u "a=1") (prepare_request_headers plain_config [(u "cookie", u "a=1"); (u "cookie", u "b=2")] None (u "http"))) by (vm_compute; intuition discriminate).
  apply N, H.
  - unfold hop_name. vm_compute. intuition discriminate.
  - intros (m & [] & _).
  - unfold own_name. vm_compute. intuition discriminate.
Qed.
Print Assumptions C48_request_keep_refuted.
(** The allow list has no effect. *)
Theorem C48_request_allow_refuted : ~ C48_request_allow_statement.
Proof.
  intros H. destruct (H (allowing [u "accept"]) [(u "cookie", u "a=1")] None (u "http") (u "cookie") [u "accept"] eq_refl eq_refl) as (m & I & E).
  - vm_compute. tauto.
  - unfold own_name. vm_compute. intuition discriminate.
  - destruct I as [<-|[]]. vm_compute in E. discriminate E.
Qed.
Print Assumptions C48_request_allow_refuted.

Lemma dget_of_In {V} (d : dict V) j w : NoDup (dkeys d) -> In (j, w) d -> dget j d = Some w.
Proof.
  induction d as [|[a b] d IH]; [intros _ []|]. unfold dkeys. cbn [map fst dget]. intros ND I. inversion ND as [|? ? N1 N2]; subst. destruct I as [E|I].
  - injection E as -> ->. rewrite seqb_refl. reflexivity.
  - destruct (seqb j a) eqn:E; [apply seqb_eq in E; subst a; exfalso; apply N1; apply (in_map fst) in I; exact I|]. apply IH; assumption.
Qed.
Lemma In_of_dget {V} (d : dict V) j w : dget j d = Some w -> In (j, w) d.
Proof. induction d as [|[a b] d IH]; cbn [dget]; [discriminate|]. destruct (seqb j a) eqn:E; [apply seqb_eq in E; subst a; intros [= ->]; left; reflexivity|right; auto]. Qed.
Lemma key_of_dget {V} (d : dict V) j : In j (dkeys d) <-> dget j d <> None.
Proof. rewrite dget_None_keys. split; [auto|]. intros H. destruct (in_dec (list_eq_dec N.eq_dec) j (dkeys d)); [assumption|contradiction]. Qed.
(** What [copy_headers] makes of a name: the last value, if it may pass. *)
Definition passes (cfg : config) (k : str) : bool := negb (smem (lower k) hop_by_hop || smem (lower k) (lowers (drop_request cfg))).
Fixpoint last_value (k : str) (hs : list (str * str)) : option str :=
  match hs with [] => None | (j, v) :: r => match last_value k r with Some w => Some w | None => if seqb j k then Some v else None end end.
Lemma copied cfg out hs k : dget k (copy_headers cfg out hs) = if passes cfg k then match last_value k hs with Some v => Some v | None => dget k out end else dget k out.
Proof.
  revert out. induction hs as [|[j v] hs IH]; intros out; cbn [copy_headers last_value]; [destruct (passes cfg k); reflexivity|]. rewrite IH.
  destruct (seqb j k) eqn:E.
  - apply seqb_eq in E. subst j. unfold passes. destruct (smem (lower k) hop_by_hop || smem (lower k) (lowers (drop_request cfg))); cbn [negb]; [reflexivity|].
    rewrite dget_dset_same. destruct (last_value k hs); reflexivity.
  - apply seqb_neq in E. assert (G : dget k (if smem (lower j) hop_by_hop || smem (lower j) (lowers (drop_request cfg)) then out else dset j v out) = dget k out).
    { destruct (_ || _); [reflexivity|]. apply dget_dset_other. congruence. }
    rewrite G. destruct (last_value k hs); reflexivity.
Qed.
Lemma prepared cfg hs client scheme k : extra cfg = [] -> ~ own_name cfg k ->
  dget k (prepare_request_headers cfg hs client scheme) = if passes cfg k then last_value k hs else None.
Proof.
  intros EX NO. unfold prepare_request_headers. rewrite EX. cbn zeta. unfold own_name in NO.
  rewrite !dget_dset_other by (intros ->; apply NO; tauto). cbn [dupdate].
  assert (C := copied cfg [] hs k). cbn [dget] in C. destruct (preserve_host cfg) eqn:P.
  - change (dupdate (copy_headers cfg [] hs) []) with (copy_headers cfg [] hs). rewrite C. destruct (passes cfg k); [destruct (last_value k hs); reflexivity|reflexivity].
  - change (dupdate (copy_headers cfg [] hs) []) with (copy_headers cfg [] hs). rewrite dget_dset_other by (intros ->; apply NO; tauto). rewrite C. destruct (passes cfg k); [destruct (last_value k hs); reflexivity|reflexivity].
Qed.
Lemma passes_iff cfg k : passes cfg k = true <-> ~ hop_name k /\ ~ listed k (drop_request cfg).
Proof. unfold passes. rewrite negb_true_iff, orb_false_iff, <- hop_iff, <- listed_iff, !not_true_iff_false. tauto. Qed.
Lemma last_value_In k hs v : last_value k hs = Some v -> In (k, v) hs.
Proof. induction hs as [|[j w] hs IH]; cbn [last_value]; [discriminate|]. destruct (last_value k hs); [intros E; right; apply IH; exact E|]. destruct (seqb j k) eqn:E; [apply seqb_eq in E; subst; intros [= ->]; left; reflexivity|discriminate]. Qed.
Lemma last_value_once k hs v : In (k, v) hs -> NoDup (map fst hs) -> last_value k hs = Some v.
Proof.
  induction hs as [|[j w] hs IH]; [intros []|]. cbn [map fst last_value]. intros I ND. inversion ND as [|? ? N1 N2]; subst. destruct I as [E|I].
  - injection E as -> ->. rewrite seqb_refl. destruct (last_value k hs) eqn:L; [|reflexivity]. apply last_value_In in L. exfalso. apply N1. apply (in_map fst) in L. exact L.
  - rewrite (IH I N2). reflexivity.
Qed.
(** Without headers of its own making, the proxy forwards exactly the headers that are neither hop-by-hop nor
    dropped (of equal names the last), and what it adds is as documented. *)
Theorem C48_request_partial : forall cfg hs client scheme, extra cfg = [] ->
  let sent := prepare_request_headers cfg hs client scheme in
  (forall k, In k (dkeys sent) -> own_name cfg k \/ (~ hop_name k /\ ~ listed k (drop_request cfg) /\ exists v, In (k, v) hs /\ dget k sent = Some v))
  /\ (NoDup (map fst hs) -> forall k v, In (k, v) hs -> ~ hop_name k -> ~ listed k (drop_request cfg) -> ~ own_name cfg k -> dget k sent = Some v)
  /\ dget (u "x-forwarded-proto") sent = Some (if list_eq_dec N.eq_dec scheme (u "https") then u "https" else u "http")
  /\ (preserve_host cfg = false -> base_host cfg <> [] -> dget (u "host") sent = Some (base_host cfg) /\ dget (u "x-forwarded-host") sent = Some (base_host cfg))
  /\ (forall ip, client = Some ip -> ip <> [] -> exists before, dget (u "x-forwarded-for") sent = Some (before ++ ip)
        /\ (before = [] \/ exists v, In (u "x-forwarded-for", v) hs /\ before = v ++ u ", ")).
Proof.
  intros cfg hs client scheme EX sent.
  assert (OWN : forall k, own_name cfg k \/ ~ own_name cfg k).
  { intros k. unfold own_name. destruct (list_eq_dec N.eq_dec k (u "x-forwarded-for")); [tauto|]. destruct (list_eq_dec N.eq_dec k (u "x-forwarded-proto")); [tauto|]. destruct (list_eq_dec N.eq_dec k (u "x-forwarded-host")); [tauto|].
    destruct (preserve_host cfg); [right; intuition discriminate|]. destruct (list_eq_dec N.eq_dec k (u "host")); [tauto|]. right. tauto. }
  refine (conj _ (conj _ (conj _ (conj _ _)))).
  - intros k I. destruct (OWN k) as [O|O]; [auto|right]. apply key_of_dget in I. unfold sent in *. rewrite prepared in * by assumption. destruct (passes cfg k) eqn:P; [|contradiction]. apply passes_iff in P as [P1 P2].
    split; [exact P1|]. split; [exact P2|]. destruct (last_value k hs) as [v|] eqn:L; [|contradiction]. exists v. split; [apply last_value_In; exact L|reflexivity].
  - intros ND k v I H1 H2 O. unfold sent. rewrite prepared by assumption. assert (P : passes cfg k = true) by (apply passes_iff; auto). rewrite P. apply last_value_once; assumption.
  - unfold sent, prepare_request_headers. cbn zeta. rewrite dget_dset_other by (vm_compute; discriminate). rewrite dget_dset_same. destruct (list_eq_dec N.eq_dec scheme (u "https")) as [->|NE]; [reflexivity|]. apply seqb_neq in NE. rewrite NE. reflexivity.
  - intros PH BH. unfold sent, prepare_request_headers. cbn zeta. rewrite PH. set (h1 := dupdate _ _). assert (NB : nonempty (base_host cfg) = true) by (destruct (base_host cfg); [contradiction|reflexivity]). rewrite NB. split.
    + rewrite !dget_dset_other by (vm_compute; discriminate). apply dget_dset_same.
    + rewrite dget_dset_same. rewrite !dget_dset_other by (vm_compute; discriminate). rewrite dget_dset_same. reflexivity.
  - intros ip -> NI. unfold sent, prepare_request_headers. cbn zeta. cbn [or_empty]. assert (NB : nonempty ip = true) by (destruct ip; [contradiction|reflexivity]). rewrite NB.
    rewrite !(dget_dset_other (u "x-forwarded-for")) by (vm_compute; discriminate). rewrite dget_dset_same.
    set (h1 := if preserve_host cfg then _ else _).
    assert (G : dget (u "x-forwarded-for") h1 = if passes cfg (u "x-forwarded-for") then last_value (u "x-forwarded-for") hs else None).
    { unfold h1. rewrite EX. change (dupdate (copy_headers cfg [] hs) []) with (copy_headers cfg [] hs). assert (C := copied cfg [] hs (u "x-forwarded-for")). cbn [dget] in C.
      assert (E : dget (u "x-forwarded-for") (copy_headers cfg [] hs) = if passes cfg (u "x-forwarded-for") then last_value (u "x-forwarded-for") hs else None) by (rewrite C; destruct (passes _ _); [destruct (last_value _ _)|]; reflexivity).
      destruct (preserve_host cfg); [exact E|]. rewrite dget_dset_other by (vm_compute; discriminate). exact E. }
    destruct (dget (u "x-forwarded-for") h1) as [v|] eqn:D.
    + cbn [or_empty]. destruct v as [|c v]; cbn [nonempty andb].
      * exists []. auto.
      * exists ((c :: v) ++ u ", "). rewrite <- app_assoc. split; [reflexivity|]. right. exists (c :: v). split; [|reflexivity]. destruct (passes cfg _); [|discriminate G]. symmetry in G. apply last_value_In in G. exact G.
    + cbn [or_empty nonempty andb]. exists []. auto.
Qed.
Print Assumptions C48_request_partial.
Example C48_request_case : prepare_request_headers (dropping [u "X-Secret"]) [(u "host", u "front"); (u "TE", u "x"); (u "x-secret", u "1"); (u "accept", u "a"); (u "x-forwarded-for", u "1.1.1.1")] (Some (u "2.2.2.2")) (u "https")
  = [(u "host", u "auth.local"); (u "accept", u "a"); (u "x-forwarded-for", u "1.1.1.1, 2.2.2.2"); (u "x-forwarded-proto", u "https"); (u "x-forwarded-host", u "auth.local")].
Proof. reflexivity. Qed.

(** Responses. *)
Definition C48_response_drop_statement : Prop := forall cfg hs k v, In (k, v) (response_headers cfg hs) -> ~ hop_name k /\ ~ listed k (drop_response cfg).
Definition C48_response_keep_statement : Prop := forall cfg hs k v, rewrite cfg = None -> allow_response cfg = None -> In (k, v) hs -> ~ hop_name k -> ~ listed k (drop_response cfg) ->
  exists j, In (j, v) (response_headers cfg hs) /\ lower j = lower k.
Definition C48_response_allow_statement : Prop := forall cfg hs k v l, allow_response cfg = Some l -> In (k, v) (response_headers cfg hs) -> listed k l.
(** Cookies come back when they are rewritten, though Set-Cookie is dropped. *)
Theorem C48_response_drop_refuted : ~ C48_response_drop_statement.
Proof.
  intros H. destruct (H (dropping [u "Set-Cookie"]) [(u "Set-Cookie", u "a=1")] (u "set-cookie") (u "a=1")) as [_ N]; [vm_compute; tauto|]. apply N. exists (u "Set-Cookie"). split; [left; reflexivity|reflexivity].
Qed.
Print Assumptions C48_response_drop_refuted.
(** Two cookies are joined to one header. *)
Theorem C48_response_keep_refuted : ~ C48_response_keep_statement.
Proof.
  intros H. destruct (H plain_config [(u "set-cookie", u "a=1"); (u "set-cookie", u "b=2")] (u "set-cookie") (u "a=1") eq_refl eq_refl (or_introl eq_refl)) as (j & I & _).
  - unfold hop_name. vm_compute. intuition discriminate.
  - intros (m & [] & _).
  - vm_compute in I. destruct I as [I|[]]. discriminate I.
Qed.
Print Assumptions C48_response_keep_refuted.
Theorem C48_response_allow_refuted : ~ C48_response_allow_statement.
Proof.
  intros H. destruct (H (allowing [u "accept"]) [(u "etag", u "x")] (u "etag") (u "x") [u "accept"] eq_refl) as (m & I & E); [vm_compute; tauto|]. destruct I as [<-|[]]. vm_compute in E. discriminate E.
Qed.
Print Assumptions C48_response_allow_refuted.

(** The values of a name (whatever the case) in order. *)
Definition values_of (k : str) (hs : list (str * str)) : list str := map snd (filter (fun p => seqb (lower (fst p)) (lower k)) hs).
Lemma joined_get out hs k : dget (lower k) (joined out hs) = match values_of k hs with [] => dget (lower k) out | vs => Some (join (u ", ") (match dget (lower k) out with Some w => w :: vs | None => vs end)) end.
Proof.
  revert out. induction hs as [|[j v] hs IH]; intros out; cbn [joined]; [reflexivity|]. rewrite IH. unfold values_of. cbn [filter fst]. fold (values_of k hs).
  destruct (seqb (lower j) (lower k)) eqn:E.
  - apply seqb_eq in E. cbn [map snd]. rewrite E, dget_dset_same. fold (values_of k hs). destruct (dget (lower k) out) as [w|] eqn:G.
    + destruct (values_of k hs) as [|x r]; [reflexivity|]. f_equal. cbn [join]. rewrite <- !app_assoc. reflexivity.
    + destruct (values_of k hs) as [|x r]; reflexivity.
  - apply seqb_neq in E. rewrite dget_dset_other by congruence. reflexivity.
Qed.
Lemma joined_keys out hs k : In k (dkeys (joined out hs)) -> In k (dkeys out) \/ k = lower k.
Proof.
  revert out. induction hs as [|[j v] hs IH]; intros out; cbn [joined]; [auto|]. intros I. apply IH in I as [I|I]; [|auto]. apply key_of_dget in I. destruct (list_eq_dec N.eq_dec k (lower j)) as [->|NE]; [right; symmetry; apply lower_idem|]. rewrite dget_dset_other in I by exact NE. left. apply key_of_dget. exact I.
Qed.
Lemma dset_nodup {V} k (v : V) d : NoDup (dkeys d) -> NoDup (dkeys (dset k v d)).
Proof.
  unfold dkeys. induction d as [|[a b] d IH]; cbn [dset map fst]; [repeat constructor; intros []|]. intros ND. inversion ND as [|? ? N1 N2]; subst. destruct (seqb k a) eqn:E; cbn [map fst].
  - apply seqb_eq in E. subst a. constructor; assumption.
  - constructor; [|apply IH; exact N2]. intros I. apply (key_of_dget (dset k v d) a) in I. apply seqb_neq in E. rewrite dget_dset_other in I by congruence. apply key_of_dget in I. contradiction.
Qed.
Lemma joined_nodup out hs : NoDup (dkeys out) -> NoDup (dkeys (joined out hs)).
Proof. revert out. induction hs as [|[j v] hs IH]; intros out H; cbn [joined]; [exact H|]. apply IH, dset_nodup, H. Qed.
Lemma items_In hs k v : In (k, v) (httpx_items hs) <-> k = lower k /\ values_of k hs <> [] /\ v = join (u ", ") (values_of k hs).
Proof.
  unfold httpx_items. split.
  - intros I. assert (K : k = lower k) by (assert (J := in_map fst _ _ I); apply joined_keys in J as [[]|J]; exact J). apply dget_of_In in I; [|apply joined_nodup; constructor]. rewrite K, joined_get in I. cbn [dget] in I. split; [exact K|]. destruct (values_of k hs); [discriminate I|]. split; [discriminate|]. congruence.
  - intros (K & N & ->). apply In_of_dget. rewrite K at 1. rewrite joined_get. cbn [dget]. destruct (values_of k hs); [contradiction|reflexivity].
Qed.
Lemma kept_iff cfg k : negb (smem (lower k) hop_by_hop || smem (lower k) (lowers (drop_response cfg))) && negb (seqb (lower k) (u "transfer-encoding")) = true <-> ~ hop_name k /\ ~ listed k (drop_response cfg).
Proof.
  rewrite andb_true_iff, !negb_true_iff, orb_false_iff, <- hop_iff, <- listed_iff, !not_true_iff_false. split; [tauto|]. intros [A B]. split; [tauto|]. rewrite <- not_true_iff_false. intros E. apply seqb_eq in E. rewrite E in A. vm_compute in A. discriminate A.
Qed.
Lemma values_lower k j hs : lower k = lower j -> values_of k hs = values_of j hs.
Proof. intros E. unfold values_of. rewrite E. reflexivity. Qed.
(** Without rewriting, the client gets exactly the headers that are neither hop-by-hop nor dropped; the values of
    one name are joined with commas. *)
Theorem C48_response_partial : forall cfg hs k v, rewrite cfg = None ->
  In (k, v) (response_headers cfg hs) <-> k = lower k /\ ~ hop_name k /\ ~ listed k (drop_response cfg) /\ values_of k hs <> [] /\ v = join (u ", ") (values_of k hs).
Proof.
  intros cfg hs k v R. unfold response_headers. rewrite R. cbn zeta. unfold sanitize_response_headers. rewrite filter_In. cbn [fst]. rewrite kept_iff, items_In. tauto.
Qed.
Print Assumptions C48_response_partial.
Corollary C48_response_once_partial : forall cfg hs k v, rewrite cfg = None -> values_of k hs = [v] -> ~ hop_name k -> ~ listed k (drop_response cfg) -> In (lower k, v) (response_headers cfg hs).
Proof.
  intros cfg hs k v R V H D. apply C48_response_partial; [exact R|]. assert (V' : values_of (lower k) hs = [v]) by (rewrite <- V; apply values_lower, lower_idem). rewrite V'. split; [symmetry; apply lower_idem|]. unfold hop_name, listed in *. rewrite lower_idem. split; [exact H|]. split; [exact D|]. split; [discriminate|reflexivity].
Qed.
Print Assumptions C48_response_once_partial.
(** With rewriting, unless Set-Cookie is to be dropped, there is one header per cookie, and all else is as before. *)
Theorem C48_rewritten_partial : forall cfg hs rw k v, rewrite cfg = Some rw -> ~ listed (u "set-cookie") (drop_response cfg) ->
  (In (k, v) (response_headers cfg hs) -> ~ hop_name k /\ ~ listed k (drop_response cfg))
  /\ (lower k <> u "set-cookie" -> In (k, v) (response_headers cfg hs) <-> k = lower k /\ ~ hop_name k /\ ~ listed k (drop_response cfg) /\ values_of k hs <> [] /\ v = join (u ", ") (values_of k hs))
  /\ values_of (u "set-cookie") (response_headers cfg hs) = map (rewrite_cookie rw) (values_of (u "set-cookie") hs).
Proof.
  intros cfg hs rw k v R D. unfold response_headers. rewrite R. cbn zeta. unfold rewrite_response_cookies.
  assert (SC : set_cookies hs = values_of (u "set-cookie") hs) by reflexivity. rewrite SC.
  assert (BASE : forall k v, In (k, v) (sanitize_response_headers cfg (httpx_items hs)) <-> k = lower k /\ ~ hop_name k /\ ~ listed k (drop_response cfg) /\ values_of k hs <> [] /\ v = join (u ", ") (values_of k hs)).
  { intros k' v'. unfold sanitize_response_headers. rewrite filter_In. cbn [fst]. rewrite kept_iff, items_In. tauto. }
  assert (HOP : ~ hop_name (u "set-cookie")) by (unfold hop_name; vm_compute; intuition discriminate).
  destruct (values_of (u "set-cookie") hs) as [|c cs] eqn:V.
  - split; [intros I; apply BASE in I; tauto|]. split; [intros _; apply BASE|]. cbn [map].
    destruct (values_of (u "set-cookie") (sanitize_response_headers cfg (httpx_items hs))) as [|x r] eqn:W; [reflexivity|].
    assert (I : In x (values_of (u "set-cookie") (sanitize_response_headers cfg (httpx_items hs)))) by (rewrite W; left; reflexivity). unfold values_of in I. apply in_map_iff in I. destruct I as ((a, b) & _ & I). apply filter_In in I as [I E]. cbn [fst] in E. apply seqb_eq in E. apply BASE in I. rewrite (values_lower a (u "set-cookie") hs E), V in I. tauto.
  - set (F := filter _ _). assert (FI : forall a b, In (a, b) F <-> In (a, b) (sanitize_response_headers cfg (httpx_items hs)) /\ lower a <> u "set-cookie").
    { intros a b. unfold F. rewrite filter_In. cbn [fst]. rewrite negb_true_iff. split; intros [X Y]; (split; [exact X|]). - apply seqb_neq. exact Y. - apply seqb_neq. exact Y. }
    split; [|split].
    + intros I. apply in_app_or in I as [I|I]; [apply FI in I as [I _]; apply BASE in I; tauto|]. apply in_map_iff in I. destruct I as (y & E & _). injection E as <- _. auto.
    + intros NE. rewrite in_app_iff, FI, BASE. split; [|tauto]. intros [H|I]; [tauto|]. apply in_map_iff in I. destruct I as (y & E & _). injection E as <- _. contradiction NE. reflexivity.
    + unfold values_of. rewrite filter_app, map_app. assert (E0 : filter (fun p => seqb (lower (fst p)) (lower (u "set-cookie"))) F = []).
      { destruct (filter _ F) as [|[a b] r] eqn:W; [reflexivity|]. assert (I : In (a, b) (filter (fun p => seqb (lower (fst p)) (lower (u "set-cookie"))) F)) by (rewrite W; left; reflexivity). apply filter_In in I as [I E]. cbn [fst] in E. apply seqb_eq in E. apply FI in I as [_ I]. contradiction. }
      rewrite E0. cbn [map app]. assert (G : forall l, map snd (filter (fun p => seqb (lower (fst p)) (lower (u "set-cookie"))) (map (fun c => (u "set-cookie", rewrite_cookie rw c)) l)) = map (rewrite_cookie rw) l).
      { induction l as [|y l IH]; [reflexivity|]. cbn [map filter fst]. rewrite seqb_refl. cbn [map snd]. f_equal. exact IH. }
      exact (G (c :: cs)).
Qed.
Print Assumptions C48_rewritten_partial.
Example C48_rewritten_case : response_headers (dropping [u "server"]) [(u "Server", u "x"); (u "Set-Cookie", u "a=1"); (u "ETag", u "e"); (u "Upgrade", u "h2c"); (u "set-cookie", u "b=2")]
  = [(u "etag", u "e"); (u "set-cookie", u "a=1"); (u "set-cookie", u "b=2")].
Proof. reflexivity. Qed.
