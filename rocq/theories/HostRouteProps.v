(** Theorems C114-C115: host routes. *)
From Verif Require Import PyStr PyStrFacts Asgi HeaderModel PathModel PathSpec PathProofs PathMatchProofs PathRevProofs PathIncProofs PathNestProofs HostRouteModel HostRouteSpec.

Lemma port_plain p : is_port p -> plain p.
Proof.
  intros [->|(d & -> & D)]; [intros ? []|]. intros x [<-|I]; [reflexivity|]. specialize (D x I).
  unfold is_digit in D. unfold is_open. destruct (N.eqb_spec x 123) as [->|]; [discriminate|]. destruct (N.eqb_spec x 60) as [->|]; [discriminate|reflexivity].
Qed.
Lemma before_colon a p : ~ In 58%N a -> is_port p -> match split_char 58 (a ++ p) with w :: _ => w | [] => [] end = a.
Proof.
  intros A [->|(d & -> & _)].
  - rewrite app_nil_r, split_char_free by exact A. reflexivity.
  - change (u ":" ++ d) with (58%N :: d). rewrite split_char_app by exact A. reflexivity.
Qed.
Definition compiled_host t port name routes : host_route :=
  {| hr_name := name; hr_regex := rx_of t; hr_format := format_parts (fst t) ++ snd t ++ port; hr_convs := convs_of (fst t); hr_routes := routes |}.
Lemma compile_host t port name routes : host_template t -> named_host t -> is_port port ->
  host_init (written t ++ port) name routes = Some (compiled_host t port name routes).
Proof.
  destruct t as [ps tail]. intros (H1 & H2 & H3 & H4) N P. unfold named_host in N. cbn [fst snd] in *. unfold host_init.
  assert (prefixb [slash] (written (ps, tail) ++ port) = false) as E.
  { destruct (prefixb [slash] (written (ps, tail) ++ port)) eqn:E; [|reflexivity]. exfalso. apply prefixb_iff in E as [q E].
    destruct (written (ps, tail)) as [|c w] eqn:W.
    - destruct P as [->|(d & -> & _)]; discriminate E.
    - cbn [app] in E. injection E as -> E. now apply (H4 w). }
  rewrite E. unfold compile_path. rewrite E. cbn [negb].
  assert (plain (tail ++ port)) as PT by (intros x I; apply in_app_or in I as [I|I]; [now apply H2|now apply (port_plain port)]).
  unfold finditer, written. cbn [fst snd]. rewrite <- app_assoc. rewrite (scan_written ps (tail ++ port)) by (auto; cbn; lia).
  unfold compiled_host. cbn [fst snd].
  destruct ps as [|[[l n] c] ps].
  - cbn [app generate fst snd]. rewrite before_colon by assumption. reflexivity.
  - cbn [app]. pose proof (generate_written ((l, n, c) :: ps) [] [] [] H3 ltac:(intros ? ? [])) as G.
    match goal with |- context [generate ?a ?b ?c0 ?d ?e] => replace (generate a b c0 d e) with
      (Some (flat_map (fun p => [RLit (fst (fst p)); RCap (snd (fst p)) (snd p)]) ((l, n, c) :: ps),
        format_parts ((l, n, c) :: ps), convs_of ((l, n, c) :: ps), false)) by (symmetry; exact G) end.
    rewrite before_colon by assumption. reflexivity.
Qed.

(** ** C114 *)
Definition host_header (hs : headers) : str := match hget (u "host") hs with Some v => v | None => [] end.
(** A host route serves exactly the requests whose host, in any case, is an instance of its template. *)
Definition C114_statement : Prop := forall t port name routes hr ty hs params host hport,
  host_template t -> is_port port -> host_init (written t ++ port) name routes = Some hr ->
  ty = u "http" \/ ty = u "websocket" ->
  host_header hs = host ++ hport -> is_host host -> is_port hport ->
  (host_search hr ty hs params <> HostNone <-> exists vs host', instance t vs host' /\ lower host' = lower host).

Definition plain_template (l : str) : template := ([], l).
Lemma plain_host l : plain l -> (forall q, l <> slash :: q) -> host_template (plain_template l).
Proof. intros P Q. split; [intros ? ? ? []|]. split; [exact P|]. split; [constructor|exact Q]. Qed.
Ltac all_lit := let x := fresh in let Hx := fresh in intros x Hx; vm_compute in Hx; decompose [or] Hx; subst; try reflexivity; contradiction.

(** Host names are compared with their case: a route for "example.org" does not serve "Example.org". *)
Theorem C114_case_refuted : ~ C114_statement.
Proof.
  intros H. destruct (host_init (u "example.org") None []) as [hr|] eqn:E; [|vm_compute in E; discriminate E].
  specialize (H (plain_template (u "example.org")) [] None [] hr (u "http") [(u "host", u "Example.org")] [] (u "Example.org") []).
  assert (host_search hr (u "http") [(u "host", u "Example.org")] [] = HostNone) as S.
  { vm_compute in E. injection E as <-. vm_compute. reflexivity. }
  destruct H as [_ H].
  - apply plain_host; [all_lit|]. intros q Q. discriminate Q.
  - now left.
  - exact E.
  - now left.
  - reflexivity.
  - left. intros I. vm_compute in I. decompose [or] I; try discriminate; contradiction.
  - now left.
  - apply H; [|exact S]. exists [], (u "example.org"). split; [split; [constructor|reflexivity]|reflexivity].
Qed.
Print Assumptions C114_case_refuted.
(** A route for one IPv6 address serves every address with the same first group: both the template and the header are cut at
    their first colon. *)
Theorem C114_ipv6_refuted : ~ C114_statement.
Proof.
  intros H. destruct (host_init (u "[2001:db8::1]") None []) as [hr|] eqn:E; [|vm_compute in E; discriminate E].
  specialize (H (plain_template (u "[2001:db8::1]")) [] None [] hr (u "http") [(u "host", u "[2001:db8::7]")] [] (u "[2001:db8::7]") []).
  assert (host_search hr (u "http") [(u "host", u "[2001:db8::7]")] [] = HostFull []) as S.
  { vm_compute in E. injection E as <-. vm_compute. reflexivity. }
  destruct H as [H _].
  - apply plain_host; [all_lit|]. intros q Q. discriminate Q.
  - now left.
  - exact E.
  - now left.
  - reflexivity.
  - right. exists (u "2001:db8::7"). reflexivity.
  - now left.
  - destruct H as (vs & h & [_ F] & L); [rewrite S; discriminate|]. unfold filled, plain_template in F. cbn [fst snd] in F.
    assert (h = u "[2001:db8::1]") as -> by (destruct vs; exact F). vm_compute in L. discriminate L.
Qed.
Print Assumptions C114_ipv6_refuted.

(** With a template without colon in its last text, for a host without colon and not ending in a newline,
    whatever the ports: the route matches exactly the instances of its template, and the converted
    parameters are added to those of the request. *)
Theorem C114_match_partial t port name routes hs params host hport ty :
  host_template t -> named_host t -> is_port port ->
  host_header hs = host ++ hport -> ~ In 58%N host -> is_port hport -> (forall q, host <> q ++ [10%N]) ->
  ty = u "http" \/ ty = u "websocket" ->
  exists hr, host_init (written t ++ port) name routes = Some hr /\
  match host_search hr ty hs params with
  | HostNone => forall vs, ~ instance t vs host
  | HostError => exists vs, instance t vs host /\ transform_all (convs_of (fst t)) vs = None
  | HostFull params' => exists vs matched, instance t vs host /\
      transform_all (convs_of (fst t)) vs = Some matched /\ merged params matched params'
  end.
Proof.
  intros W N P EH NC HP NL TY. eexists. split; [now apply compile_host|]. unfold host_search, compiled_host. cbn [hr_regex hr_convs].
  assert (seqb ty (u "http") || seqb ty (u "websocket") = true)%bool as -> by (destruct TY as [-> | ->]; reflexivity).
  unfold host_header in EH. rewrite EH. rewrite before_colon by assumption. destruct t as [ps tail].
  destruct (rmatch (rx_of (ps, tail)) host) as [vs|] eqn:E.
  - destruct (rmatch_sound _ _ _ _ E) as [Hs [Ho|Ho]]; [|exfalso; exact (NL _ Ho)].
    assert (instance (ps, tail) vs host) as I by (split; assumption). cbn [fst].
    destruct (transform_all (convs_of ps) vs) as [matched|] eqn:T; [|eauto].
    exists vs, matched. split; [exact I|]. split; [exact T|]. intros n. apply dget_dupdate.
    rewrite (transform_all_keys _ _ _ T). rewrite (suits_names _ _ Hs). destruct W as (_ & _ & W & _). exact W.
  - intros vs [Hs Ho]. apply (rmatch_complete ps tail vs host Hs (or_introl Ho) E).
Qed.
Print Assumptions C114_match_partial.
(** Other connections (lifespan) are not matched. *)
Theorem C114_others hr ty hs params : ty <> u "http" -> ty <> u "websocket" -> host_search hr ty hs params = HostNone.
Proof.
  intros A B. unfold host_search. destruct (seqb_spec ty (u "http")); [contradiction|]. destruct (seqb_spec ty (u "websocket")); [contradiction|reflexivity].
Qed.
Print Assumptions C114_others.
Example C114_case_met :
  let t : template := ([([], u "sub", CStr); (u ".n", u "id", CInt)], u ".example.org") in
  host_template t /\ named_host t /\ is_port (u ":8000") /\ written t = u "{sub:str}.n{id:int}.example.org" /\
  host_header [(u "host", u "a.b.n7.example.org:443")] = u "a.b.n7.example.org" ++ u ":443" /\
  match host_init (u "{sub}.n{id:int}.example.org:8000") None [] with
  | Some hr => host_search hr (u "websocket") [(u "host", u "a.b.n7.example.org:443")] [(u "id", VText (u "x"))] = HostFull [(u "id", VInt 7); (u "sub", VText (u "a.b"))] /\
               host_search hr (u "http") [(u "host", u "a.nx.example.org")] [] = HostNone /\
               host_search hr (u "http") [] [] = HostNone
  | None => False
  end.
Proof.
  cbv zeta. split; [|split; [|split; [|vm_compute; repeat split]]].
  - split; [|split; [|split]].
    + intros l n c [[= <- <- <-]|[[= <- <- <-]|[]]]; (split; [|split; [reflexivity|]]); all_lit.
    + all_lit.
    + constructor; [intros [H|[]]; discriminate H|]. constructor; [intros []|constructor].
    + intros q. discriminate.
  - intros I. vm_compute in I. decompose [or] I; try discriminate; contradiction.
  - right. exists (u "8000"). split; [reflexivity|]. all_lit.
Qed.

(** ** C115 *)
(** The URL made for a name below a host route has a host that the route serves, with the same
    parameters. *)
Definition C115_statement : Prop := forall t port name routes hr asked params host path,
  host_template t -> named_host t -> is_port port -> host_init (written t ++ port) name routes = Some hr ->
  NoDup (dkeys params) -> host_url hr asked params = HUrl host path ->
  exists params', host_search hr (u "http") [(u "host", host)] [] = HostFull params' /\
    forall n, In n (names (fst t)) -> dget n params' = dget n params.

Definition sub_template : template := ([([], u "sub", CStr)], u ".example.org").
Lemma sub_host : host_template sub_template /\ named_host sub_template.
Proof.
  split; [split; [|split; [|split]]|].
  - intros l n c [[= <- <- <-]|[]]; (split; [|split; [reflexivity|]]); all_lit.
  - all_lit.
  - constructor; [intros []|constructor].
  - intros q. discriminate.
  - intros I. vm_compute in I. decompose [or] I; try discriminate; contradiction.
Qed.
Definition home : rnode := NPath (u "home") (u "/") [].
(** A parameter of the host that is not given is not noticed: the URL gets the host "{sub}.example.org". *)
Theorem C115_missing_refuted : ~ C115_statement.
Proof.
  intros H. destruct (host_init (u "{sub:str}.example.org") (Some (u "sites")) [home]) as [hr|] eqn:E; [|vm_compute in E; discriminate E].
  destruct (H sub_template [] (Some (u "sites")) [home] hr (u "sites:home") [] (u "{sub}.example.org") (u "/")) as (p & _ & G).
  - apply sub_host.
  - apply sub_host.
  - now left.
  - exact E.
  - constructor.
  - vm_compute in E. injection E as <-. vm_compute. reflexivity.
  - vm_compute in E. injection E as <-. destruct (H sub_template [] (Some (u "sites")) [home]
      {| hr_name := Some (u "sites"); hr_regex := rx_of sub_template; hr_format := u "{sub}.example.org"; hr_convs := [(u "sub", CStr)]; hr_routes := [home] |}
      (u "sites:home") [] (u "{sub}.example.org") (u "/")) as (p' & S & G'); try (apply sub_host); try reflexivity.
    + now left.
    + constructor.
    + vm_compute in S. injection S as <-. specialize (G' (u "sub") (or_introl eq_refl)). vm_compute in G'. discriminate G'.
Qed.
Print Assumptions C115_missing_refuted.
(** A value with a colon gives a host that the route does not serve. *)
Theorem C115_colon_refuted : exists hr, host_init (u "{sub}.example.org") (Some (u "sites")) [home] = Some hr /\
  host_url hr (u "sites:home") [(u "sub", VText (u "a:b"))] = HUrl (u "a:b.example.org") (u "/") /\
  host_search hr (u "http") [(u "host", u "a:b.example.org")] [] = HostNone.
Proof. eexists. split; [vm_compute; reflexivity|]. split; vm_compute; reflexivity. Qed.
Print Assumptions C115_colon_refuted.

(** What [replace_params] makes of the host, and the parameters it leaves. *)
Lemma host_replace t port params vs : host_template t -> is_port port ->
  NoDup (dkeys params) -> (forall k, In k (dkeys params) -> is_ident k) ->
  (forall l n c v, In (l, n, c) (fst t) -> dget n params = Some v -> usable c v) -> rendered t params vs ->
  replace_params (format_parts (fst t) ++ snd t ++ port) (convs_of (fst t)) params true = RevOk (filled t vs ++ port) (sel (names (fst t)) false params).
Proof.
  destruct t as [ps tail]. intros (H1 & H2 & H3 & _) P Hnd Hid Hus Hr. cbn [fst snd] in *.
  change (map (fun p : str * str * conv => snd (fst p)) ps) with (names ps) in H3.
  assert (forall n, In n (names ps) -> In n (dkeys params)) as Hsub.
  { intros n Hn. clear -Hr Hn. unfold rendered in Hr. cbn [fst] in Hr. apply in_map_iff in Hn as (q & <- & Hin).
    induction Hr as [|q' nv qs vs [_ (v & Hv & _)] _ IH]; [destruct Hin|]. destruct Hin as [->|Hin]; [|auto].
    apply dget_Some_In in Hv. apply (in_map fst) in Hv. exact Hv. }
  destruct (usable_texts ps params Hus H3 (sel (names ps) true params)) as (tx & Htx & Hbr).
  { now apply NoDup_sel. }
  { intros k v Hin. unfold sel in Hin. apply filter_In in Hin as [Hin _]. now apply In_dget. }
  { intros n Hn. apply dkeys_sel in Hn as [_ E]. apply eqb_prop in E. now apply smem_In. }
  assert (forall n, In n (names ps) -> exists v c t, dget n params = Some v /\ dget n (convs_of ps) = Some c /\
            normalise c v = Some t /\ dget n tx = Some t) as Hall.
  { intros n Hn. destruct (dget n (sel (names ps) true params)) as [v|] eqn:E.
    - destruct (normal_get _ _ _ _ _ Htx E) as (c & t & ? & ? & ?). exists v, c, t. split; [|auto].
      rewrite dget_sel in E. destruct (Bool.eqb _ _); [assumption|discriminate].
    - exfalso. apply dget_None_keys in E. apply E. apply dkeys_sel. split; [now apply Hsub|]. apply smem_In in Hn. now rewrite Hn. }
  assert (texts_for ps tx = vs) as <-.
  { apply (rendered_unique (ps, tail) params); [now apply rendered_texts|exact Hr]. }
  unfold replace_params. rewrite <- (prender_pieces ps (tail ++ port)).
  rewrite (replace_loop_split (convs_of ps) (names ps) params tx (pieces_of ps (tail ++ port)) []); auto.
  - rewrite prender_filled by (intros n Hn; destruct (Hall n Hn) as (? & ? & ? & _ & _ & _ & ->); discriminate).
    unfold filled. cbn [fst snd app]. now rewrite app_assoc.
  - intros k Hk. split; [apply hole_names|apply hole_in].
  - apply pieces_ok; [assumption|]. intros x I. apply in_app_or in I as [I|I]; [now apply H2|now apply (port_plain port)].
Qed.

(** The way back: the host made of usable values, when it has no colon, can be read in one way and does not
    end in a newline. *)
Lemma host_back t port name routes params vs ty hs : host_template t -> is_port port ->
  (forall l n c v, In (l, n, c) (fst t) -> dget n params = Some v -> usable c v) -> rendered t params vs ->
  ~ In 58%N (filled t vs) -> one_reading t (filled t vs) -> (forall q, filled t vs <> q ++ [10%N]) ->
  ty = u "http" \/ ty = u "websocket" -> host_header hs = filled t vs ++ port ->
  exists params', host_search (compiled_host t port name routes) ty hs [] = HostFull params' /\
    forall n, dget n params' = if smem n (names (fst t)) then dget n params else None.
Proof.
  intros W P Hus Hr NC ONE NL TY EH. pose proof (rendered_suits t params vs Hus Hr) as Hs.
  destruct W as (_ & _ & W & _). change (map (fun p : str * str * conv => snd (fst p)) (fst t)) with (names (fst t)) in W.
  destruct (rendered_transforms t params vs W Hus Hr) as (m & Em & Hm).
  unfold host_search, compiled_host. cbn [hr_regex hr_convs].
  assert (seqb ty (u "http") || seqb ty (u "websocket") = true)%bool as -> by (destruct TY as [-> | ->]; reflexivity).
  unfold host_header in EH. rewrite EH. rewrite before_colon by assumption.
  assert (rmatch (rx_of t) (filled t vs) = Some vs) as ->.
  { destruct t as [ps tail]. destruct (rmatch (rx_of (ps, tail)) (filled (ps, tail) vs)) as [vs'|] eqn:E.
    - destruct (rmatch_sound _ _ _ _ E) as [Hs' [Ho|Ho]]; [|exfalso; exact (NL _ Ho)].
      f_equal. apply ONE; split; auto.
    - exfalso. apply (rmatch_complete ps tail vs _ Hs (or_introl eq_refl) E). }
  rewrite Em. eexists. split; [reflexivity|]. intros n. rewrite dget_dupdate.
  - rewrite Hm. destruct (smem n (names (fst t))); [|reflexivity]. destruct (dget n params); reflexivity.
  - rewrite (transform_all_keys _ _ _ Em), (suits_names _ _ Hs). exact W.
Qed.

(** A route inside any number of mounts below a host route (named "site:outer:inner:route", or
    unnamed): with values for the parameters of the host and of every level, the reverse lookup gives
    the filled host with its port, and the filled prefixes and route as the path; a request for that
    host is served by the host route, with the values given for the parameters of the host. *)
Theorem C115_roundtrip_partial t port own before child after name mounts leaf params vs0 vss vs :
  host_template t -> named_host t -> is_port port ->
  located child name mounts leaf -> wf_template leaf -> unambiguous leaf ->
  (forall b params, In b before -> node_url b name params = NoMatchFound) ->
  NoDup (names (fst t) ++ all_names mounts leaf) ->
  NoDup (dkeys params) -> (forall n, In n (dkeys params) <-> In n (names (fst t) ++ all_names mounts leaf)) ->
  (forall n, In n (dkeys params) -> is_ident n) ->
  Forall (fun t : template => forall l n c v, In (l, n, c) (fst t) -> dget n params = Some v -> usable c v) (t :: leaf :: map (fun tp => fst tp) mounts) ->
  rendered t params vs0 ->
  Forall2 (fun tp v => rendered (fst tp) params v /\ level_ok (fst tp) v) mounts vss ->
  rendered leaf params vs -> canonical (filled leaf vs) -> ~ In 10%N (filled leaf vs) ->
  exists hr, host_init (written t ++ port) own (before ++ child :: after) = Some hr /\
  host_url hr (match own with None => name | Some n => n ++ u ":" ++ name end) params =
    HUrl (filled t vs0 ++ port) (filled_mounts mounts vss ++ filled leaf vs) /\
  (~ In 58%N (filled t vs0) -> one_reading t (filled t vs0) -> (forall q, filled t vs0 <> q ++ [10%N]) ->
   forall ty hs, ty = u "http" \/ ty = u "websocket" -> host_header hs = filled t vs0 ++ port ->
   exists params', host_search hr ty hs [] = HostFull params' /\
     forall n, dget n params' = if smem n (names (fst t)) then dget n params else None).
Proof.
  intros W N P Hloc Hwl Hun Hb Hnd Hpd Hk Hid Hus Hr0 Hvss Hvs Hcan Hnl.
  inversion Hus as [|? ? Hu0 Hus']; subst. inversion Hus' as [|? ? Hul Hum]; subst.
  eexists. split; [now apply compile_host|]. split; [|intros; eapply host_back; eauto].
  set (rem := sel (names (fst t)) false params).
  assert (forall n, dget n rem = if smem n (names (fst t)) then None else dget n params) as Hrem.
  { intros n. unfold rem. rewrite dget_sel. now destruct (smem n (names (fst t))). }
  assert (forall n, In n (all_names mounts leaf) -> smem n (names (fst t)) = false) as Hdis.
  { intros n Hn. destruct (smem n (names (fst t))) eqn:E; [|reflexivity]. apply smem_In in E. exfalso. clear -Hnd E Hn.
    induction (names (fst t)) as [|x xs IHx]; [destruct E|]. cbn [app] in Hnd. inversion Hnd; subst. destruct E as [->|E]; [|auto].
    apply H1. apply in_or_app. now right. }
  assert (forall n, In n (all_names mounts leaf) -> dget n rem = dget n params) as Hsame by (intros n Hn; rewrite Hrem, Hdis by assumption; reflexivity).
  assert (forall tp, In tp mounts -> forall n, In n (names (fst (fst tp))) -> In n (all_names mounts leaf)) as Hinn.
  { intros tp Htp n Hn. unfold all_names. apply in_or_app. left. apply in_concat. exists (names (fst (fst tp))). split; [|assumption]. apply in_map_iff. now exists tp. }
  assert (forall n, In n (names (fst leaf)) -> In n (all_names mounts leaf)) as Hinl by (intros n Hn; unfold all_names; apply in_or_app; now right).
  assert (node_url child name rem = Url (filled_mounts mounts vss ++ filled leaf vs)) as Hchild.
  { apply (nested_url child name mounts leaf Hloc Hun (NoDup_app_tail _ _ Hnd) rem vss vs).
    - now apply NoDup_sel.
    - intros n. unfold rem. rewrite dkeys_sel, Hk, in_app_iff. split.
      + intros [[I|I] E]; [|exact I]. apply smem_In in I. rewrite I in E. discriminate E.
      + intros I. split; [now right|]. now rewrite Hdis.
    - rewrite Forall_forall in Hum |- *. intros tp Htp l n c v Hin Hd. apply (Hum (fst tp) (in_map _ _ _ Htp) l n c v Hin).
      rewrite <- Hsame; [assumption|]. apply (Hinn tp Htp). apply in_map_iff. now exists (l, n, c).
    - intros l n c v Hin Hd. apply (Hul l n c v Hin). rewrite <- Hsame; [assumption|]. apply Hinl. apply in_map_iff. now exists (l, n, c).
    - assert (forall ms, incl ms mounts -> forall w, Forall2 (fun tp v => rendered (fst tp) params v /\ level_ok (fst tp) v) ms w ->
           Forall2 (fun tp v => rendered (fst tp) rem v /\ level_ok (fst tp) v) ms w) as G.
      { intros ms Hincl w Hw. induction Hw as [|tp v ms w [Ha Hb'] _ IHw]; constructor.
        - split; [|assumption]. eapply rendered_ext; [|exact Ha]. intros n Hn. symmetry. apply Hsame. apply (Hinn tp); [apply Hincl; now left|assumption].
        - apply IHw. intros x Hx. apply Hincl. now right. }
      apply (G mounts (incl_refl _)). assumption.
    - eapply rendered_ext; [|exact Hvs]. intros n Hn. symmetry. apply Hsame. now apply Hinl.
    - exact Hcan.
    - intros q E. apply Hnl. rewrite E. apply in_or_app. right. now left. }
  assert (forall nm, skipn (match own with None => 0 | Some n => length n + 1 end) nm = name ->
    host_url_child (compiled_host t port own (before ++ child :: after)) nm params = HUrl (filled t vs0 ++ port) (filled_mounts mounts vss ++ filled leaf vs)) as HC.
  { intros nm Enm. unfold host_url_child, compiled_host. cbn [hr_name hr_format hr_convs hr_routes].
    rewrite (host_replace t port params vs0) by assumption. fold rem.
    assert (match own with None => nm | Some n => skipn (length n + 1) nm end = name) as -> by (destruct own; [exact Enm|exact Enm]).
    rewrite (first_url_skip (fun c => node_url c name rem)); [now rewrite Hchild|intros b Hin; now apply Hb|rewrite Hchild; discriminate]. }
  unfold host_url. cbn [compiled_host hr_name]. destruct own as [n|].
  - assert (seqb (n ++ u ":" ++ name) n = false) as ->.
    { destruct (seqb_spec (n ++ u ":" ++ name) n) as [E|]; [|reflexivity]. apply (f_equal (@length _)) in E. rewrite !app_length in E. change (length (u ":")) with 1 in E. lia. }
    assert (prefixb (n ++ u ":") (n ++ u ":" ++ name) = true) as -> by (apply prefixb_iff; exists name; now rewrite <- app_assoc).
    apply HC. rewrite app_assoc. replace (length n + 1) with (length (n ++ u ":")) by (rewrite app_length; reflexivity). apply skipn_prefix.
  - now apply HC.
Qed.
Print Assumptions C115_roundtrip_partial.
(** The host's own name, with the path given. *)
Theorem C115_named_partial t port n routes params vs path :
  host_template t -> named_host t -> is_port port ->
  NoDup (dkeys params) -> ~ In (u "path") (dkeys params) -> (forall k, In k (dkeys params) -> is_ident k) ->
  (forall l n c v, In (l, n, c) (fst t) -> dget n params = Some v -> usable c v) -> rendered t params vs ->
  exists hr, host_init (written t ++ port) (Some n) routes = Some hr /\
  host_url hr n ((u "path", VText path) :: params) =
    if forallb (fun k => smem k (names (fst t))) (dkeys params) then HUrl (filled t vs ++ port) path else HNoMatch.
Proof.
  intros W NH P Hnd Hp Hid Hus Hr. eexists. split; [now apply compile_host|].
  unfold host_url. cbn [compiled_host hr_name]. rewrite seqb_refl. cbn [dget]. change (seqb (u "path") (u "path")) with true. cbv iota.
  unfold host_url_named. cbn [compiled_host hr_format hr_convs].
  assert (ddel (u "path") ((u "path", VText path) :: params) = params) as ->.
  { unfold ddel. cbn [filter fst]. change (seqb (u "path") (u "path")) with true. cbn [negb]. clear -Hp.
    induction params as [|[k v] r IH]; [reflexivity|]. cbn [filter fst]. destruct (seqb_spec (u "path") k) as [<-|].
    - exfalso. apply Hp. now left.
    - cbn [negb]. f_equal. apply IH. intros I. apply Hp. now right. }
  rewrite (host_replace t port params vs) by assumption.
  destruct (forallb (fun k => smem k (names (fst t))) (dkeys params)) eqn:F.
  - assert (sel (names (fst t)) false params = []) as ->; [|reflexivity].
    clear -F. unfold sel, dkeys in *. induction params as [|[k v] r IH]; [reflexivity|]. cbn [map fst forallb filter] in *.
    apply andb_true_iff in F as [F1 F2]. rewrite F1. cbn [Bool.eqb]. now apply IH.
  - destruct (sel (names (fst t)) false params) as [|x r] eqn:E; [|reflexivity]. exfalso.
    assert (forallb (fun k => smem k (names (fst t))) (dkeys params) = true) as F'; [|congruence].
    apply forallb_forall. intros k I. destruct (smem k (names (fst t))) eqn:S; [reflexivity|].
    assert (In k (dkeys (sel (names (fst t)) false params))) as C by (apply dkeys_sel; now rewrite S). rewrite E in C. destruct C.
Qed.
Print Assumptions C115_named_partial.

(** Templates that can be read in one way only: those with at most one parameter, and those in which
    every parameter is followed by a character it cannot contain. *)
Theorem C115_one_parameter t h : length (fst t) <= 1 -> one_reading t h.
Proof.
  destruct t as [ps tail]. unfold one_reading, instance, suits, filled. cbn [fst snd]. intros L vs vs' [Hs E] [Hs' E'].
  destruct ps as [|[[l n] c] [|]]; [| |cbn in L; lia].
  - inversion Hs; inversion Hs'; reflexivity.
  - inversion Hs as [|? [n1 v] ? vs1 [Hn Hv] Hs1]; subst. inversion Hs' as [|? [n2 v'] ? vs2 [Hn' Hv'] Hs2]; subst.
    inversion Hs1; inversion Hs2; subst. cbn [fst snd] in *. subst. cbn [filled_parts] in E'. rewrite !app_nil_r, <- !app_assoc in E'.
    apply app_inv_head in E'. apply app_inv_tail in E'. now subst.
Qed.
Print Assumptions C115_one_parameter.
Theorem C115_delimited t h : unambiguous t -> one_reading t h.
Proof. intros U vs vs'. now apply instance_unique. Qed.
Print Assumptions C115_delimited.

Example C115_case_met :
  match compile_path (u "/users/{id:int}") with
  | Compiled _ f c =>
      let leaf : template := ([(u "/users/", u "id", CInt)], []) in
      let child := NPath (u "user") f c in
      let params := [(u "id", VInt 7); (u "sub", VText (u "a.b"))] in
      located child (u "user") [] leaf /\ rendered sub_template params [(u "sub", u "a.b")] /\ rendered leaf params [(u "id", u "7")] /\
      one_reading sub_template (u "a.b.example.org") /\
      match host_init (u "{sub}.example.org:8000") (Some (u "sites")) [home; child] with
      | Some hr => host_url hr (u "sites:user") params = HUrl (u "a.b.example.org:8000") (u "/users/7") /\
                   host_search hr (u "http") [(u "host", u "a.b.example.org:8000")] [] = HostFull [(u "sub", VText (u "a.b"))] /\
                   host_url hr (u "sites") [(u "path", VText (u "/x")); (u "sub", VText (u "c"))] = HUrl (u "c.example.org:8000") (u "/x")
      | None => False
      end
  | CompileError => False
  end.
Proof.
  destruct (compile_path (u "/users/{id:int}")) as [|r3 f3 c3] eqn:E3; [vm_compute in E3; discriminate|]. cbv zeta.
  split; [|split; [|split; [|split]]].
  - apply (loc_path _ _ r3); [|exact E3]. split; [|split; [|split]].
    + intros l n c [[= <- <- <-]|[]]; (split; [|split; [reflexivity|]]); all_lit.
    + intros ? [].
    + constructor; [intros []|constructor].
    + eexists. reflexivity.
  - constructor; [|constructor]. split; [reflexivity|]. eexists. split; reflexivity.
  - constructor; [|constructor]. split; [reflexivity|]. eexists. split; reflexivity.
  - apply C115_one_parameter. cbn. lia.
  - vm_compute in E3. injection E3 as <- <- <-. vm_compute. repeat split.
Qed.
