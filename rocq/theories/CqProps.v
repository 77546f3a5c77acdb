(** C205-C207: the envelope of CQRS messages. *)
From Verif Require Import PyStr PyStrFacts Base64 Utf8 JsonModel JsonSpec JsonProofs JsonProps EncModel HeaderModel HeaderProofs EncModel EncSpec EncProps CqModel.
Local Open Scope Z_scope.

Lemma back_plain j : writable j -> plain (back j) /\ as_json (back j) = j.
Proof.
  induction j as [|b|z|t|s|l IH|l IH] using jvalue_ind'; cbn [writable back plain as_json]; auto.
  - intros F. apply fold_and in F. rewrite Forall_forall in *. split.
    + apply fold_and, Forall_forall. intros v I. apply in_map_iff in I. destruct I as (j & <- & I). apply IH; auto.
    + f_equal. rewrite map_map. rewrite <- (map_id l) at 2. apply map_ext_in. intros j I. apply IH; auto.
  - intros [ND F]. apply fold_and in F. rewrite Forall_forall in *. split; [split|].
    + rewrite map_map. exact ND.
    + apply fold_and, Forall_forall. intros e I. apply in_map_iff in I. destruct I as (x & <- & I). cbn [fst snd]. destruct (F x I) as (A & B). split; [exact A | apply IH; auto].
    + f_equal. rewrite map_map. rewrite <- (map_id l) at 2. apply map_ext_in. intros e I. cbn [fst snd]. destruct (F e I) as (A & B). destruct (IH e I B) as (_ & ->). now destruct e.
Qed.
Lemma plain_encode v : plain v -> exists n0, forall n, (n0 <= n)%nat -> json_encode DEFAULT_ENCODER_TYPES None false n v = Some v.
Proof.
  intros P. destruct (plain_facts v P) as (W & B & _). destruct (encode_of v (as_json v) (plain_converts v P) W) as (n0 & E). exists n0. intros n L. rewrite <- B at 2. now apply E.
Qed.
(** A payload of a known class is encoded to a plain value from which it is restored. *)
Lemma payload_encode t v : instance t v -> simple v -> exists r n0, plain r /\ apply_structure DEFAULT_ENCODER_TYPES t r = Some v /\
  forall n, (n0 <= n)%nat -> json_encode DEFAULT_ENCODER_TYPES None false n v = Some r /\ json_encode DEFAULT_ENCODER_TYPES None false n r = Some r.
Proof.
  intros I S0. destruct (restored_leaf t v I S0) as (j & C & W & A). destruct (encode_of v j C W) as (n1 & E1). destruct (back_plain j W) as (P & _). destruct (plain_encode _ P) as (n2 & E2).
  exists (back j), (Nat.max n1 n2). refine (conj P (conj A _)). intros n L. split; [apply E1 | apply E2]; lia.
Qed.
Definition wire (name version headers payload : pv) : pv :=
  PDict [(u "meta", PDict [(u "name", name); (u "version", version); (u "headers", headers)]); (u "payload", payload)].
Lemma from_wire iof tn t name z h r v : apply_structure DEFAULT_ENCODER_TYPES t r = Some v ->
  from_json iof tn t (wire name (PInt z) h r) =
  Some {| e_payload := v; e_meta := {| m_name := or_else (Some name) (PStr tn); m_version := PInt (if z =? 0 then 1 else z); m_headers := or_else (Some h) (PDict []) |} |}.
Proof.
  intros A. transitivity (match py_int iof (or_else (Some (PInt z)) (PInt 1)) with
    | Some version => match apply_structure DEFAULT_ENCODER_TYPES t r with
        | Some p => Some {| e_payload := p; e_meta := {| m_name := or_else (Some name) (PStr tn); m_version := PInt version; m_headers := or_else (Some h) (PDict []) |} |}
        | None => None
        end
    | None => None
    end); [reflexivity|]. rewrite A. cbn [or_else truthy]. destruct (Z.eqb_spec z 0); reflexivity.
Qed.
Lemma wire_plain name z h r : plain name -> plain h -> plain r -> plain (wire name (PInt z) h r).
Proof.
  intros N0 H R. assert (SC : forall s, forallb (fun c => (c <? 128)%N) s = true -> Forall scalar s) by apply ascii_scalar.
  cbn [wire plain map fst snd fold_right]. repeat (match goal with |- _ /\ _ => split | |- True => exact I end); auto; try (apply SC; reflexivity);
    repeat constructor; cbn [In]; intuition discriminate.
Qed.

(** * C205: an envelope crosses the wire *)
(** [exists n0]: for every recursion limit large enough.  [json_encode] of the dict is its text parsed again. *)
Theorem C205_round_trip : forall int_of_float type_name t payload name version headers,
  instance t payload -> simple payload -> plain (PStr name) -> name <> [] -> version <> 0 -> plain (PDict headers) ->
  let e := {| e_payload := payload; e_meta := {| m_name := PStr name; m_version := PInt version; m_headers := PDict headers |} |} in
  exists n0 data, forall n, (n0 <= n)%nat ->
    to_json n e = Some data /\ json_encode DEFAULT_ENCODER_TYPES None false n data = Some data /\
    from_json int_of_float type_name t data = Some e.
Proof.
  intros iof tn t payload name version headers I S0 PN NE V PH e. destruct (payload_encode t payload I S0) as (r & n1 & PR & A & E). destruct (plain_encode _ PH) as (n2 & EH).
  destruct (plain_encode _ (wire_plain (PStr name) version (PDict headers) r PN PH PR)) as (n3 & EW). exists (Nat.max n1 (Nat.max n2 n3)), (wire (PStr name) (PInt version) (PDict headers) r).
  intros n L. destruct (E n ltac:(lia)) as (E1 & E2). refine (conj _ (conj (EW n ltac:(lia)) _)).
  - unfold to_json, to_plain, e. cbn [e_payload e_meta m_headers m_name m_version]. rewrite E1, EH, E2 by lia. reflexivity.
  - rewrite (from_wire iof tn t (PStr name) version (PDict headers) r payload A). unfold e, or_else. destruct name; [now destruct NE|]. destruct (Z.eqb_spec version 0); [contradiction|]. destruct headers; reflexivity.
Qed.
Print Assumptions C205_round_trip.
Example C205_case : let t := TData (u "CreateUser") [u "name"; u "tags"] in
  let payload := PData (u "CreateUser") [(u "name", PStr (u "ann")); (u "tags", PList [PInt 1; PNone])] in
  let e := {| e_payload := payload; e_meta := {| m_name := PStr (u "create"); m_version := PInt 2; m_headers := PDict [(u "id", PStr (u "7"))] |} |} in
  instance t payload /\ simple payload /\
  to_json 9 e = Some (PDict [(u "meta", PDict [(u "name", PStr (u "create")); (u "version", PInt 2); (u "headers", PDict [(u "id", PStr (u "7"))])]);
    (u "payload", PDict [(u "name", PStr (u "ann")); (u "tags", PList [PInt 1; PNone])])]).
Proof.
  refine (conj _ (conj _ _)); [split; reflexivity| |vm_compute; reflexivity].
  split; [repeat constructor; cbn [In]; intuition discriminate|]. repeat constructor; cbn [fst snd]; try (apply ascii_scalar; reflexivity); cbn [plain map fold_right]; auto.
Qed.

(** * C206: every envelope does *)
Definition C206_statement : Prop := forall int_of_float type_name t payload name version headers n data,
  instance t payload -> simple payload -> plain (PStr name) -> plain (PDict headers) ->
  let e := {| e_payload := payload; e_meta := {| m_name := PStr name; m_version := PInt version; m_headers := PDict headers |} |} in
  to_json n e = Some data -> from_json int_of_float type_name t data = Some e.
(** Version 0 becomes version 1. *)
Theorem C206_version_refuted : ~ C206_statement.
Proof.
  intros H. specialize (H (fun _ => None) (u "bytes") TBytes (PBytes [1%N]) (u "a") 0 [] 5%nat).
  match type of H with forall data, _ => specialize (H (wire (PStr (u "a")) (PInt 0) (PDict []) (PStr (u "AQ==")))) end.
  assert (X : forall a b, Some a = Some b -> m_version (e_meta a) = m_version (e_meta b)) by congruence.
  assert (E : PInt 1 = PInt 0); [|discriminate E].
  rewrite (from_wire (fun _ => None) (u "bytes") TBytes (PStr (u "a")) 0 (PDict []) (PStr (u "AQ==")) (PBytes [1%N]) ltac:(vm_compute; reflexivity)) in H.
  refine (X _ _ (H I _ _ _ _)); [intros c [<-|[]]; reflexivity | cbn; apply ascii_scalar; reflexivity | cbn; split; [constructor | exact I] | vm_compute; reflexivity].
Qed.
Print Assumptions C206_version_refuted.
(** What comes back: the payload, the headers, the name unless it is empty and the version unless it is 0. *)
Theorem C206_exact_partial : forall int_of_float type_name t payload name version headers,
  instance t payload -> simple payload -> plain (PStr name) -> plain (PDict headers) ->
  let e := {| e_payload := payload; e_meta := {| m_name := PStr name; m_version := PInt version; m_headers := PDict headers |} |} in
  exists n0 data, forall n, (n0 <= n)%nat -> to_json n e = Some data /\
    from_json int_of_float type_name t data =
    Some {| e_payload := payload;
            e_meta := {| m_name := PStr (match name with [] => type_name | _ => name end); m_version := PInt (if version =? 0 then 1 else version); m_headers := PDict headers |} |}.
Proof.
  intros iof tn t payload name version headers I S0 PN PH e. destruct (payload_encode t payload I S0) as (r & n1 & PR & A & E). destruct (plain_encode _ PH) as (n2 & EH).
  exists (Nat.max n1 n2), (wire (PStr name) (PInt version) (PDict headers) r).
  intros n L. destruct (E n ltac:(lia)) as (E1 & E2). split.
  - unfold to_json, to_plain, e. cbn [e_payload e_meta m_headers m_name m_version]. rewrite E1, EH, E2 by lia. reflexivity.
  - rewrite (from_wire iof tn t (PStr name) version (PDict headers) r payload A). unfold or_else. destruct name; destruct headers; reflexivity.
Qed.
Print Assumptions C206_exact_partial.

(** * C207: what is accepted from the wire *)
(** From any JSON object an envelope is made only with a payload of the asked class, a version that is a number, and
    a name; without metadata these are the defaults. *)
Theorem C207_accepted : forall int_of_float type_name t data e, plain data -> (forall c, t <> TOther c) -> type_name <> [] ->
  from_json int_of_float type_name t data = Some e ->
  instance t (e_payload e) /\ (exists z, m_version (e_meta e) = PInt z) /\ m_name (e_meta e) <> PNone /\ m_name (e_meta e) <> PStr [] /\
  exists fields, data = PDict fields /\
    (match dget (u "meta") fields with None | Some PNone | Some (PDict []) => True | _ => False end ->
     e_meta e = {| m_name := PStr type_name; m_version := PInt 1; m_headers := PDict [] |}).
Proof.
  intros iof tn t data e P NT TN E. unfold from_json in E. destruct data as [|b|z|x|s|l|l|l|l|c' l|c' l|c' s|b|k|y m d|y m d hh mm ss us|c']; try discriminate E. cbn [py_get] in E.
  destruct (py_get (u "name") (or_else (dget (u "meta") l) (PDict []))) as [n|] eqn:EN; [|discriminate].
  destruct (py_get (u "version") (or_else (dget (u "meta") l) (PDict []))) as [ve|] eqn:EV; [|discriminate].
  destruct (py_get (u "headers") (or_else (dget (u "meta") l) (PDict []))) as [h|] eqn:EH; [|discriminate].
  destruct (py_int iof (or_else ve (PInt 1))) as [z|] eqn:EI; [|discriminate].
  destruct (apply_structure DEFAULT_ENCODER_TYPES t (match dget (u "payload") l with Some p => p | None => PNone end)) as [p|] eqn:EA; [|discriminate].
  assert (X : e = {| e_payload := p; e_meta := {| m_name := or_else n (PStr tn); m_version := PInt z; m_headers := or_else h (PDict []) |} |}) by congruence. clear E. subst e. cbn [e_payload e_meta m_name m_version m_headers].
  assert (TR : truthy (or_else n (PStr tn)) = true).
  { unfold or_else. destruct n as [v|]; [destruct (truthy v) eqn:T; [exact T|]|]; cbn; destruct tn; [now destruct TN | reflexivity | now destruct TN | reflexivity]. }
  refine (conj _ (conj (ex_intro _ z eq_refl) (conj _ (conj _ (ex_intro _ l (conj eq_refl _)))))).
  - apply (C109_class_partial t (match dget (u "payload") l with Some p => p | None => PNone end) p); [|exact EA | exact NT].
    destruct (dget (u "payload") l) as [v|] eqn:G; [|exact I]. cbn [plain] in P. destruct P as (_ & F). apply fold_and in F. rewrite Forall_forall in F. exact (proj2 (F _ (dget_In _ _ _ G))).
  - intros EQ. rewrite EQ in TR. discriminate TR.
  - intros EQ. rewrite EQ in TR. discriminate TR.
  - intros M. assert (R : or_else (dget (u "meta") l) (PDict []) = PDict []).
    { destruct (dget (u "meta") l) as [[]|]; try contradiction; try reflexivity. match goal with x : list (str * pv) |- _ => destruct x end; [reflexivity | contradiction]. }
    rewrite R in EN, EV, EH. cbn in EN, EV, EH. injection EN as <-. injection EV as <-. injection EH as <-. cbn in EI. injection EI as <-. reflexivity.
Qed.
Print Assumptions C207_accepted.
Example C207_case : let t := TData (u "Ping") [u "n"] in
  from_json (fun _ => None) (u "Ping") t (PDict [(u "payload", PDict [(u "n", PInt 3)])]) =
    Some {| e_payload := PData (u "Ping") [(u "n", PInt 3)]; e_meta := {| m_name := PStr (u "Ping"); m_version := PInt 1; m_headers := PDict [] |} |} /\
  from_json (fun _ => None) (u "Ping") t (PDict [(u "payload", PDict [(u "m", PInt 3)])]) = None /\
  from_json (fun _ => None) (u "Ping") t (PDict [(u "meta", PDict [(u "version", PStr (u "x"))]); (u "payload", PDict [(u "n", PInt 3)])]) = None.
Proof. vm_compute. auto. Qed.
