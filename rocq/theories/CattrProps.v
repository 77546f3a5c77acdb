(** C363 and C364: the attributes of the cookies a response sets. *)
From Verif Require Import PyStr PyStrFacts Utf8 Asgi HeaderModel HeaderSpec HeaderProofs HeaderProps CookieModel CookieSpec CookieProofs RequestModel CsrfModel CsrfSpec CsrfProofs CsrfProps JsonModel JsonSpec OutModel CookieProps AbtModel AbtProps.
Import CookieModel CookieSpec.

(** ** What a client reads (RFC 6265 5.2), independent of the model *)
(** The name of an attribute is what precedes its first "=", in any case; a flag has no value. *)
Definition attribute_read (piece : str) : str * str :=
  match split1 61 piece with
  | Some (n, v) => (lower (strip n), strip v)
  | None => (lower (strip piece), [])
  end.
Definition attributes_read (line : str) : list (str * str) := map attribute_read (tl (split_char 59 line)).
(** What the call of [set_cookie] asked for: texts that are given and not empty, and flags that are on. *)
Definition present (o : option str) (v : str) : Prop := o = Some v /\ v <> [].
Definition switched (b : bool) (v : str) : Prop := b = true /\ v = [].
Definition wanted (domain expires path samesite : option str) (age : option Z) (httponly secure : bool) (n v : str) : Prop :=
  (n = u "domain" /\ present domain v) \/ (n = u "expires" /\ present expires v) \/ (n = u "path" /\ present path v) \/
  (n = u "samesite" /\ present samesite v) \/ (n = u "max-age" /\ exists z, age = Some z /\ v = decz z) \/
  (n = u "httponly" /\ switched httponly v) \/ (n = u "secure" /\ switched secure v).

(** ** Reading what was written *)
Lemma read_attr n o : ~ In 61%N n -> solid n -> (forall t, o = Some t -> solid t) ->
  forall a v, In (a, v) (map attribute_read (map (fun y => u " " ++ y) (attr n o))) <-> a = lower n /\ present o v.
Proof.
  intros N1 N2 T a v. destruct o as [[|c t]|]; cbn [attr map].
  - split; [intros [] | intros (_ & E & X); exfalso; apply X; injection E as <-; reflexivity].
  - assert (E : attribute_read (u " " ++ n ++ u "=" ++ c :: t) = (lower n, c :: t)).
    { unfold attribute_read. rewrite app_assoc. change (u "=" ++ c :: t) with (61%N :: c :: t).
      rewrite split1_app by (rewrite in_app_iff; intros [[X|[]]|X]; [discriminate X | exact (N1 X)]).
      pose proof (solid_strip (u " ") n [] eq_refl eq_refl N2) as S1. rewrite app_nil_r in S1. rewrite S1, (solid_self _ (T _ eq_refl)). reflexivity. }
    rewrite E. split; [intros [X|[]]; injection X as <- <-; split; [reflexivity | split; [reflexivity | discriminate]]|].
    intros (-> & X & _). injection X as <-. left. reflexivity.
  - split; [intros [] | intros (_ & E & _); discriminate E].
Qed.
Lemma read_flag n b : ~ In 61%N n -> solid n ->
  forall a v, In (a, v) (map attribute_read (map (fun y => u " " ++ y) (flag n b))) <-> a = lower n /\ switched b v.
Proof.
  intros N1 N2 a v. destruct b; cbn [flag map].
  - assert (E : attribute_read (u " " ++ n) = (lower n, [])).
    { unfold attribute_read. destruct (split1 61 (u " " ++ n)) as [(x, y)|] eqn:E.
      - exfalso. apply split1_some in E. destruct E as (E & _). assert (X : In 61%N (u " " ++ n)) by (rewrite E, in_app_iff; right; left; reflexivity).
        apply in_app_iff in X. destruct X as [[X|[]]|X]; [discriminate X | exact (N1 X)].
      - pose proof (solid_strip (u " ") n [] eq_refl eq_refl N2) as S1. rewrite app_nil_r in S1. rewrite S1. reflexivity. }
    rewrite E. split; [intros [X|[]]; injection X as <- <-; split; [reflexivity | split; reflexivity]|].
    intros (-> & _ & ->). left. reflexivity.
  - split; [intros [] | intros (_ & E & _); discriminate E].
Qed.
Lemma decz_some z : decz z <> [].
Proof.
  destruct z as [|p|p]; cbn [decz]; [destruct (dec_hd 0) as (x & r & -> & _) | destruct (dec_hd (Npos p)) as (x & r & -> & _) |]; discriminate.
Qed.

Lemma line_read c : usable_cookie c -> attribute_text (c_expires c) -> forall n v,
  In (n, v) (attributes_read (strip (u " " ++ output_string c))) <->
  wanted (c_domain c) (c_expires c) (c_path c) (c_samesite c) (c_max_age c) (c_httponly c) (c_secure c) n v.
Proof.
  intros (K & D & P & SS) X n v. apply usable_legal in K. destruct K as (L & _).
  assert (T : forall o, attribute_text o -> text_ok o) by (intros o H t E; destruct (H t E) as (H1 & H2); split; [apply strip_solid; exact H1 | exact H2]).
  assert (TS : text_ok (c_samesite c)) by (intros t E; specialize (SS t E); destruct SS as [<-|[<-|[<-|[]]]]; (split; [apply strip_solid; reflexivity | apply cmem_not_In; reflexivity])).
  apply T in D, P, X. clear T SS.
  pose proof (attributes_ok c D X P TS) as A.
  destruct (cquote_solid (c_value c)) as (Q1 & Q2). pose proof (legal_solid _ L) as K1. pose proof (legal_key_all _ L) as (K0 & K2).
  assert (Kc : forall x, In x (c_key c) -> x <> 59%N) by (intros x Hx; specialize (K2 x Hx); apply legal_lt in K2; tauto).
  assert (QN : cquote (c_value c) <> []) by (unfold cquote; destruct (is_legal_key (c_value c)) eqn:E; [apply legal_key_all in E; tauto | discriminate]).
  change (output_string c) with (join (u "; ") ((c_key c ++ u "=" ++ cquote (c_value c)) :: attributes c)).
  assert (PO : piece_ok (c_key c ++ u "=" ++ cquote (c_value c))).
  { split; [apply core_app; split; assumption|]. rewrite !in_app_iff. intros [Y|[[Y|[]]|Y]]; [apply (Kc _ Y); reflexivity | discriminate Y | exact (Q2 Y)]. }
  assert (C : core (join (u "; ") ((c_key c ++ u "=" ++ cquote (c_value c)) :: attributes c))).
  { apply core_join; [apply PO|]. eapply Forall_impl; [|exact A]. intros x Hx; apply Hx. }
  destruct C as (_ & C). pose proof (solid_strip (u " ") _ [] eq_refl eq_refl C) as E. rewrite app_nil_r in E. rewrite E. clear E.
  unfold attributes_read. rewrite split_join_semi; [|apply PO|rewrite Forall_forall in A; intros y Hy; apply (A y Hy)].
  cbn [tl]. unfold attributes. rewrite !map_app, !in_app_iff.
  assert (NI : forall s, cmem 61 s = false -> ~ In 61%N s) by (intros s; apply PyStrFacts.cmem_not_In).
  assert (TD : forall t, option_map decz (c_max_age c) = Some t -> solid t).
  { intros t Ht. destruct (c_max_age c) as [z|]; [|discriminate]. injection Ht as <-. apply decz_text. }
  rewrite (read_attr (u "Domain")) by (try (apply NI; reflexivity); try (apply strip_solid; reflexivity); intros t Ht; apply (D t Ht)).
  rewrite (read_attr (u "expires")) by (try (apply NI; reflexivity); try (apply strip_solid; reflexivity); intros t Ht; apply (X t Ht)).
  rewrite (read_attr (u "Path")) by (try (apply NI; reflexivity); try (apply strip_solid; reflexivity); intros t Ht; apply (P t Ht)).
  rewrite (read_attr (u "SameSite")) by (try (apply NI; reflexivity); try (apply strip_solid; reflexivity); intros t Ht; apply (TS t Ht)).
  rewrite (read_attr (u "Max-Age")) by (try (apply NI; reflexivity); try (apply strip_solid; reflexivity); exact TD).
  rewrite !read_flag by (try (apply NI; reflexivity); apply strip_solid; reflexivity).
  assert (M : present (option_map decz (c_max_age c)) v <-> exists z, c_max_age c = Some z /\ v = decz z).
  { unfold present. destruct (c_max_age c) as [z|]; cbn [option_map].
    - split; [intros (E & _); injection E as <-; exists z; auto | intros (z' & E & ->); injection E as <-; split; [reflexivity | apply decz_some]].
    - split; [intros (E & _); discriminate E | intros (z & E & _); discriminate E]. }
  rewrite M. unfold wanted.
  change (lower (u "Domain")) with (u "domain"). change (lower (u "expires")) with (u "expires"). change (lower (u "Path")) with (u "path").
  change (lower (u "SameSite")) with (u "samesite"). change (lower (u "Max-Age")) with (u "max-age"). change (lower (u "HttpOnly")) with (u "httponly").
  change (lower (u "Secure")) with (u "secure"). tauto.
Qed.
Lemma set_usable c h : usable_cookie c -> set_cookie c h = Some (hadd (u "set-cookie") (strip (u " " ++ output_string c)) h).
Proof.
  intros (K & _ & _ & SS). apply usable_legal in K. destruct K as (L & R). unfold set_cookie. rewrite L, R. cbn [negb orb].
  destruct (c_samesite c) as [s|]; [|reflexivity]. specialize (SS s eq_refl). destruct SS as [<-|[<-|[<-|[]]]]; reflexivity.
Qed.

(** C363: setting a cookie adds one Set-Cookie line, in which a client reads the attributes given and
    no others; deleting one adds a line for the same domain and path that ends it at once. *)
Theorem C363_attributes : forall c h, usable_cookie c -> attribute_text (c_expires c) ->
  exists h' line, set_cookie c h = Some h' /\ values (u "set-cookie") h' = values (u "set-cookie") h ++ [line] /\
    forall n v, In (n, v) (attributes_read line) <->
      wanted (c_domain c) (c_expires c) (c_path c) (c_samesite c) (c_max_age c) (c_httponly c) (c_secure c) n v.
Proof.
  intros c h U E. eexists. eexists. split; [apply set_usable; exact U|]. split; [rewrite values_add; reflexivity|]. apply line_read; assumption.
Qed.
Print Assumptions C363_attributes.
Theorem C363_deleted : forall now c h, usable_cookie c -> attribute_text (Some now) ->
  exists h' line, set_cookie (deleting now c) h = Some h' /\ values (u "set-cookie") h' = values (u "set-cookie") h ++ [line] /\
    forall n v, In (n, v) (attributes_read line) <->
      wanted (c_domain c) (Some now) (c_path c) (c_samesite c) (Some 0%Z) (c_httponly c) (c_secure c) n v.
Proof.
  intros now c h U E. destruct (C363_attributes (deleting now c) h U E) as (h' & line & E1 & E2 & E3). exists h', line. auto.
Qed.
Print Assumptions C363_deleted.
Definition full : cookie :=
  {| c_key := u "sid"; c_value := u "a b;c"; c_path := Some (u "/app"); c_domain := Some (u "example.org"); c_secure := true;
     c_max_age := Some 60%Z; c_expires := None; c_httponly := true; c_samesite := Some (u "strict") |}.
Lemma full_usable : usable_cookie full.
Proof.
  split; [|split; [|split]].
  - split; [discriminate|]. split; [vm_compute; reflexivity|]. apply smem_not_In. vm_compute. reflexivity.
  - intros t X. change (Some (u "example.org") = Some t) in X. injection X as <-. split; [reflexivity | apply cmem_not_In; reflexivity].
  - intros t X. change (Some (u "/app") = Some t) in X. injection X as <-. split; [reflexivity | apply cmem_not_In; reflexivity].
  - intros s X. change (Some (u "strict") = Some s) in X. injection X as <-. left. reflexivity.
Qed.
Example C363_case : usable_cookie full /\ attribute_text (c_expires full) /\
  option_map (fun h => map attributes_read (values (u "set-cookie") h)) (set_cookie full []) =
    Some [[(u "domain", u "example.org"); (u "httponly", []); (u "max-age", u "60"); (u "path", u "/app"); (u "samesite", u "strict"); (u "secure", [])]].
Proof.
  split; [exact full_usable|]. split; [intros t X; discriminate X | vm_compute; reflexivity].
Qed.

(** jsonify sets its cookies with the defaults: for every path, SameSite lax, and nothing else. *)
Theorem C363_jsonify : forall order args kwargs st headers cookies h b, set_order order ->
  Forall (fun kv => usable_name (fst kv)) cookies ->
  (forall k, In k (dkeys (AbtModel.given headers)) -> lower k <> u "set-cookie") ->
  jsonify order args kwargs st headers cookies = Some [AStart st h; ABody b false] ->
  length (values (u "set-cookie") h) = length cookies /\
  forall line, In line (values (u "set-cookie") h) -> forall n v, In (n, v) (attributes_read line) <-> (n = u "path" /\ v = u "/") \/ (n = u "samesite" /\ v = u "lax").
Proof.
  intros order args kwargs st headers cookies h b O F HK E.
  assert (X : exists b' h0, fold_left add_cookie cookies (Some (fst (make_headers st b' (u "utf-8") (Some (u "application/json")) (AbtModel.given headers)))) = Some h0 /\ h = wire order h0).
  { unfold jsonify in E. destruct args as [|a args]; [|destruct kwargs; [|discriminate E]].
    all: destruct (dumps _); [|discriminate E]; destruct (body_of _ _) as [b'|]; [|discriminate E].
    all: destruct (fold_left add_cookie _ _) as [h0|] eqn:Q; [|discriminate E]; exists b', h0; (split; [exact Q|]); injection E as E _; symmetry; exact E. }
  destruct X as (b' & h0 & Q & ->). clear E.
  assert (HK' : forall k, In k (map fst (fst (make_headers st b' (u "utf-8") (Some (u "application/json")) (AbtModel.given headers)))) -> lower k <> u "set-cookie").
  { intros k I. apply in_map_iff in I. destruct I as ((k', w) & E & I). cbn [fst] in E. subst k'. apply made_keys in I. destruct I as [I|(_ & [-> | ->])].
    - apply HK. apply in_map_iff. exists (k, w). auto.
    - vm_compute. discriminate.
    - vm_compute. discriminate. }
  revert HK' Q. generalize (fst (make_headers st b' (u "utf-8") (Some (u "application/json")) (AbtModel.given headers))) as g. clear HK.
  assert (W : forall g, fold_left add_cookie cookies (Some g) = Some (g ++ map (fun kv => (u "set-cookie", strip (u " " ++ output_string (plain_cookie kv)))) cookies)).
  { induction F as [|kv r U F IH]; intros g; cbn [fold_left map]; [rewrite app_nil_r; reflexivity|]. cbn [add_cookie].
    rewrite set_usable by (apply (plain_usable (fst kv) (snd kv) U)). rewrite IH. unfold hadd. rewrite <- app_assoc. reflexivity. }
  intros g HK Q. rewrite W in Q. assert (h0 = g ++ map (fun kv => (u "set-cookie", strip (u " " ++ output_string (plain_cookie kv)))) cookies) as -> by congruence. clear Q W.
  assert (V : values (u "set-cookie") (wire order (g ++ map (fun kv => (u "set-cookie", strip (u " " ++ output_string (plain_cookie kv)))) cookies))
    = map (fun kv => strip (u " " ++ output_string (plain_cookie kv))) cookies).
  { rewrite wire_values; [|exact O|].
    - rewrite values_app, (values_nil _ g HK). cbn [app]. clear. induction cookies as [|kv r IH]; [reflexivity|].
      cbn [map]. change ((u "set-cookie", strip (u " " ++ output_string (plain_cookie kv))) :: map (fun kv => (u "set-cookie", strip (u " " ++ output_string (plain_cookie kv)))) r)
        with ([(u "set-cookie", strip (u " " ++ output_string (plain_cookie kv)))] ++ map (fun kv => (u "set-cookie", strip (u " " ++ output_string (plain_cookie kv)))) r).
      rewrite values_app, IH, values_one. reflexivity.
    - assert (Y : forall k, In k (map fst (g ++ map (fun kv => (u "set-cookie", strip (u " " ++ output_string (plain_cookie kv)))) cookies)) -> lower k = u "set-cookie" -> k = u "set-cookie").
      { intros k I J. rewrite map_app, in_app_iff, map_map in I. destruct I as [I|I]; [destruct (HK k I J)|]. apply in_map_iff in I. destruct I as (kv & <- & _). reflexivity. }
      intros k k' I I' J J'. rewrite (Y k I J), (Y k' I' J'). reflexivity. }
  rewrite V. split; [apply map_length|]. intros line I n v. apply in_map_iff in I. destruct I as (kv & <- & I). rewrite Forall_forall in F. specialize (F kv I).
  rewrite line_read by (try apply (plain_usable (fst kv) (snd kv) F); intros t T; discriminate T).
  unfold wanted, present, switched. cbn [plain_cookie c_domain c_expires c_path c_samesite c_max_age c_httponly c_secure]. split.
  - intros [(_ & T & _)|[(_ & T & _)|[(-> & T & _)|[(-> & T & _)|[(_ & z & T & _)|[(_ & T & _)|(_ & T & _)]]]]]]; try discriminate T; injection T as <-; auto.
  - intros [(-> & ->)|(-> & ->)]; [do 2 right; left | do 3 right; left]; (split; [reflexivity | split; [reflexivity | discriminate]]).
Qed.
Print Assumptions C363_jsonify.
Example C363_jsonify_case : Forall (fun kv => usable_name (fst kv)) [(u "sid", u "a b")] /\
  match jsonify dedup [] [(u "id", JInt 7)] 201 None [(u "sid", u "a b")] with
  | Some [AStart _ h; _] => map attributes_read (values (u "set-cookie") h) = [[(u "path", u "/"); (u "samesite", u "lax")]]
  | _ => False
  end.
Proof.
  split; [constructor; [|constructor]; (split; [discriminate|]; split; [vm_compute; reflexivity|]; apply smem_not_In; vm_compute; reflexivity) | vm_compute; reflexivity].
Qed.

(** C364: the cookie in which the CSRF middleware hands out a token has the configured domain, path,
    SameSite and flags, and no end: it lasts as long as the client's session. *)
Theorem C364_token_cookie : forall e c order req random h,
  usable_cookie (token_cookie c (generate e (s_secret c) random)) ->
  dget (s_cookie c) (request_cookies order req) = None -> hcontains (u "set-cookie") h = false ->
  exists line, values (u "set-cookie") (send_wrapper e c order req random h) = [line] /\
    forall n v, In (n, v) (attributes_read line) <->
      wanted (s_domain c) None (s_path c) (s_samesite c) None (s_httponly c) (s_secure c) n v.
Proof.
  intros e c order req random h U N H. unfold send_wrapper. rewrite N, H. eexists. split.
  - rewrite values_add, seqb_refl. rewrite contains_values in H. change (lower (u "set-cookie")) with (u "set-cookie") in *. destruct (values (u "set-cookie") h); [reflexivity | discriminate H].
  - apply (line_read _ U). intros t X. discriminate X.
Qed.
Print Assumptions C364_token_cookie.
Example C364_case : usable_cookie (token_cookie demo (generate demo_env (s_secret demo) rnd)) /\
  dget (s_cookie demo) (request_cookies dedup []) = None /\ hcontains (u "set-cookie") [(u "x", u "y")] = false /\
  map attributes_read (values (u "set-cookie") (send_wrapper demo_env demo dedup [] rnd [(u "x", u "y")])) = [[(u "path", u "/"); (u "samesite", u "lax")]].
Proof. split; [exact demo_usable|]. repeat split; vm_compute; reflexivity. Qed.
