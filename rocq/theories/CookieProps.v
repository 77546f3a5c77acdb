(** C24: cookies set by a response come back as set. *)
From Verif Require Import PyStr PyStrFacts Utf8 HeaderModel HeaderSpec HeaderProofs HeaderProps CookieModel CookieSpec CookieProofs.

(** Full statement: the browser's next request carries the last values set and not deleted. *)
Definition C24_statement : Prop :=
  forall order calls h0, set_order order -> Forall usable_call calls ->
  (forall k, In k (map fst h0) -> lower k <> u "set-cookie") ->
  exists h, fold_left perform calls (Some h0) = Some h /\
    request_cookies order (client_send (fold_left client_store (values (u "set-cookie") (wire order h)) [])) = fold_left expect calls [].

Definition plain (k v : str) : cookie :=
  {| c_key := k; c_value := v; c_path := Some (u "/"); c_domain := None; c_secure := false; c_max_age := None;
     c_expires := None; c_httponly := false; c_samesite := Some (u "lax") |}.

Lemma plain_usable k v : usable_name k -> usable_call (Put (plain k v)).
Proof.
  intros K. split; [split; [exact K|]|].
  - split; [intros t H; discriminate H|]. split; [|intros s H; injection H as <-; right; left; reflexivity].
    intros t H. injection H as <-. split; [reflexivity | apply PyStrFacts.cmem_not_In; reflexivity].
  - split; [intros t H; discriminate H | intros z H; discriminate H].
Qed.
Lemma name_usable k : k <> [] -> forallb name_char k = true -> smem (lower k) reserved = false -> usable_name k.
Proof. intros A B C. split; [exact A|]. split; [exact B|]. intros H. apply smem_In in H. unfold reserved in C. congruence. Qed.

(** A value with a percent sign comes back decoded: "%41" as "A". *)
Theorem C24_refuted : ~ C24_statement.
Proof.
  intros H. destruct (H dedup [Put (plain (u "a") (u "%41"))] [] dedup_order) as (h & E & R).
  - constructor; [apply plain_usable, name_usable; [discriminate | reflexivity | reflexivity] | constructor].
  - intros k [].
  - vm_compute in E. injection E as <-. vm_compute in R. discriminate R.
Qed.
Print Assumptions C24_refuted.

(** Proved: all histories whose values have no percent sign; values may hold anything else (spaces,
    quotes, semicolons, backslashes, control characters). *)
Theorem C24_round_trip_partial : forall order calls h0, set_order order -> Forall usable_call calls ->
  (forall c, In (Put c) calls -> ~ In 37%N (c_value c)) ->
  (forall k, In k (map fst h0) -> lower k <> u "set-cookie") ->
  exists h, fold_left perform calls (Some h0) = Some h /\
    request_cookies order (client_send (fold_left client_store (values (u "set-cookie") (wire order h)) [])) = fold_left expect calls [].
Proof. exact round_trip. Qed.
Print Assumptions C24_round_trip_partial.

(** A case: a value with ";", quotes, a backslash and a newline; a cookie set twice; one deleted. *)
Definition sample : list call :=
  [Put (plain (u "a") (u "x; Max-Age=0" ++ [34; 92; 10; 255]%N)); Put (plain (u "b") (u "one")); Put (plain (u "c") (u ""));
   Put (plain (u "b") (u "two words")); Drop (u "Thu, 01 Jan 1970 00:00:00 GMT") (plain (u "c") (u ""))].
Example C24_case :
  Forall usable_call sample /\ (forall c, In (Put c) sample -> ~ In 37%N (c_value c)) /\
  fold_left expect sample [] = [(u "a", u "x; Max-Age=0" ++ [34; 92; 10; 255]%N); (u "b", u "two words")].
Proof.
  assert (N : forall k, In k [u "a"; u "b"; u "c"] -> usable_name k) by (intros k [<-|[<-|[<-|[]]]]; apply name_usable; (discriminate || reflexivity)).
  split; [|split; [|reflexivity]].
  - unfold sample. do 4 (apply Forall_cons; [apply plain_usable, N; cbn; tauto|]). apply Forall_cons; [|apply Forall_nil].
    split; [apply (plain_usable (u "c") (u "")), N; cbn; tauto|]. intros t H. injection H as <-. split; [reflexivity | apply PyStrFacts.cmem_not_In; reflexivity].
  - unfold sample. intros c H. apply PyStrFacts.cmem_not_In. cbn [In] in H. repeat (destruct H as [H|H]; [first [injection H as <-; reflexivity | discriminate H]|]). contradiction.
Qed.

(** A pair of a Cookie header: a name and a value that have no ";" and no spaces around them; the
    name has no "=". *)
Definition sent_pair (c : str * str) : Prop :=
  strip (fst c) = fst c /\ ~ In 59%N (fst c) /\ ~ In 61%N (fst c) /\ strip (snd c) = snd c /\ ~ In 59%N (snd c).
(** Several pairs, several Cookie lines, names repeated: each name has the last value sent for it. *)
Theorem C24_last_wins : forall order lines, set_order order ->
  Forall (fun cs => cs <> [] /\ Forall sent_pair cs) lines ->
  forall n, dget n (request_cookies order (map (fun cs => (u "cookie", join (u "; ") (map (fun c => fst c ++ u "=" ++ snd c) cs))) lines))
    = dget n (rev (map (fun c => (fst c, unquote (cunquote (snd c)))) (concat lines))).
Proof.
  intros order lines O F. apply (request_lines order lines O). eapply Forall_impl; [|exact F]. intros cs (A & B). split; [exact A|].
  eapply Forall_impl; [|exact B]. intros c (B1 & B2 & B3 & B4 & B5). split; [apply strip_solid; exact B1|]. split; [exact B2|]. split; [exact B3|]. split; [apply strip_solid; exact B4 | exact B5].
Qed.
Print Assumptions C24_last_wins.

Example C24_last_wins_case :
  Forall (fun cs => cs <> [] /\ Forall sent_pair cs) [[(u "a", u "1"); (u "b", u "2")]; [(u "a", u "x=y"); (u "c", u "")]] /\
  dget (u "a") (request_cookies dedup (map (fun cs => (u "cookie", join (u "; ") (map (fun c => fst c ++ u "=" ++ snd c) cs))) [[(u "a", u "1"); (u "b", u "2")]; [(u "a", u "x=y"); (u "c", u "")]])) = Some (u "x=y").
Proof.
  assert (P : forall k v, strip k = k -> strip v = v -> cmem 59 k = false -> cmem 61 k = false -> cmem 59 v = false -> sent_pair (k, v)).
  { intros k v A B C D E. unfold sent_pair. cbn [fst snd]. split; [exact A|]. split; [apply cmem_not_In; exact C|]. split; [apply cmem_not_In; exact D|]. split; [exact B | apply cmem_not_In; exact E]. }
  split; [|vm_compute; reflexivity]. repeat (apply Forall_cons || apply Forall_nil || (split; [discriminate|]) || (apply P; reflexivity)).
Qed.

(** A ";" at the end of a Cookie line (many clients send one) adds a cookie without a name: the
    names are not exactly those sent. *)
Definition C24_names_statement : Prop :=
  forall order k v, set_order order -> sent_pair (k, v) -> k <> [] ->
  dkeys (request_cookies order [(u "cookie", k ++ u "=" ++ v ++ u ";")]) = [k].
Theorem C24_names_refuted : ~ C24_names_statement.
Proof.
  intros H. specialize (H dedup (u "a") (u "1") dedup_order).
  assert (P : sent_pair (u "a", u "1")) by (repeat split; try (apply PyStrFacts.cmem_not_In; reflexivity); reflexivity).
  specialize (H P ltac:(discriminate)). vm_compute in H. discriminate H.
Qed.
Print Assumptions C24_names_refuted.

(** The attributes are not checked: a path taken from a request can add attributes of its own; here
    a cookie that was set ends at once. *)
Definition C24_attribute_statement : Prop :=
  forall c h, usable_name (c_key c) -> c_max_age c = None -> c_samesite c = None ->
  match set_cookie c h with
  | Some h' => forall line, values (u "set-cookie") h' = values (u "set-cookie") h ++ [line] -> dmem (c_key c) (client_store [] line) = true
  | None => False
  end.
Theorem C24_attribute_refuted : ~ C24_attribute_statement.
Proof.
  intros H. specialize (H {| c_key := u "a"; c_value := u "1"; c_path := Some (u "/x; Max-Age=0"); c_domain := None; c_secure := false; c_max_age := None;
     c_expires := None; c_httponly := false; c_samesite := None |} []).
  specialize (H ltac:(apply name_usable; [discriminate | reflexivity | reflexivity]) eq_refl eq_refl).
  vm_compute in H. specialize (H _ eq_refl). discriminate H.
Qed.
Print Assumptions C24_attribute_refuted.
