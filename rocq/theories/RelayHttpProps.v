(** C49, C85-C89: the attempts of the reverse proxy, its responses, cookies, websockets and paths. *)
From Verif Require Import PyStr PyStrFacts HeaderProofs RelayModel RelayProps.
Local Open Scope N_scope.

(** The whole body that the client sends, up to the last chunk or its leaving. *)
Fixpoint whole (es : list event) : str :=
  match es with
  | Chunk b true :: r => b ++ whole r
  | Chunk b false :: _ => b
  | OtherEvent :: r => whole r
  | Disconnect :: _ | [] => []
  end.
Definition starts (ms : list message) : nat := length (filter (fun m => match m with Start _ _ => true | _ => false end) ms).
Definition bodies (ms : list message) : str := flat_map (fun m => match m with Body b _ => b | _ => [] end) ms.

Lemma take_all es : concat (fst (take_body None es)) = whole es.
Proof.
  induction es as [|[b more| |] es IH]; cbn [take_body whole]; try reflexivity; [|exact IH]. destruct b as [|c b]; cbn [nonempty].
  - destruct more; [exact IH|reflexivity].
  - destruct more; [|cbn; rewrite app_nil_r; reflexivity]. destruct (take_body None es) as [t g] eqn:E. cbn [fst concat]. cbn [fst] in IH. rewrite IH. reflexivity.
Qed.

Section Http.
Context {Exn : Type} (timeout retryable request_error : Exn -> bool) (show : Exn -> str) (encode : str -> str)
        (decode : option str -> list str -> list str) (not_read : Exn).
Notation run := (attempts timeout retryable request_error show encode decode not_read).
Notation handle := (handle_http timeout retryable request_error show encode decode not_read).
Notation forward := (forward_to_upstream decode).
(** Whether an attempt is tried again. *)
Definition again (f : forwarded) : bool := match f with Done => false | BadStatus _ _ => true | Threw e => timeout e || retryable e end.
Lemma run_again fuel cfg plan n g : again (snd (forward cfg (gives (plan (S n))))) = true -> Nat.leb (S n) (max_retries cfg) = true ->
  run (S fuel) cfg plan n g = let (sent, g') := take_gen (reads (plan (S n))) g in let '(ss, ms', f') := run fuel cfg plan (S n) g' in (sent :: ss, fst (forward cfg (gives (plan (S n)))) ++ ms', f').
Proof.
  intros A L. cbn [attempts]. destruct (take_gen _ g) as [sent g']. destruct (forward cfg (gives (plan (S n)))) as [ms f]. cbn [fst snd] in *. rewrite L. destruct f as [|e|st t]; [discriminate A| |].
  - cbn [again] in A. destruct (timeout e); [reflexivity|]. cbn [orb] in A. rewrite A. reflexivity.
  - reflexivity.
Qed.
Lemma run_bound fuel cfg plan n g : (n + fuel = S (max_retries cfg))%nat -> (1 <= fuel)%nat ->
  let '(ss, _, f) := run fuel cfg plan n g in (1 <= length ss <= fuel)%nat /\ f <> Loops.
Proof.
  revert n g. induction fuel as [|fuel IH]; intros n g E L; [lia|]. cbn [attempts]. destruct (take_gen _ g) as [sent g']. destruct (forward cfg (gives (plan (S n)))) as [ms f].
  assert (AG : forall lst, snd lst <> Loops -> let '(ss, _, f) := (if Nat.leb (S n) (max_retries cfg) then let '(ss, ms', f') := run fuel cfg plan (S n) g' in (sent :: ss, ms ++ ms', f') else ([sent], ms ++ fst lst, snd lst)) in (1 <= length ss <= S fuel)%nat /\ f <> Loops).
  { intros lst NL. destruct (Nat.leb_spec (S n) (max_retries cfg)) as [LE|GT].
    - specialize (IH (S n) g'). destruct (run fuel cfg plan (S n) g') as [[ss ms'] f'] eqn:ER. destruct IH as [A B]; [lia|lia|]. cbn [length]. split; [lia|exact B].
    - cbn [length]. split; [lia|exact NL]. }
  destruct f as [|e|st t].
  - cbn [length]. split; [lia|discriminate].
  - destruct (timeout e); [apply AG; discriminate|]. destruct (retryable e); [apply AG; discriminate|]. destruct (request_error e); cbn [length]; (split; [lia|discriminate]).
  - apply AG. destruct t; discriminate.
Qed.
Lemma run_body fuel cfg plan es i n : (forall j, (j < i)%nat -> reads (plan (S (n + j))) = Some O) -> reads (plan (S (n + i))) = None ->
  forall sent, nth_error (fst (fst (run fuel cfg plan n (Some es)))) i = Some sent -> concat sent = whole es.
Proof.
  revert fuel n. induction i as [|i IH]; intros fuel n Z R sent; (destruct fuel as [|fuel]; [discriminate|]).
  - cbn [attempts]. rewrite Nat.add_0_r in R. rewrite R. cbn [take_gen]. assert (T := take_all es). destruct (take_body None es) as [t g']. cbn [fst] in T. destruct (forward cfg (gives (plan (S n)))) as [ms f].
    assert (AG : forall lst, nth_error (fst (fst (if Nat.leb (S n) (max_retries cfg) then let '(ss, ms', f') := run fuel cfg plan (S n) g' in (t :: ss, ms ++ ms', f') else ([t], ms ++ fst lst, snd lst)))) 0 = Some sent -> concat sent = whole es).
    { intros lst. destruct (Nat.leb _ _); [destruct (run fuel cfg plan (S n) g') as [[ss ms'] f']|]; intros [= <-]; exact T. }
    destruct f as [|e|st tx]; [intros [= <-]; exact T| |apply AG]. destruct (timeout e); [apply AG|]. destruct (retryable e); [apply AG|]. destruct (request_error e); intros [= <-]; exact T.
  - cbn [attempts]. assert (R0 := Z 0%nat ltac:(lia)). rewrite Nat.add_0_r in R0. rewrite R0. cbn [take_gen]. assert (T0 : take_body (Some O) es = ([], Some es)) by (destruct es; reflexivity). rewrite T0. destruct (forward cfg (gives (plan (S n)))) as [ms f].
    assert (AG : forall lst, nth_error (fst (fst (if Nat.leb (S n) (max_retries cfg) then let '(ss, ms', f') := run fuel cfg plan (S n) (Some es) in ([] :: ss, ms ++ ms', f') else ([[]], ms ++ fst lst, snd lst)))) (S i) = Some sent -> concat sent = whole es).
    { intros lst. destruct (Nat.leb _ _).
      - specialize (IH fuel (S n)). destruct (run fuel cfg plan (S n) (Some es)) as [[ss ms'] f']. cbn [fst nth_error] in *. apply IH.
        + intros j J. assert (X := Z (S j) ltac:(lia)). rewrite <- plus_n_Sm in X. exact X.
        + rewrite <- plus_n_Sm in R. exact R.
      - cbn. destruct i; discriminate. }
    destruct f as [|e|st tx]; [cbn; destruct i; discriminate| |apply AG]. destruct (timeout e); [apply AG|]. destruct (retryable e); [apply AG|]. destruct (request_error e); cbn; destruct i; discriminate.
Qed.
(** A plan in which the client always gets one whole answer: no upstream answer is cut off, the last status
    error has its text, and httpx raises only its own exceptions. *)
Definition sound (plan : nat -> attempt (Exn := Exn)) (cfg : config) : Prop := forall n, match gives (plan n) with
  | Raises e => timeout e = true \/ retryable e = true \/ request_error e = true
  | Answers st _ _ cut t => if existsb (N.eqb st) (retry_statuses cfg) then t <> None else cut = None
  end.
Definition one_answer (ms : list message) : Prop := exists st hs bs b, ms = Start st hs :: map (fun c => Body c true) bs ++ [Body b false].
Lemma sound_run fuel cfg plan n g : sound plan cfg -> (n + fuel = S (max_retries cfg))%nat -> (1 <= fuel)%nat ->
  let '(_, ms, f) := run fuel cfg plan n g in one_answer ms /\ f = Returned.
Proof.
  intros SO. revert n g. induction fuel as [|fuel IH]; intros n g E L; [lia|]. cbn [attempts]. destruct (take_gen _ g) as [sent g'].
  assert (TX : forall st t, one_answer (send_text encode st t)) by (intros st t; exists st, text_headers, [], (encode t); reflexivity).
  assert (AG : forall lst, one_answer (fst lst) -> snd lst = Returned -> let '(_, ms, f) := (if Nat.leb (S n) (max_retries cfg) then let '(ss, ms', f') := run fuel cfg plan (S n) g' in (sent :: ss, [] ++ ms', f') else ([sent], [] ++ fst lst, snd lst)) in one_answer ms /\ f = Returned).
  { intros lst A B. destruct (Nat.leb_spec (S n) (max_retries cfg)) as [LE|GT]; [|split; [exact A|exact B]]. specialize (IH (S n) g'). destruct (run fuel cfg plan (S n) g') as [[ss ms'] f']. apply IH; lia. }
  specialize (SO (S n)). destruct (gives (plan (S n))) as [e|st hs raw cut t]; cbn [forward_to_upstream].
  - destruct (timeout e); [apply AG; [apply TX|reflexivity]|]. destruct (retryable e); [apply AG; [apply TX|reflexivity]|]. destruct (request_error e); [split; [apply TX|reflexivity]|]. destruct SO as [H|[H|H]]; discriminate H.
  - destruct (existsb (N.eqb st) (retry_statuses cfg)).
    + destruct t as [t|]; [|contradiction]. apply AG; [apply TX|reflexivity].
    + subst cut. split; [|reflexivity]. eexists st, _, _, []. reflexivity.
Qed.
End Http.

(** ** C49 *)
Theorem C49_attempts : forall Exn timeout retryable request_error show encode decode (not_read : Exn) cfg plan method es,
  let '(sent, _, f) := handle_http timeout retryable request_error show encode decode not_read cfg plan method es in
  (1 <= length sent <= S (max_retries cfg))%nat /\ f <> Loops.
Proof. intros. unfold handle_http. apply run_bound; lia. Qed.
Print Assumptions C49_attempts.
(** Every attempt that takes the whole body is given the whole body. *)
Definition C49_body_statement : Prop := forall Exn timeout retryable request_error show encode decode (not_read : Exn) cfg plan method es i sent,
  has_body method = true -> reads (plan (S i)) = None ->
  nth_error (fst (fst (handle_http timeout retryable request_error show encode decode not_read cfg plan method es))) i = Some sent -> concat sent = whole es.
(** The second attempt sends nothing: the first has used up the body. *)
Theorem C49_body_refuted : ~ C49_body_statement.
Proof.
  intros H. specialize (H unit (fun _ => true) (fun _ => true) (fun _ => true) (fun _ => []) (fun s => s) (fun _ l => l) tt plain_config
    (fun _ => {| reads := None; gives := Raises tt |}) (u "POST") [Chunk (u "data") false] 1%nat [] eq_refl eq_refl eq_refl). discriminate H.
Qed.
Print Assumptions C49_body_refuted.
(** The first attempt, and any that follows attempts which took nothing of the body, forwards it whole. *)
Theorem C49_body_partial : forall Exn timeout retryable request_error show encode decode (not_read : Exn) cfg plan method es i sent,
  has_body method = true -> (forall j, (j < i)%nat -> reads (plan (S j)) = Some O) -> reads (plan (S i)) = None ->
  nth_error (fst (fst (handle_http timeout retryable request_error show encode decode not_read cfg plan method es))) i = Some sent -> concat sent = whole es.
Proof. intros until sent. intros HB Z R. unfold handle_http. rewrite HB. apply (run_body _ _ _ _ _ _ _ _ _ _ _ i 0%nat Z R). Qed.
Print Assumptions C49_body_partial.
Example C49_body_case : let plan n := match n with 1%nat => {| reads := Some O; gives := Raises tt |} | _ => {| reads := None; gives := Answers 200 [] [u "ok"] None None |} end in
  fst (fst (handle_http (fun _ => true) (fun _ => true) (fun _ => true) (fun _ => []) (fun s => s) (fun _ l => l) tt plain_config plan (u "POST") [Chunk (u "da") true; Chunk (u "ta") false]))
  = [[]; [u "da"; u "ta"]].
Proof. reflexivity. Qed.
(** The client gets exactly one response start. *)
Definition C49_start_statement : Prop := forall Exn timeout retryable request_error show encode decode (not_read : Exn) cfg plan method es,
  (forall e, timeout e = true \/ retryable e = true \/ request_error e = true) ->
  starts (snd (fst (handle_http timeout retryable request_error show encode decode not_read cfg plan method es))) = 1%nat.
(** An upstream answer that is cut off is followed by another one. *)
Theorem C49_start_refuted : ~ C49_start_statement.
Proof.
  intros H. specialize (H unit (fun _ => true) (fun _ => true) (fun _ => true) (fun _ => []) (fun s => s) (fun _ l => l) tt plain_config
    (fun _ => {| reads := None; gives := Answers 200 [] [u "par"] (Some tt) None |}) (u "GET") [] (fun _ => or_introl eq_refl)). discriminate H.
Qed.
Print Assumptions C49_start_refuted.
(** After the last refused status the text of a response that was not read is asked for: the client gets nothing. *)
Theorem C49_unread_refuted : ~ C49_start_statement.
Proof.
  intros H. specialize (H unit (fun _ => true) (fun _ => true) (fun _ => true) (fun _ => []) (fun s => s) (fun _ l => l) tt plain_config
    (fun _ => {| reads := None; gives := Answers 503 [] [u "busy"] None None |}) (u "GET") [] (fun _ => or_introl eq_refl)). discriminate H.
Qed.
Print Assumptions C49_unread_refuted.
Theorem C49_start_partial : forall Exn timeout retryable request_error show encode decode (not_read : Exn) cfg plan method es,
  sound timeout retryable request_error plan cfg ->
  let '(_, ms, f) := handle_http timeout retryable request_error show encode decode not_read cfg plan method es in one_answer ms /\ starts ms = 1%nat /\ f = Returned.
Proof.
  intros. unfold handle_http. assert (X := sound_run timeout retryable request_error show encode decode not_read (S (max_retries cfg)) cfg plan 0%nat (if has_body method then Some es else None) H ltac:(lia) ltac:(lia)).
  destruct (attempts _ _ _ _ _ _ _ _ _ _ _ _) as [[ss ms] f]. destruct X as [(st & hs & bs & b & ->) F]. split; [exists st, hs, bs, b; reflexivity|]. split; [|exact F].
  unfold starts. cbn [filter]. rewrite filter_app. assert (Z : filter (fun m => match m with Start _ _ => true | _ => false end) (map (fun c => Body c true) bs) = []) by (induction bs as [|x bs IH]; [reflexivity|exact IH]). rewrite Z. reflexivity.
Qed.
Print Assumptions C49_start_partial.
Example C49_start_case : let plan n := match n with 1%nat => {| reads := None; gives := Raises tt |} | 2%nat => {| reads := None; gives := Answers 503 [] [u "x"] None (Some (u "x")) |} | _ => {| reads := None; gives := Answers 200 [(u "ETag", u "e")] [u "ok"] None None |} end in
  sound (fun _ => true) (fun _ => true) (fun _ => true) plan plain_config
  /\ snd (fst (handle_http (fun _ => true) (fun _ => true) (fun _ => true) (fun _ => []) (fun s => s) (fun _ l => l) tt plain_config plan (u "GET") [])) = [Start 200 [(u "etag", u "e")]; Body (u "ok") true; Body [] false].
Proof. split; [|reflexivity]. intros [|[|[|n]]]; cbn; auto; discriminate. Qed.
(** The first attempt that answers is the one the client sees, if it comes soon enough. *)
Theorem C49_answer : forall Exn timeout retryable request_error show encode decode (not_read : Exn) cfg plan method es k st hs raw t,
  (k <= max_retries cfg)%nat ->
  (forall j, (j < k)%nat -> match gives (plan (S j)) with Raises e => timeout e = true \/ retryable e = true | Answers s _ _ _ _ => In s (retry_statuses cfg) end) ->
  gives (plan (S k)) = Answers st hs raw None t -> ~ In st (retry_statuses cfg) ->
  let '(sent, ms, f) := handle_http timeout retryable request_error show encode decode not_read cfg plan method es in
  length sent = S k /\ f = Returned /\ ms = Start st (response_headers cfg hs) :: map (fun c => Body c true) (decode (dget (u "content-encoding") (httpx_items hs)) raw) ++ [Body [] false].
Proof.
  intros Exn timeout retryable request_error show encode decode not_read cfg plan method es k st hs raw t K F G NI. unfold handle_http.
  assert (IN : forall s, existsb (N.eqb s) (retry_statuses cfg) = true <-> In s (retry_statuses cfg)).
  { intros s. rewrite existsb_exists. split; [intros (x & A & B); apply N.eqb_eq in B; subst; exact A|]. intros I. exists s. rewrite N.eqb_refl. auto. }
  assert (X : forall d n g, (n + d = k)%nat -> let '(sent, ms, f) := attempts timeout retryable request_error show encode decode not_read (S (max_retries cfg) - n)%nat cfg plan n g in
    length sent = S d /\ f = Returned /\ ms = Start st (response_headers cfg hs) :: map (fun c => Body c true) (decode (dget (u "content-encoding") (httpx_items hs)) raw) ++ [Body [] false]).
  { induction d as [|d IH]; intros n g E.
    - rewrite Nat.add_0_r in E. subst n. replace (S (max_retries cfg) - k)%nat with (S (max_retries cfg - k)) by lia. cbn [attempts]. destruct (take_gen _ g) as [sent g']. rewrite G. cbn [forward_to_upstream].
      assert (EX : existsb (N.eqb st) (retry_statuses cfg) = false) by (rewrite <- not_true_iff_false, IN; exact NI). rewrite EX. split; [reflexivity|]. split; reflexivity.
    - replace (S (max_retries cfg) - n)%nat with (S (S (max_retries cfg) - S n)) by lia. specialize (F n ltac:(lia)).
      assert (FW : fst (forward_to_upstream decode cfg (gives (plan (S n)))) = [] /\ again timeout retryable (snd (forward_to_upstream decode cfg (gives (plan (S n))))) = true).
      { destruct (gives (plan (S n))) as [e|s h r c tx]; cbn [forward_to_upstream].
        - split; [reflexivity|]. cbn [snd again]. destruct F as [-> | ->]; [reflexivity|]. apply orb_true_r.
        - apply IN in F. rewrite F. split; reflexivity. }
      destruct FW as [F1 F2]. rewrite run_again; [|exact F2|apply Nat.leb_le; lia]. rewrite F1. destruct (take_gen _ g) as [sent g']. specialize (IH (S n) g' ltac:(lia)).
      destruct (attempts _ _ _ _ _ _ _ _ _ _ (S n) g') as [[ss ms'] f']. cbn [length app]. destruct IH as (A & B & C). split; [lia|]. split; [exact B|exact C]. }
  specialize (X k 0%nat (if has_body method then Some es else None) eq_refl). rewrite Nat.sub_0_r in X. exact X.
Qed.
Print Assumptions C49_answer.

(** ** C85 *)
(** The body that the client gets is the upstream's, byte for byte. *)
Definition C85_statement : Prop := forall Exn timeout retryable request_error show encode decode (not_read : Exn) cfg plan method es st hs raw t,
  gives (plan 1%nat) = Answers st hs raw None t -> ~ In st (retry_statuses cfg) ->
  bodies (snd (fst (handle_http timeout retryable request_error show encode decode not_read cfg plan method es))) = concat raw.
(** A compressed body is decompressed, but the header still says that it is compressed. *)
Theorem C85_refuted : ~ C85_statement /\ forall decode,
  let hs := [(u "content-encoding", u "gzip"); (u "content-length", u "3")] in
  fst (forward_to_upstream (Exn := unit) decode plain_config (Answers 200 hs [u "ZIP"] None None))
  = Start 200 hs :: map (fun c => Body c true) (decode (Some (u "gzip")) [u "ZIP"]) ++ [Body [] false].
Proof.
  split; [|reflexivity]. intros H.
  specialize (H unit (fun _ => true) (fun _ => true) (fun _ => true) (fun _ => []) (fun s => s) (fun e l => match e with Some _ => [u "plain text"] | None => l end) tt plain_config
    (fun _ => {| reads := None; gives := Answers 200 [(u "content-encoding", u "gzip")] [u "ZIP"] None None |}) (u "GET") [] 200 [(u "content-encoding", u "gzip")] [u "ZIP"] None eq_refl).
  assert (NI : ~ In 200 (retry_statuses plain_config)) by (cbn; intuition discriminate). specialize (H NI). discriminate H.
Qed.
Print Assumptions C85_refuted.
Theorem C85_body_partial : forall Exn timeout retryable request_error show encode decode (not_read : Exn) cfg plan method es k st hs raw t,
  (k <= max_retries cfg)%nat ->
  (forall j, (j < k)%nat -> match gives (plan (S j)) with Raises e => timeout e = true \/ retryable e = true | Answers s _ _ _ _ => In s (retry_statuses cfg) end) ->
  gives (plan (S k)) = Answers st hs raw None t -> ~ In st (retry_statuses cfg) ->
  (forall l, concat (decode None l) = concat l) -> values_of (u "content-encoding") hs = [] ->
  let ms := snd (fst (handle_http timeout retryable request_error show encode decode not_read cfg plan method es)) in
  bodies ms = concat raw /\ exists hs', In (Start st hs') ms.
Proof.
  intros until t. intros K F G NI ID NE. assert (X := C49_answer Exn timeout retryable request_error show encode decode not_read cfg plan method es k st hs raw t K F G NI).
  destruct (handle_http _ _ _ _ _ _ _ _ _ _ _) as [[ss ms] f]. destruct X as (_ & _ & ->). cbn [fst snd]. split; [|eexists; left; reflexivity].
  assert (D : dget (u "content-encoding") (httpx_items hs) = None).
  { change (u "content-encoding") with (lower (u "content-encoding")). unfold httpx_items. rewrite joined_get, NE. reflexivity. }
  rewrite D. cbn [bodies flat_map]. unfold bodies. rewrite flat_map_app. cbn [flat_map]. rewrite !app_nil_r. rewrite <- (ID raw). clear. cbn [app]. induction (decode None raw) as [|x l IH]; [reflexivity|]. cbn [map flat_map concat]. f_equal. exact IH.
Qed.
Print Assumptions C85_body_partial.

(** ** C86 *)
(** The pieces of a Set-Cookie text: between semicolons, trimmed, those that are not empty. *)
Definition pieces (c : str) : list str := filter (fun p => match p with [] => false | _ => true end) (map strip (split_char 59 c)).
Definition domain_piece (p : str) : Prop := exists v, lower p = u "domain=" ++ v.
Lemma domain_iff p : is_domain p = true <-> domain_piece p.
Proof. unfold is_domain, domain_piece. rewrite prefixb_iff. reflexivity. Qed.
(** The cookie's own name and value, its first piece, are kept. *)
Definition C86_statement : Prop := forall rw c d p r, rw c = Some d -> pieces c = p :: r -> exists qs, rewrite_cookie rw c = join (u "; ") (p :: qs).
Theorem C86_refuted : ~ C86_statement.
Proof. intros H. destruct (H (fun _ => Some []) (u "domain=x; Path=/") [] (u "domain=x") [u "Path=/"] eq_refl eq_refl) as (qs & E). vm_compute in E. destruct qs as [|q qs]; discriminate E. Qed.
Print Assumptions C86_refuted.
(** Rewriting changes Domain attributes only: the other pieces stay in their order; an empty decision removes the
    attribute, another one is its only value. *)
Theorem C86_domain_partial : forall rw c,
  match rw c with
  | None => rewrite_cookie rw c = c
  | Some d => exists qs, rewrite_cookie rw c = join (u "; ") qs
      /\ (forall keep, (forall p, keep p = true <-> ~ domain_piece p) -> filter keep qs = filter keep (pieces c))
      /\ (forall p, In p qs -> domain_piece p -> d <> [] /\ p = u "Domain=" ++ d)
      /\ (d <> [] -> In (u "Domain=" ++ d) qs)
      /\ (forall p r, pieces c = p :: r -> ~ domain_piece p -> exists qs', qs = p :: qs')
  end.
Proof.
  intros rw c. unfold rewrite_cookie. destruct (rw c) as [d|] eqn:R; [|reflexivity]. cbn zeta. change (cookie_parts c) with (pieces c).
  assert (DD : forall d, is_domain (u "Domain=" ++ d) = true) by (intros d'; apply domain_iff; exists (lower d'); unfold lower; rewrite map_app; reflexivity).
  set (f := fun p : str => (if is_domain p then if nonempty d then [u "Domain=" ++ d] else [] else [p]) : list str).
  change (flat_map (fun p => if is_domain p then if nonempty d then [u "Domain=" ++ d] else [] else [p]) (pieces c)) with (flat_map f (pieces c)).
  eexists. split; [reflexivity|]. split; [|split; [|split]].
  - intros keep KP. assert (KD : forall p, keep p = negb (is_domain p)).
    { intros p. destruct (is_domain p) eqn:E; cbn [negb].
      - apply not_true_iff_false. rewrite KP. intros X. apply X, domain_iff, E.
      - apply KP. intros X. apply domain_iff in X. congruence. }
    assert (K0 : forall l : list str, filter keep (flat_map f l) = filter keep l).
    { induction l as [|p l IH]; [reflexivity|]. cbn [flat_map]. rewrite filter_app, IH. cbn [filter]. unfold f. rewrite (KD p). destruct (is_domain p) eqn:E; cbn [negb].
      - destruct (nonempty d); [|reflexivity]. cbn [filter]. rewrite KD, DD. reflexivity.
      - cbn [filter]. rewrite KD, E. reflexivity. }
    rewrite filter_app, K0. destruct (_ && _); [|apply app_nil_r]. cbn [filter]. rewrite KD, DD. apply app_nil_r.
  - intros p I DP. apply domain_iff in DP. apply in_app_or in I as [I|I].
    + apply in_flat_map in I. destruct I as (x & _ & I). unfold f in I. destruct (is_domain x) eqn:E.
      * destruct d as [|a d]; [destruct I|]. destruct I as [<-|[]]. split; [discriminate|reflexivity].
      * destruct I as [<-|[]]. congruence.
    + destruct (existsb is_domain (pieces c)); [destruct I|]. destruct d as [|a d]; [destruct I|]. destruct I as [<-|[]]. split; [discriminate|reflexivity].
  - intros ND. assert (NB : nonempty d = true) by (destruct d; [contradiction|reflexivity]). unfold f. rewrite NB. apply in_or_app. destruct (existsb is_domain (pieces c)) eqn:E.
    + left. apply existsb_exists in E. destruct E as (p & I & D). apply in_flat_map. exists p. split; [exact I|]. rewrite D. left. reflexivity.
    + right. left. reflexivity.
  - intros p r -> ND. cbn [flat_map]. unfold f at 1. assert (E : is_domain p = false) by (apply not_true_iff_false; rewrite domain_iff; exact ND). rewrite E. cbn [app]. eexists. reflexivity.
Qed.
Print Assumptions C86_domain_partial.
Example C86_case : rewrite_cookie (fun _ => Some (u "example.com")) (u "session=abc; Path=/;domain=auth.local ; HttpOnly") = u "session=abc; Path=/; Domain=example.com; HttpOnly".
Proof. reflexivity. Qed.

(** ** C87 *)
Definition client_frames (es : list ws_event) : list frame :=
  flat_map (fun e => match e with FromClient (Some t) _ => [TextFrame t] | FromClient None (Some b) => [BytesFrame b] | _ => [] end) es.
Definition upstream_frames (es : list ws_event) : list frame := flat_map (fun e => match e with FromUpstream f => [f] | _ => [] end) es.
Lemma cf_cons e es : client_frames (e :: es) = client_frames [e] ++ client_frames es.
Proof. unfold client_frames. cbn [flat_map]. rewrite app_nil_r. reflexivity. Qed.
Lemma uf_cons e es : upstream_frames (e :: es) = upstream_frames [e] ++ upstream_frames es.
Proof. unfold upstream_frames. cbn [flat_map]. rewrite app_nil_r. reflexivity. Qed.
Definition sends (l : list down) : list frame := flat_map (fun d => match d with Sends f => [f] | _ => [] end) l.
Definition closes (l : list down) : nat := length (filter (fun d => match d with Closes _ => true | _ => false end) l).
(** In both directions the frames are relayed unchanged and in order, in every interleaving; all of them, as long
    as neither side ends. *)
Theorem C87_order : forall cleans es, let p := pump_run cleans es in
  (exists rest, client_frames es = to_up p ++ rest) /\ (exists rest, upstream_frames es = sends (to_down p) ++ rest)
  /\ (Forall (fun e => match e with FromClient _ _ | FromUpstream _ => True | _ => False end) es -> client_frames es = to_up p /\ map Sends (upstream_frames es) = to_down p).
Proof.
  intros cleans es p.
  assert (CF : forall t b, client_frames [FromClient t b] = match client_frame t b with Some f => [f] | None => [] end) by (intros [t|] [b|]; reflexivity).
  assert (G : forall es q, (reading q = false \/ True) ->
     (exists rest, to_up q ++ client_frames es = to_up (fold_left (pump_step cleans) es q) ++ rest)
     /\ (exists rest, sends (to_down q) ++ upstream_frames es = sends (to_down (fold_left (pump_step cleans) es q)) ++ rest)).
  { clear es p. intros es q _. 
    assert (S1 : forall e q, (exists r, to_up q ++ client_frames [e] = to_up (pump_step cleans q e) ++ r /\ (r = [] \/ reading (pump_step cleans q e) = false \/ (reading q = false)))
                 /\ (exists r, sends (to_down q) ++ upstream_frames [e] = sends (to_down (pump_step cleans q e)) ++ r /\ (r = [] \/ iterating (pump_step cleans q e) = false))).
    { clear q es. assert (SA : forall a b, sends (a ++ b) = sends a ++ sends b) by (intros; unfold sends; apply flat_map_app).
      intros e q. destruct e as [t b| |f| |nm]; cbn [pump_step].
      - rewrite CF. change (upstream_frames [FromClient t b]) with (@nil frame). destruct (reading q) eqn:RE.
        + destruct (client_frame t b) as [f|]; [|split; exists []; rewrite ?app_nil_r; auto]. destruct (up_open q); cbn [to_up to_down reading iterating break_pump].
          * split; exists []; rewrite ?app_nil_r; auto.
          * split; [exists [f]; auto|]. exists []. rewrite !app_nil_r. split; [|auto]. rewrite SA. destruct (iterating q && cleans); cbn; rewrite ?app_nil_r; reflexivity.
        + split; [eexists; split; [reflexivity|auto]|]. exists []. rewrite !app_nil_r. auto.
      - destruct (reading q); split; exists []; rewrite ?app_nil_r; auto.
      - change (client_frames [FromUpstream f]) with (@nil frame). change (upstream_frames [FromUpstream f]) with [f]. destruct (iterating q) eqn:IT; cbn [to_up to_down reading iterating].
        + split; exists []; rewrite ?app_nil_r; auto. rewrite SA. split; [reflexivity|auto].
        + split; [exists []; auto|exists [f]; auto].
      - split; exists []; rewrite ?app_nil_r; auto.
      - change (client_frames [UpstreamEnds nm]) with (@nil frame). change (upstream_frames [UpstreamEnds nm]) with (@nil frame). destruct (iterating q) eqn:IT; [|split; exists []; auto].
        destruct nm; cbn [to_up to_down reading iterating break_pump andb]; (split; [exists []; auto|]); exists []; rewrite !app_nil_r, ?SA; cbn; rewrite ?app_nil_r; auto. }
    assert (STOP : forall es q, (reading q = false -> to_up (fold_left (pump_step cleans) es q) = to_up q) /\ (iterating q = false -> sends (to_down (fold_left (pump_step cleans) es q)) = sends (to_down q))).
    { clear. intros es. induction es as [|e es IH]; intros q; [split; reflexivity|]. cbn [fold_left]. destruct (IH (pump_step cleans q e)) as [A B]. split; intros H.
      - assert (R : reading (pump_step cleans q e) = false /\ to_up (pump_step cleans q e) = to_up q).
        { destruct e as [t b| |f| |nm]; cbn [pump_step]; rewrite ?H; auto; destruct (iterating q); auto. destruct nm; cbn; auto. }
        destruct R as [R1 R2]. rewrite (A R1). exact R2.
      - assert (R : iterating (pump_step cleans q e) = false /\ sends (to_down (pump_step cleans q e)) = sends (to_down q)).
        { destruct e as [t b| |f| |nm]; cbn [pump_step]; rewrite ?H; auto.
          - destruct (reading q); auto. destruct (client_frame t b); auto. destruct (up_open q); auto. cbn. rewrite H. cbn. split; [reflexivity|]. unfold sends. rewrite flat_map_app. cbn. apply app_nil_r.
          - destruct (reading q); auto. }
        destruct R as [R1 R2]. rewrite (B R1). exact R2. }
    revert q. induction es as [|e es IH]; intros q; [split; exists []; reflexivity|]. cbn [fold_left]. destruct (S1 e q) as [(r1 & E1 & D1) (r2 & E2 & D2)]. destruct (IH (pump_step cleans q e)) as [(s1 & F1) (s2 & F2)]. destruct (STOP es (pump_step cleans q e)) as [T1 T2].
    rewrite (cf_cons e es), (uf_cons e es). split.
    - rewrite app_assoc, E1, <- app_assoc. destruct D1 as [-> |D1]; [exists s1; exact F1|]. exists (r1 ++ client_frames es). rewrite T1; [reflexivity|]. destruct D1 as [D1|D1]; [exact D1|].
      destruct e as [t b| |f| |nm]; cbn [pump_step]; rewrite ?D1; auto; destruct (iterating q); auto; destruct nm; auto.
    - rewrite app_assoc, E2, <- app_assoc. destruct D2 as [-> |D2]; [exists s2; exact F2|]. exists (r2 ++ upstream_frames es). rewrite T2 by exact D2. reflexivity. }
  destruct (G es pump0 (or_intror I)) as [A B]. split; [exact A|]. split; [exact B|]. intros F.
  assert (L : forall es q, Forall (fun e => match e with FromClient _ _ | FromUpstream _ => True | _ => False end) es -> reading q = true -> iterating q = true -> up_open q = true ->
     to_up (fold_left (pump_step cleans) es q) = to_up q ++ client_frames es /\ to_down (fold_left (pump_step cleans) es q) = to_down q ++ map Sends (upstream_frames es)).
  { clear - CF. intros es. induction es as [|e es IH]; intros q F R I O; [cbn; rewrite !app_nil_r; auto|]. inversion F as [|? ? F1 F2]; subst. cbn [fold_left].
    rewrite (cf_cons e es), (uf_cons e es). rewrite map_app.
    destruct e as [t b| |f| |nm]; try contradiction; cbn [pump_step]; rewrite ?R, ?I, ?O.
    - rewrite CF. destruct (client_frame t b) as [f|].
      + destruct (IH {| reading := true; iterating := true; up_open := true; to_up := to_up q ++ [f]; to_down := to_down q |} F2 eq_refl eq_refl eq_refl) as [A B]. rewrite A, B. cbn [to_up to_down]. rewrite <- app_assoc. auto.
      + destruct (IH q F2 R I O) as [A B]. rewrite A, B. auto.
    - destruct (IH {| reading := true; iterating := true; up_open := true; to_up := to_up q; to_down := to_down q ++ [Sends f] |} F2 eq_refl eq_refl eq_refl) as [A B]. rewrite A, B. cbn [to_up to_down]. rewrite <- app_assoc. auto. }
  destruct (L es pump0 F eq_refl eq_refl eq_refl) as [X Y]. unfold p, pump_run. rewrite X, Y. auto.
Qed.
Print Assumptions C87_order.
(** The client is sent at most one close. *)
Definition C87_close_statement : Prop := forall cleans es, (closes (to_down (pump_run cleans es)) <= 1)%nat.
(** A client that still writes when the upstream has gone is sent two, and so is one whose upstream fails. *)
Theorem C87_close_refuted : ~ C87_close_statement /\ forall cleans, to_down (pump_run cleans [UpstreamEnds true; FromClient (Some (u "x")) None]) = [Closes 1000; Closes 1011]
  /\ to_down (pump_run cleans [UpstreamEnds false]) = [Closes 1000; Closes 1011].
Proof. split; [|intros cleans; split; reflexivity]. intros H. specialize (H true [UpstreamEnds false]). vm_compute in H. lia. Qed.
Print Assumptions C87_close_refuted.
Theorem C87_close_partial : forall cleans pre post, Forall (fun e => match e with UpstreamEnds _ | UpstreamLost => False | _ => True end) pre -> Forall (fun e => match e with FromClient _ _ => False | _ => True end) post ->
  (exists fs, to_down (pump_run cleans pre) = map Sends fs) /\ exists fs, to_down (pump_run cleans (pre ++ UpstreamEnds true :: post)) = map Sends fs ++ [Closes 1000].
Proof.
  intros cleans pre post F1 F2.
  assert (A : forall q, (reading q = true -> up_open q = true) -> iterating q = true -> let q' := fold_left (pump_step cleans) pre q in iterating q' = true /\ (exists fs, to_down q' = to_down q ++ map Sends fs)).
  { clear F2. induction F1 as [|e pre E F IH]; intros q O I; [split; [exact I|exists []; rewrite app_nil_r; reflexivity]|]. cbn [fold_left].
    assert (ST : let q1 := pump_step cleans q e in (reading q1 = true -> up_open q1 = true) /\ iterating q1 = true /\ exists fs, to_down q1 = to_down q ++ map Sends fs).
    { destruct e as [t b| |f| |nm]; try contradiction; cbn [pump_step].
      - destruct (reading q) eqn:R; [|split; [congruence|split; [exact I|exists []; rewrite app_nil_r; reflexivity]]]. destruct (client_frame t b); [rewrite (O eq_refl)|]; cbn; (split; [auto|split; [exact I|exists []; rewrite app_nil_r; reflexivity]]).
      - destruct (reading q) eqn:R; cbn; (split; [congruence|split; [exact I|exists []; rewrite app_nil_r; reflexivity]]).
      - rewrite I. cbn. split; [exact O|]. split; [reflexivity|]. exists [f]. reflexivity. }
    destruct ST as (S1 & S2 & fs & S3). destruct (IH (pump_step cleans q e) S1 S2) as (B1 & gs & B2). split; [exact B1|]. exists (fs ++ gs). rewrite B2, S3, map_app, app_assoc. reflexivity. }
  destruct (A pump0 (fun _ => eq_refl) eq_refl) as (I & fs & D). cbn [to_down pump0 app] in D. unfold pump_run. split; [exists fs; exact D|]. exists fs. rewrite fold_left_app. cbn [fold_left]. set (q := fold_left (pump_step cleans) pre pump0) in *.
  assert (P : forall q2, iterating q2 = false -> to_down (fold_left (pump_step cleans) post q2) = to_down q2).
  { induction F2 as [|e post E F IH]; intros q2 I2; [reflexivity|]. cbn [fold_left]. rewrite IH; destruct e as [t b| |f| |nm]; try contradiction; cbn [pump_step]; rewrite ?I2; auto; destruct (reading q2); auto. }
  cbn [pump_step]. rewrite I. rewrite P by reflexivity. cbn [to_down]. rewrite D. reflexivity.
Qed.
Print Assumptions C87_close_partial.
Example C87_case : let p := pump_run true [FromUpstream (TextFrame (u "hi")); FromClient None (Some (u "b")); FromClient (Some []) None; ClientGone; FromUpstream (TextFrame (u "late")); UpstreamEnds true] in
  to_up p = [BytesFrame (u "b"); TextFrame []] /\ to_down p = [Sends (TextFrame (u "hi")); Sends (TextFrame (u "late")); Closes 1000].
Proof. split; reflexivity. Qed.

(** ** C88 and C89 *)
(** The prefix with one slash at its end. *)
Definition under (prefix base : str) : Prop := (exists t, prefix = t ++ u "/" /\ base = prefix) \/ (~ (exists t, prefix = t ++ u "/") /\ base = prefix ++ u "/").
(** A relay mounted at a path forwards what follows it. *)
Definition C88_statement : Prop := forall cfg mount rest base, under (upstream_prefix cfg) base -> ~ In 47 rest ->
  rest <> u "." -> rest <> u ".." -> upstream_path cfg (mounted_raw_path mount (u "/" ++ rest)) = base ++ rest.
Definition C89_statement : Prop := forall cfg raw base, under (upstream_prefix cfg) base -> exists t, upstream_path cfg raw = base ++ t.
(** The mount's own path is forwarded too. *)
Theorem C88_refuted : ~ C88_statement /\ upstream_path plain_config (mounted_raw_path (u "/auth") (u "/echo")) = u "/api/auth/echo".
Proof.
  split; [|reflexivity]. intros H. specialize (H plain_config (u "/auth") (u "echo") (u "/api/")).
  assert (E : upstream_path plain_config (mounted_raw_path (u "/auth") (u "/" ++ u "echo")) = u "/api/auth/echo") by reflexivity. rewrite E in H.
  assert (X : u "/api/auth/echo" = u "/api/" ++ u "echo").
  { apply H; [|vm_compute; intuition discriminate|vm_compute; discriminate|vm_compute; discriminate]. right. split; [|reflexivity]. intros (t & T).
    assert (L : last (u "/api") 0 = last (t ++ u "/") 0) by (cbn [upstream_prefix plain_config] in T; rewrite <- T; reflexivity). change (u "/") with [47] in L. rewrite last_last in L. vm_compute in L. discriminate L. }
  vm_compute in X. discriminate X.
Qed.
Print Assumptions C88_refuted.
(** Dots lead out of the prefix. *)
Theorem C89_refuted : ~ C89_statement /\ upstream_path plain_config (u "/../admin") = u "/admin".
Proof.
  split; [|reflexivity]. intros H. destruct (H plain_config (u "/../admin") (u "/api/")) as (t & T).
  - right. split; [|reflexivity]. intros (t & T). assert (L : last (u "/api") 0 = last (t ++ u "/") 0) by (cbn [upstream_prefix plain_config] in T; rewrite <- T; reflexivity). change (u "/") with [47] in L. rewrite last_last in L. vm_compute in L. discriminate L.
  - assert (E : upstream_path plain_config (u "/../admin") = u "/admin") by reflexivity. rewrite E in T. vm_compute in T. discriminate T.
Qed.
Print Assumptions C89_refuted.
Definition no_dots (p : str) : Prop := forall s, In s (split_char 47 p) -> s <> u "." /\ s <> u "..".
Lemma resolve_plain out segs : (forall s, In s segs -> s <> u "." /\ s <> u "..") -> resolve_segments out segs = out ++ segs.
Proof.
  revert out. induction segs as [|s segs IH]; intros out H; cbn [resolve_segments]; [rewrite app_nil_r; reflexivity|]. destruct (H s (or_introl eq_refl)) as [A B]. apply seqb_neq in A, B. rewrite A, B, IH by (intros x I; apply H; right; exact I). rewrite <- app_assoc. reflexivity.
Qed.
Lemma join_split_char s : join (u "/") (split_char 47 s) = s.
Proof.
  change (u "/") with [47]. induction s as [|a s IH]; [reflexivity|]. cbn [split_char]. destruct (N.eqb_spec a 47) as [->|NE].
  - assert (NN := split_char_nonnil 47 s). destruct (split_char 47 s) as [|x l]; [contradiction|]. change (join [47] ([] :: x :: l)) with ([] ++ [47] ++ join [47] (x :: l)). rewrite IH. reflexivity.
  - destruct (split_char 47 s) as [|x l] eqn:E; [destruct (split_char_nonnil 47 s E)|]. destruct l as [|y l]; cbn [join] in *; rewrite <- IH; reflexivity.
Qed.
Lemma resolve_no_dots p : p <> [] -> no_dots p -> resolve_path p = p.
Proof.
  intros NP ND. unfold resolve_path. cbn zeta. rewrite resolve_plain by exact ND. cbn [app].
  assert (L : In (last (split_char 47 p) []) (split_char 47 p)) by (assert (NN := split_char_nonnil 47 p); destruct (exists_last NN) as (a & b & E); rewrite E, last_last; apply in_or_app; right; left; reflexivity).
  destruct (ND _ L) as [A B]. apply seqb_neq in A, B. rewrite A, B. cbn [orb]. rewrite join_split_char. destruct p; [contradiction|reflexivity].
Qed.
(** Without dot segments the request goes to the prefix followed by the path, and so stays below the prefix. *)
Theorem C88_path_partial : forall cfg raw base, under (upstream_prefix cfg) base -> no_dots (upstream_prefix cfg) -> no_dots raw ->
  exists rest n, raw = repeat 47 n ++ rest /\ (forall r, rest <> 47 :: r) /\ upstream_path cfg raw = base ++ rest.
Proof.
  intros cfg raw base U NP NR. destruct (lstrip_by_decomp (fun c => N.eqb c 47) raw) as (w & E & W & M). set (rest := lstrip_by (fun c => N.eqb c 47) raw) in *.
  assert (WR : w = repeat 47 (length w)).
  { clear E. induction w as [|c w IH]; [reflexivity|]. cbn [forallb] in W. apply andb_true_iff in W as [W1 W2]. apply N.eqb_eq in W1. subst c. cbn [length repeat]. f_equal. apply IH. exact W2. }
  exists rest, (length w). split; [rewrite <- WR; exact E|]. split; [intros r ER; rewrite ER in M; discriminate M|].
  assert (JP : join_paths (upstream_prefix cfg) raw = base ++ rest).
  { unfold join_paths. fold rest. destruct (suffixb (u "/") (upstream_prefix cfg)) eqn:SF.
    - apply suffixb_iff in SF. destruct U as [(t & _ & ->)|[N _]]; [reflexivity|contradiction].
    - destruct U as [(t & T & _)|[_ ->]]; [|reflexivity]. exfalso. apply not_true_iff_false in SF. apply SF, suffixb_iff. exists t. exact T. }
  unfold upstream_path. rewrite JP. 
  assert (BS : exists b0, base = b0 ++ [47] /\ forall s, In s (split_char 47 b0) -> In s (split_char 47 (upstream_prefix cfg))).
  { destruct U as [(t & T & ->)|[_ ->]].
    - exists t. split; [exact T|]. intros s I. rewrite T. change (u "/") with [47]. rewrite split_char_mid. apply in_or_app. left. exact I.
    - exists (upstream_prefix cfg). split; [reflexivity|auto]. }
  destruct BS as (b0 & -> & BI). rewrite <- app_assoc. cbn [app]. apply resolve_no_dots; [destruct b0; discriminate|]. intros s I. rewrite split_char_mid in I. apply in_app_or in I as [I|I]; [apply NP, BI, I|].
  apply NR. rewrite E, WR. assert (G : forall n r, In s (split_char 47 r) -> In s (split_char 47 (repeat 47 n ++ r))) by (induction n as [|n IH]; intros r H; [exact H|]; cbn [repeat app split_char]; rewrite N.eqb_refl; right; apply IH; exact H).
  apply G. exact I.
Qed.
Print Assumptions C88_path_partial.
(** In particular such a path stays below the prefix. *)
Theorem C89_below_partial : forall cfg raw base, under (upstream_prefix cfg) base -> no_dots (upstream_prefix cfg) -> no_dots raw -> exists t, upstream_path cfg raw = base ++ t.
Proof. intros cfg raw base U A B. destruct (C88_path_partial cfg raw base U A B) as (rest & _ & _ & _ & E). exists rest. exact E. Qed.
Print Assumptions C89_below_partial.
Example C88_case : no_dots (upstream_prefix plain_config) /\ no_dots (u "//users/x.y/") /\ upstream_path plain_config (u "//users/x.y/") = u "/api/users/x.y/".
Proof.
  split; [|split; [|reflexivity]]; intros s I; vm_compute in I; repeat (destruct I as [<-|I]; [split; vm_compute; discriminate|]); destruct I.
Qed.
