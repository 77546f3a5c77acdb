(** C38, C73: compression. *)
From Verif Require Import PyStr PyStrFacts Asgi HeaderModel HeaderSpec HeaderProofs HeaderProps CorsProofs GzipModel GzipSpec GzipProofs.

(** ** C38 *)
(** Every complete response becomes a complete response that is passed on or compressed, for a reason. *)
Definition C38_statement : Prop := forall G (z : gzip G) gunzip order min req ms,
  set_order order -> decodes z gunzip -> response_complete ms ->
  exists out, gzipped order z min req ms = (out, true) /\ response_complete out
    /\ (mentions_gzip req /\ eligible min ms -> compressed gunzip ms out)
    /\ (~ (mentions_gzip req /\ eligible min ms) -> passed ms out).
Lemma mentions req : containsb (u "gzip") (match hget (u "Accept-Encoding") req with Some v => v | None => [] end) = true <-> mentions_gzip req.
Proof.
  unfold hget, mentions_gzip. rewrite getall_values. replace (lower (u "Accept-Encoding")) with (u "accept-encoding") by (vm_compute; reflexivity).
  destruct (values (u "accept-encoding") req) as [|v r]; cbn [hd_error].
  - split; [intros E; discriminate E|]. intros (v & r & x & y & E & _). discriminate E.
  - rewrite containsb_iff. split.
    + intros (x & y & E). exists v, r, x, y. auto.
    + intros (v' & r' & x & y & E & E2). injection E as -> _. exists x, y. exact E2.
Qed.
Theorem C38_response_partial : forall G (z : gzip G) gunzip order min req st h bodies,
  set_order order -> decodes z gunzip -> abody_complete bodies -> length (values (u "content-length") h) <= 1 ->
  let ms := AStart st h :: bodies in
  exists out, gzipped order z min req ms = (out, true) /\ response_complete out
    /\ (mentions_gzip req /\ eligible min ms -> compressed gunzip ms out)
    /\ (~ (mentions_gzip req /\ eligible min ms) -> passed ms out).
Proof.
  intros G z gunzip order min req st h bodies O D C LL ms. unfold gzipped.
  destruct (containsb (u "gzip") _) eqn:M.
  2:{ exists ms. split; [reflexivity|]. split; [constructor; exact C|]. split.
      - intros [X _]. apply mentions in X. congruence.
      - intros _. exists st, h, h, bodies. split; [reflexivity|]. split; [reflexivity|]. intros n v. tauto. }
  apply mentions in M. unfold ms. cbn [gsend gstep].
  destruct (hcontains (u "content-encoding") h) eqn:HC.
  { (* already encoded *)
    assert (NE : ~ eligible min (AStart st h :: bodies)).
    { intros (st' & h' & b' & E & V & _). injection E as <- <- <-. rewrite contains_values in HC. change (lower (u "content-encoding")) with (u "content-encoding") in HC. rewrite V in HC. discriminate HC. }
    exists (AStart st (wire order h) :: bodies). split.
    - destruct C as [x|x ms' C]; cbn [gsend gstep initial encoded started file buffer fresh app]; [reflexivity|]. rewrite send_encoded by exact C. reflexivity.
    - split; [constructor; exact C|]. split; [intros [_ X]; contradiction|]. intros _. exists st, h, (wire order h), bodies. split; [reflexivity|]. split; [reflexivity|].
      intros n. apply wire_same. exact O. }
  assert (VE : values (u "content-encoding") h = []).
  { rewrite contains_values in HC. change (lower (u "content-encoding")) with (u "content-encoding") in HC. destruct (values (u "content-encoding") h); [reflexivity|discriminate HC]. }
  destruct C as [x|x rest C]; cbn [gsend gstep initial encoded started file buffer fresh negb fwrite].
  - rewrite andb_true_r. destruct (Nat.ltb_spec (length x) min) as [L|L].
    + exists [AStart st (wire order h); ABody x false]. split; [reflexivity|]. split; [constructor; constructor|]. split.
      * intros [_ (st' & h' & b' & E & _ & NS)]. injection E as <- <- <-. exfalso. apply NS. exists x. auto.
      * intros _. exists st, h, (wire order h), [ABody x false]. split; [reflexivity|]. split; [reflexivity|]. intros n. apply wire_same. exact O.
    + destruct (gwrite z (gnew z) x) as (g, o) eqn:W. cbn [app]. set (body := o ++ gclose z g).
      exists [AStart st (wire order (standard_headers (N.of_nat (length body)) h)); ABody body false]. split; [reflexivity|]. split; [constructor; constructor|].
      destruct (standard_facts order (N.of_nat (length body)) h O) as (F1 & F2 & F3 & F4 & F5). split.
      * intros _. exists st, h. eexists. exists [ABody x false], [ABody body false]. split; [reflexivity|]. split; [reflexivity|].
        assert (AB : forall st h b, abytes [AStart st h; ABody b false] = b) by (intros; unfold abytes; cbn; apply app_nil_r).
        rewrite !AB. split.
        -- specialize (D [x]). cbn [feed concat] in D. rewrite W, app_nil_r in D. exact D.
        -- split; [exact F1|]. split; [intros v I; rewrite F2 in I; destruct I as [<-|[]]; reflexivity|]. split; [exact F3|]. split; [exact F4|exact F5].
      * intros X. exfalso. apply X. split; [exact M|]. exists st, h. eexists. split; [reflexivity|]. split; [exact VE|]. intros (b & E & LT). injection E as <-. lia.
  - rewrite andb_false_r. destruct (gwrite z (gnew z) x) as (g, o) eqn:W. cbn [app].
    destruct (send_stream order z min (st, streaming_headers h) rest C g) as (bs & E & C' & A). rewrite E.
    exists (AStart st (wire order (streaming_headers h)) :: ABody o true :: bs). split; [reflexivity|]. split; [constructor; constructor; exact C'|].
    destruct (streaming_facts order h O LL) as (F1 & F2 & F3 & F4 & F5). split.
    + intros _. exists st, h. eexists. eexists. eexists. split; [reflexivity|]. split; [reflexivity|]. split.
      * specialize (D (x :: map abody rest)). cbn [feed] in D. rewrite W in D. unfold abytes in A |- *. cbn [map concat abody]. cbn [app]. rewrite A. exact D.
      * split; [exact F1|]. split; [intros v I; rewrite F2 in I; destruct I|]. split; [exact F3|]. split; [exact F4|exact F5].
    + intros X. exfalso. apply X. split; [exact M|]. exists st, h. eexists. split; [reflexivity|]. split; [exact VE|]. intros (b & EB & _). discriminate EB.
Qed.
Print Assumptions C38_response_partial.

(** A toy compressor for the cases: a marker, then the bytes with one added. *)
Definition toy : gzip bool := {|
  gnew := false; gwrite := fun g c => (true, (if g then [] else [31%N]) ++ map N.succ c);
  gclose := fun g => (if g then [] else [31%N]) ++ [0%N] |}.
Definition untoy (s : str) : option str :=
  match s with 31%N :: r => if seqb (skipn (length r - 1) r) [0%N] then Some (map N.pred (firstn (length r - 1) r)) else None | _ => None end.
Lemma toy_decodes : decodes toy untoy.
Proof.
  assert (F : forall chunks, feed toy true chunks = map N.succ (concat chunks) ++ [0%N]).
  { induction chunks as [|c r IH]; [reflexivity|]. cbn [feed toy gwrite]. fold toy. cbn [app]. rewrite IH, app_assoc, <- map_app. reflexivity. }
  assert (F0 : forall chunks, feed toy false chunks = 31%N :: map N.succ (concat chunks) ++ [0%N]).
  { destruct chunks as [|c r]; [reflexivity|]. cbn [feed toy gwrite]. fold toy. rewrite F. cbn [app concat]. rewrite map_app, <- app_assoc. reflexivity. }
  intros chunks. change (gnew toy) with false. rewrite F0. cbn [untoy].
  assert (LN : length (map N.succ (concat chunks) ++ [0%N]) - 1 = length (map N.succ (concat chunks))) by (rewrite app_length; cbn [length]; lia).
  rewrite LN, skipn_app, skipn_all, Nat.sub_diag, firstn_app, firstn_all, Nat.sub_diag. cbn [app skipn firstn]. rewrite app_nil_r, map_map.
  rewrite (map_ext _ (fun x => x) N.pred_succ), map_id. reflexivity.
Qed.
(** Only the first of two Content-Length lines is removed when a stream is compressed. *)
Theorem C38_refuted : ~ C38_statement.
Proof.
  intros H.
  destruct (H bool toy untoy dedup 500 [(u "accept-encoding", u "gzip")] [AStart 200 [(u "content-length", u "2"); (u "content-length", u "2")]; ABody (u "a") true; ABody (u "b") false]
              dedup_order toy_decodes ltac:(repeat constructor)) as (out & E & _ & C & _).
  vm_compute in E. injection E as <-.
  destruct C as (st & h & h' & bs & bs' & E1 & E2 & _ & _ & L & _).
  - split.
    + exists (u "gzip"), [], [], []. split; reflexivity.
    + eexists _, _, _. split; [reflexivity|]. split; [reflexivity|]. intros (b & E & _). discriminate E.
  - injection E2 as <- <- <-. specialize (L (u "2")). assert (X : u "2" = dec (N.of_nat (length (abytes [AStart 200 [(u "content-length", u "2"); (u "Content-Encoding", u "gzip"); (u "vary", u "Accept-Encoding")]; ABody [31; 98]%N true; ABody [99; 0]%N false])))) by (apply L; vm_compute; left; reflexivity).
    vm_compute in X. discriminate X.
Qed.
Print Assumptions C38_refuted.
Example C38_case :
  gzipped dedup toy 3 [(u "Accept-Encoding", u "br, gzip")] [AStart 200 [(u "content-length", u "4"); (u "vary", u "Cookie")]; ABody (u "abcd") false]
  = ([AStart 200 [(u "Content-Length", u "6"); (u "vary", u "Cookie, Accept-Encoding"); (u "Content-Encoding", u "gzip")]; ABody [31; 98; 99; 100; 101; 0]%N false], true)
  /\ gzipped dedup toy 3 [(u "Accept-Encoding", u "br, gzip")] [AStart 200 []; ABody (u "ab") false] = ([AStart 200 []; ABody (u "ab") false], true)
  /\ gzipped dedup toy 3 [(u "Accept-Encoding", u "gzip")] [AStart 200 []; ABody (u "a") true; ABody (u "b") false]
  = ([AStart 200 [(u "Content-Encoding", u "gzip"); (u "vary", u "Accept-Encoding")]; ABody [31; 98]%N true; ABody [99; 0]%N false], true).
Proof. split; [|split]; vm_compute; reflexivity. Qed.

(** A body after the end of a compressed response is an error of the application: the call raises, and
    nothing more is sent. *)
Lemma stream_after G (order : list str -> list str) (z : gzip G) min sh b more rest bodies : abody_complete bodies -> forall g,
  gsend order z min {| initial := Some sh; started := true; encoded := false; file := Open g; buffer := [] |} (bodies ++ ABody b more :: rest)
  = (fst (gsend order z min {| initial := Some sh; started := true; encoded := false; file := Open g; buffer := [] |} bodies), false).
Proof.
  destruct sh as (st, h). intros C. induction C as [x|x ms C IH]; intros g; cbn [gsend gstep initial encoded started negb fwrite file buffer app].
  - destruct (gwrite z g x) as (g', o). cbn [gsend gstep initial encoded started negb fwrite file buffer app fst]. reflexivity.
  - destruct (gwrite z g x) as (g', o). rewrite IH. cbn [app].
    destruct (gsend order z min _ ms) as (out, ok). reflexivity.
Qed.
Theorem C38_after : forall G (z : gzip G) order min req st h bodies b more rest,
  abody_complete bodies -> mentions_gzip req -> eligible min (AStart st h :: bodies) ->
  gzipped order z min req ((AStart st h :: bodies) ++ ABody b more :: rest) = (fst (gzipped order z min req (AStart st h :: bodies)), false).
Proof.
  intros G z order min req st h bodies b more rest C M (st' & h' & bs & E & V & NS). injection E as <- <- <-.
  apply mentions in M. unfold gzipped. rewrite M. cbn [app gsend gstep].
  assert (HC : hcontains (u "content-encoding") h = false).
  { rewrite contains_values. change (lower (u "content-encoding")) with (u "content-encoding"). rewrite V. reflexivity. }
  rewrite HC. destruct C as [x|x ms C]; cbn [app gsend gstep initial encoded started file buffer fresh negb fwrite].
  - rewrite andb_true_r. destruct (Nat.ltb_spec (length x) min) as [L|L]; [exfalso; apply NS; exists x; auto|].
    destruct (gwrite z (gnew z) x) as (g, o). cbn [app gsend gstep initial encoded started file buffer negb fwrite fst]. reflexivity.
  - rewrite andb_false_r. destruct (gwrite z (gnew z) x) as (g, o). rewrite stream_after by exact C.
    destruct (gsend order z min _ ms) as (out, ok). reflexivity.
Qed.
Print Assumptions C38_after.
Example C38_after_case :
  gzipped dedup toy 3 [(u "Accept-Encoding", u "gzip")] [AStart 200 []; ABody (u "a") true; ABody (u "b") false; ABody (u "c") false]
  = ([AStart 200 [(u "Content-Encoding", u "gzip"); (u "vary", u "Accept-Encoding")]; ABody [31; 98]%N true; ABody [99; 0]%N false], false).
Proof. vm_compute. reflexivity. Qed.

(** ** C73 *)
(** Only a client that accepts gzip gets a response it did not have before. *)
Definition C73_statement : Prop := forall G (z : gzip G) order min req ms, set_order order ->
  ~ accepts_gzip req -> fst (gzipped order z min req ms) = ms.
(** The middleware looks for the letters gzip: a client that refuses it with a zero weight gets it. *)
Theorem C73_refuted : ~ C73_statement.
Proof.
  intros H. specialize (H bool toy dedup 0 [(u "accept-encoding", u "gzip;q=0")] [AStart 200 []; ABody [] false] dedup_order).
  assert (N : ~ accepts_gzip [(u "accept-encoding", u "gzip;q=0")]).
  { intros (v & item & name & params & I & J & E & _ & W). vm_compute in I. destruct I as [<-|[]]. vm_compute in J. destruct J as [<-|[]].
    vm_compute in E. injection E as <- <-. apply W. exists (u "q=0"). split; [vm_compute; left; reflexivity|left; reflexivity]. }
  specialize (H N). vm_compute in H. discriminate H.
Qed.
Print Assumptions C73_refuted.
(** Without these letters in its first Accept-Encoding line, it gets exactly what the application sent. *)
Theorem C73_identity_partial : forall G (z : gzip G) order min req ms, ~ mentions_gzip req -> gzipped order z min req ms = (ms, true).
Proof.
  intros G z order min req ms N. unfold gzipped. destruct (containsb (u "gzip") _) eqn:M; [apply mentions in M; contradiction|reflexivity].
Qed.
Print Assumptions C73_identity_partial.
(** A client that accepts gzip by that name in its only line is one the middleware finds. *)
Theorem C73_found_partial : forall req v item name params, values (u "accept-encoding") req = [v] ->
  In item (split_char 44 v) -> split_char 59 item = name :: params -> strip name = u "gzip" -> mentions_gzip req.
Proof.
  intros req v item name params E I S N. exists v, [].
  assert (X : exists x y, name = x ++ u "gzip" ++ y).
  { unfold strip, strip_by in N. destruct (lstrip_by_decomp is_space name) as (x & D & _). destruct (rstrip_by_decomp is_space (lstrip_by is_space name)) as (y & D' & _).
    exists x, y. rewrite <- N, <- D'. exact D. }
  destruct X as (x & y & ->).
  assert (P : forall c (s : str) part, In part (split_char c s) -> exists a b, s = a ++ part ++ b).
  { intros c s. induction s as [|k s IH]; intros part J; cbn [split_char] in J.
    - destruct J as [<-|[]]. exists [], []. reflexivity.
    - destruct (N.eqb k c).
      + destruct J as [<-|J]; [exists [], (k :: s); reflexivity|]. destruct (IH part J) as (a & b & ->). exists (k :: a), b. reflexivity.
      + destruct (split_char c s) as [|w ws] eqn:Q; [destruct (split_char_nonnil c s Q)|]. destruct J as [<-|J].
        * assert (H : exists b, s = w ++ b).
          { clear -Q. revert w ws Q. induction s as [|k s IH]; intros w ws Q; cbn [split_char] in Q; [injection Q as <- _; exists []; reflexivity|].
            destruct (N.eqb k c); [injection Q as <- _; exists (k :: s); reflexivity|].
            destruct (split_char c s) as [|w' ws'] eqn:Q'; [destruct (split_char_nonnil c s Q')|]. injection Q as <- _. destruct (IH w' ws' eq_refl) as (b & ->). exists b. reflexivity. }
          destruct H as (b & ->). exists [], b. reflexivity.
        * destruct (IH part (or_intror J)) as (a & b & ->). exists (k :: a), b. reflexivity. }
  destruct (P 59%N item (x ++ u "gzip" ++ y)) as (a & b & ->); [rewrite S; left; reflexivity|].
  destruct (P 44%N v _ I) as (a' & b' & EV). exists (a' ++ a ++ x), (y ++ b ++ b'). split; [exact E|]. rewrite EV, <- !app_assoc. reflexivity.
Qed.
Print Assumptions C73_found_partial.
Example C73_case : accepts_gzip [(u "accept-encoding", u "br;q=1.0, gzip;q=0.8")] /\ mentions_gzip [(u "accept-encoding", u "br;q=1.0, gzip;q=0.8")].
Proof.
  split.
  - exists (u "br;q=1.0, gzip;q=0.8"), (u " gzip;q=0.8"), (u " gzip"), [u "q=0.8"]. split; [left; reflexivity|]. split; [right; left; reflexivity|]. split; [reflexivity|].
    split; [left; reflexivity|]. intros (q & I & J). cbn [map In] in I. destruct I as [<-|[]]. vm_compute in J. destruct J as [J|[J|[J|[J|[]]]]]; discriminate J.
  - exists (u "br;q=1.0, gzip;q=0.8"), [], (u "br;q=1.0, "), (u ";q=0.8"). split; vm_compute; reflexivity.
Qed.
