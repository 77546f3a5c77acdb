(** C44 and C78-C80: static files. *)
From Verif Require Import PyStr PyStrFacts HeaderModel HeaderSpec HeaderProofs HostProofs StaticModel StaticSpec StaticProofs.

Lemma path_calm root path : exists names, calm (get_path root path) names.
Proof. destruct (looked_path root path) as [->|(n & l & F & _ & ->)]; [exists []; apply calm_dot|exists (n :: l); apply calm_names; exact F]. Qed.
Lemma index_plain : plain (u "index.html").
Proof. repeat split; try discriminate. apply cmem_not_In. reflexivity. Qed.
Lemma missing_plain : plain (u "404.html").
Proof. repeat split; try discriminate. apply cmem_not_In. reflexivity. Qed.

(** ** C44 *)
(** Whatever the request path and the root path, the path below a directory stays inside it. *)
Theorem C44_lexical : forall cwd directory root path, prefixb (u "/") cwd = true ->
  inside (abspath cwd directory) (abspath cwd (path_join directory (get_path root path))).
Proof.
  intros cwd d root path C. destruct (path_calm root path) as (names & K). exists names. split; [destruct K as (_ & _ & F & _); exact F|]. apply full_inside; assumption.
Qed.
Print Assumptions C44_lexical.
(** An absolute normal path: what [inside] is about has no "." or "..". *)
Theorem C44_normal : forall cwd directory, prefixb (u "/") cwd = true ->
  exists k names, (k = 1 \/ k = 2)%nat /\ Forall plain names /\ abspath cwd directory = repeat 47%N k ++ join (u "/") names.
Proof.
  intros cwd d C. rewrite abspath_join by exact C. assert (JA := join_abs cwd d C). set (q := path_join cwd d) in *. clearbody q.
  assert (S : slashes q = 1%nat \/ slashes q = 2%nat) by (unfold slashes; rewrite JA; destruct (prefixb (u "//") q && _); auto).
  destruct (norm_stacked true (split_char 47 q) [] (split_no_sep 47 q) (stacked_nil _)) as (bn & k & EB & PB & K). rewrite (K eq_refl) in EB. cbn [repeat app] in EB.
  exists (slashes q), bn. split; [exact S|]. split; [exact PB|]. unfold normpath. destruct q as [|x q]; [discriminate JA|]. destruct S as [S|S]; rewrite S; cbn [Nat.eqb negb]; rewrite EB; reflexivity.
Qed.
Print Assumptions C44_normal.
Lemma lookup_inside w s p names dirs f k : prefixb (u "/") (cwd w) = true -> calm p names -> lookup_path w s dirs p = Hit f k ->
  exists d, In d dirs /\ inside (abspath (cwd w) d) (abspath (cwd w) (path_join d p)) /\ f = (if follow_symlink s then abspath (cwd w) (path_join d p) else realpath w (path_join d p)).
Proof.
  intros C K. induction dirs as [|d dirs IH]; [discriminate|]. cbn [lookup_path].
  assert (G : get_full_path w s d p = if follow_symlink s then abspath (cwd w) (path_join d p) else realpath w (path_join d p)) by reflexivity. rewrite G.
  assert (IN : inside (abspath (cwd w) d) (abspath (cwd w) (path_join d p))).
  { exists names. split; [destruct K as (_ & _ & F & _); exact F|]. apply full_inside; assumption. }
  assert (HERE : forall f0 k0, Hit (if follow_symlink s then abspath (cwd w) (path_join d p) else realpath w (path_join d p)) k0 = Hit f0 k0 ->
    exists d0, In d0 (d :: dirs) /\ inside (abspath (cwd w) d0) (abspath (cwd w) (path_join d0 p)) /\ f0 = (if follow_symlink s then abspath (cwd w) (path_join d0 p) else realpath w (path_join d0 p))).
  { intros f0 k0 E. exists d. split; [left; reflexivity|]. split; [exact IN|]. congruence. }
  destruct (stat w _); intros E; try discriminate E; try (apply (HERE f k); congruence).
  destruct (IH E) as (d' & I & R). exists d'. split; [right; exact I|exact R].
Qed.
(** Every file a response shows was looked up under a path that lies lexically inside one of the directories;
    without follow_symlink the operating system then resolves its links. *)
Theorem C44_response : forall w s meth root path f st, prefixb (u "/") (cwd w) = true -> get_response w s meth root path = FileAnswer f st ->
  exists d p, In d (directories s) /\ inside (abspath (cwd w) d) (abspath (cwd w) (path_join d p))
    /\ f = (if follow_symlink s then abspath (cwd w) (path_join d p) else realpath w (path_join d p)).
Proof.
  intros w s meth root path f st C. destruct (path_calm root path) as (names & K).
  assert (NF : forall f st, not_found w s = FileAnswer f st -> exists d p, In d (directories s) /\ inside (abspath (cwd w) d) (abspath (cwd w) (path_join d p))
    /\ f = (if follow_symlink s then abspath (cwd w) (path_join d p) else realpath w (path_join d p))).
  { intros f0 st0. unfold not_found. destruct (fall_through s); [discriminate|]. destruct (html s); [|discriminate].
    destruct (lookup_path w s (directories s) (u "404.html")) as [f1 k1| |] eqn:L; [|discriminate|discriminate]. destruct k1; intros E; try discriminate E.
    assert (K4 : calm (u "404.html") [u "404.html"]) by (apply (calm_names (u "404.html") []); constructor; [apply missing_plain|constructor]).
    destruct (lookup_inside _ _ _ _ _ _ _ C K4 L) as (d & I & R1 & R2). exists d, (u "404.html"). split; [exact I|]. split; [exact R1|]. congruence. }
  unfold get_response. destruct (negb _); [discriminate|]. destruct (lookup_path w s (directories s) (get_path root path)) as [f1 k1| |k1] eqn:L.
  - destruct k1; try apply NF.
    + intros E. destruct (lookup_inside _ _ _ _ _ _ _ C K L) as (d & I & R1 & R2). exists d, (get_path root path). split; [exact I|]. split; [exact R1|]. congruence.
    + destruct (html s); [|apply NF]. destruct (lookup_path w s (directories s) (path_join (get_path root path) (u "index.html"))) as [f2 k2| |] eqn:L2; [|apply NF|discriminate]. destruct k2; try apply NF.
      destruct (suffixb (u "/") path); [|discriminate]. intros E.
      destruct (lookup_inside _ _ _ _ _ _ _ C (calm_join _ _ _ K index_plain) L2) as (d & I & R1 & R2). exists d, (path_join (get_path root path) (u "index.html")). split; [exact I|]. split; [exact R1|]. congruence.
  - apply NF.
  - destruct k1; discriminate.
Qed.
Print Assumptions C44_response.
Definition disk (files : list str) : world :=
  {| cwd := u "/srv"; stat := fun p => if smem p files then Regular else Missing; realpath := fun p => normpath p |}.
Example C44_case :
  let s := {| directories := [u "a/../static"; u "/other"]; html := false; follow_symlink := true; fall_through := false |} in
  get_path (u "/mount") (u "/mount/../../../etc//./passwd") = u "etc/passwd"
  /\ get_response (disk [u "/other/etc/passwd"]) s (u "GET") (u "/mount") (u "/mount/../../../etc//./passwd") = FileAnswer (u "/other/etc/passwd") 200
  /\ abspath (u "/srv") (u "a/../static") = u "/srv/static".
Proof. repeat split; vm_compute; reflexivity. Qed.

(** ** C78 *)
(** A regular file below a directory is served under its path, from the first directory that has it. *)
Definition place (w : world) (s : static) (names : list str) (d : str) : str :=
  if follow_symlink s then below (abspath (cwd w) d) names else realpath w (path_join d (join (u "/") names)).
Definition C78_served (extra : str -> Prop) : Prop := forall w s meth root n l pre d post,
  prefixb (u "/") (cwd w) = true -> meth = u "GET" \/ meth = u "HEAD" -> Forall plain (n :: l) -> extra n ->
  directories s = pre ++ d :: post -> (forall e, In e pre -> stat w (place w s (n :: l) e) = Missing) -> stat w (place w s (n :: l) d) = Regular ->
  get_response w s meth root (root ++ u "/" ++ join (u "/") (n :: l)) = FileAnswer (place w s (n :: l) d) 200.
Definition C78_statement : Prop := C78_served (fun _ => True).
(** Names that begin with dots lose them. *)
Theorem C78_refuted : ~ C78_statement.
Proof.
  intros H. specialize (H (disk [u "/srv/d/.env"; u "/srv/d/env"]) {| directories := [u "d"]; html := false; follow_symlink := true; fall_through := false |} (u "GET") [] (u ".env") [] [] (u "d") []).
  specialize (H eq_refl (or_introl eq_refl)). assert (E := H ltac:(constructor; [|constructor]; repeat split; try discriminate; apply cmem_not_In; reflexivity) I eq_refl ltac:(intros e []) ltac:(vm_compute; reflexivity)).
  vm_compute in E. discriminate E.
Qed.
Print Assumptions C78_refuted.
Lemma get_path_names root n l : Forall plain (n :: l) -> hd 0%N n <> 46%N -> get_path root (root ++ u "/" ++ join (u "/") (n :: l)) = join (u "/") (n :: l).
Proof.
  intros F H. unfold get_path. set (q := u "/" ++ join (u "/") (n :: l)).
  assert (R : static_route_path root (root ++ q) = q).
  { unfold static_route_path. destruct root as [|c root]; [reflexivity|]. rewrite (proj2 (prefixb_iff (c :: root) ((c :: root) ++ q)) (ex_intro _ q eq_refl)). rewrite skipn_app, skipn_all, Nat.sub_diag. reflexivity. }
  rewrite R. clear R. assert (P := F). inversion P as [|? ? F1 F2]; subst. assert (JN : join (u "/") (n :: l) <> []) by (exact (proj1 (calm_names n l F))).
  assert (SQ : slashes q = 1%nat).
  { unfold slashes, q. change (u "/" ++ join (u "/") (n :: l)) with (47%N :: join (u "/") (n :: l)). rewrite pre1, pre2. cbn iota. rewrite N.eqb_refl. destruct (calm_names n l F) as (_ & PR & _). rewrite pre1 in PR.
    destruct (join (u "/") (n :: l)) as [|x w]; [contradiction JN; reflexivity|]. rewrite PR. reflexivity. }
  assert (NQ : normpath q = q).
  { unfold normpath. destruct q as [|x w] eqn:EQ; [discriminate EQ|]. rewrite <- EQ in *. rewrite SQ. cbn [Nat.eqb negb repeat]. unfold q in EQ |- *. change (u "/" ++ join (u "/") (n :: l)) with ([] ++ 47%N :: join (u "/") (n :: l)) at 1.
    rewrite split_sep, join_split by (exact F || discriminate). cbn [split_char]. rewrite norm_app, (norm_skip true [[]] []) by (constructor; [reflexivity|constructor]). rewrite norm_plain, app_nil_r, rev_involutive by exact F. reflexivity. }
  rewrite NQ. unfold q. change (fun c : N => N.eqb c 46 || N.eqb c 47) with ds.
  assert (LS : lstrip_by ds (u "/" ++ join (u "/") (n :: l)) = join (u "/") (n :: l)).
  { change (u "/" ++ join (u "/") (n :: l)) with (47%N :: join (u "/") (n :: l)). cbn [lstrip_by]. change (ds 47) with true. cbn iota. rewrite join_head. destruct n as [|c n]; [destruct F1 as (F1 & _); contradiction F1; reflexivity|].
    cbn [app lstrip_by]. cbn [hd] in H. unfold ds at 1. destruct (N.eqb_spec c 46) as [->|_]; [contradiction H; reflexivity|]. destruct (N.eqb_spec c 47) as [->|_]; [destruct F1 as (_ & _ & _ & F1); contradiction F1; left; reflexivity|]. reflexivity. }
  rewrite LS, join_split by (exact F || discriminate). rewrite join_cons_plain by exact F. apply normpath_plain. exact F.
Qed.
Theorem C78_served_partial : C78_served (fun n => hd 0%N n <> 46%N).
Proof.
  intros w s meth root n l pre d post C M F H DS PRE HERE. unfold get_response.
  assert (MM : negb (seqb meth (u "GET") || seqb meth (u "HEAD")) = false) by (destruct M as [-> | ->]; reflexivity). rewrite MM.
  rewrite get_path_names by assumption. rewrite DS.
  assert (PL : forall e, get_full_path w s e (join (u "/") (n :: l)) = place w s (n :: l) e).
  { intros e. unfold get_full_path, place. destruct (follow_symlink s); [|reflexivity]. apply full_inside; [exact C|apply calm_names; exact F]. }
  assert (L : lookup_path w s (pre ++ d :: post) (join (u "/") (n :: l)) = Hit (place w s (n :: l) d) Regular).
  { clear DS. induction pre as [|e pre IH]; cbn [app lookup_path]; rewrite PL.
    - rewrite HERE. reflexivity.
    - rewrite (PRE e (or_introl eq_refl)). apply IH. intros e' I. apply PRE. right. exact I. }
  rewrite L. reflexivity.
Qed.
Print Assumptions C78_served_partial.
Example C78_case : let s := {| directories := [u "a"; u "b"]; html := false; follow_symlink := true; fall_through := false |} in
  Forall plain [u "css"; u ".x"] /\ get_response (disk [u "/srv/b/css/.x"]) s (u "HEAD") (u "/m") (u "/m/css/.x") = FileAnswer (u "/srv/b/css/.x") 200.
Proof. cbn zeta. split; [repeat constructor; try discriminate; apply cmem_not_In; reflexivity|vm_compute; reflexivity]. Qed.

(** ** C79 *)
(** Without follow_symlink no file is served whose real place is outside the directories. *)
Definition C79_statement : Prop := forall w s meth root path f st, prefixb (u "/") (cwd w) = true -> follow_symlink s = false ->
  get_response w s meth root path = FileAnswer f st -> exists d, In d (directories s) /\ inside (realpath w d) f.
(** The real path is served, wherever it is. *)
Theorem C79_refuted : ~ C79_statement.
Proof.
  intros H. set (w := {| cwd := u "/srv"; stat := fun p => if seqb p (u "/etc/passwd") then Regular else Missing; realpath := fun p => if seqb p (u "/d/link") then u "/etc/passwd" else p |}).
  specialize (H w {| directories := [u "/d"]; html := false; follow_symlink := false; fall_through := false |} (u "GET") [] (u "/link") (u "/etc/passwd") 200%N eq_refl eq_refl).
  destruct H as (d & I & names & F & E); [vm_compute; reflexivity|]. destruct I as [<-|[]]. change (realpath w (u "/d")) with (u "/d") in E.
  destruct names as [|n names]; [discriminate E|]. unfold below in E. change (suffixb (u "/") (u "/d")) with false in E. cbn iota in E. discriminate E.
Qed.
Print Assumptions C79_refuted.
(** In a world without links nothing outside is served. *)
Theorem C79_no_links_partial : forall w s meth root path f st, prefixb (u "/") (cwd w) = true -> (forall p, realpath w p = abspath (cwd w) p) ->
  get_response w s meth root path = FileAnswer f st -> exists d, In d (directories s) /\ inside (abspath (cwd w) d) f.
Proof.
  intros w s meth root path f st C R E. destruct (C44_response w s meth root path f st C E) as (d & p & I & IN & EF). exists d. split; [exact I|]. rewrite EF. destruct (follow_symlink s); [|rewrite R]; exact IN.
Qed.
Print Assumptions C79_no_links_partial.
Example C79_case : get_response {| cwd := u "/srv"; stat := stat (disk [u "/srv/d/x"]); realpath := abspath (u "/srv") |}
  {| directories := [u "d"]; html := false; follow_symlink := false; fall_through := false |} (u "GET") [] (u "/x") = FileAnswer (u "/srv/d/x") 200.
Proof. vm_compute. reflexivity. Qed.

(** ** C80 *)
(** A list of entity tags, some marked weak. *)
Record entry := { before : str; weak : bool; etag_of : str; after : str }.
Definition entry_text (e : entry) : str := before e ++ (if weak e then u "W/" else []) ++ etag_of e ++ after e.
Definition good_entry (e : entry) : Prop :=
  (forall c, In c (before e) -> c = 32%N) /\ (forall c, In c (after e) -> c = 32%N) /\ etag_of e <> [] /\ (forall c, In c (etag_of e) -> ~ In c (u " W/,")).
(** With If-None-Match a response is "not modified" exactly if its tag is listed. *)
Definition C80_statement : Prop := forall date etag modified request es,
  es <> [] -> Forall good_entry es -> values (u "if-none-match") request = [join (u ",") (map entry_text es)] ->
  (is_not_modified date etag modified request = true <-> In etag (map etag_of es)).
(** If-Modified-Since is looked at although the tag differs. *)
Theorem C80_refuted : ~ C80_statement.
Proof.
  intros H. specialize (H (fun _ => Some 0%Z) (u "a") (u "x") [(u "if-none-match", u "b"); (u "if-modified-since", u "x")] [{| before := []; weak := false; etag_of := u "b"; after := [] |}]).
  destruct H as [H _]; [discriminate| |vm_compute; reflexivity|].
  - constructor; [|constructor]. split; [intros c []|]. split; [intros c []|]. split; [discriminate|]. intros c [<-|[]]. apply cmem_not_In. reflexivity.
  - destruct H as [H|[]]; [vm_compute; reflexivity|]. discriminate H.
Qed.
Print Assumptions C80_refuted.
Lemma entry_strip e : good_entry e -> strip_by (fun c => N.eqb c 32 || N.eqb c 87 || N.eqb c 47) (entry_text e) = etag_of e.
Proof.
  intros (B & A & N & T). unfold entry_text. rewrite app_assoc.
  assert (ED : forall c, In c (etag_of e) -> (N.eqb c 32 || N.eqb c 87 || N.eqb c 47) = false).
  { intros c I. specialize (T c I). change (u " W/,") with [32%N; 87%N; 47%N; 44%N] in T. cbn [In] in T. destruct (N.eqb_spec c 32), (N.eqb_spec c 87), (N.eqb_spec c 47); try reflexivity; subst; exfalso; apply T; tauto. }
  apply strip_by_pad.
  - apply forallb_forall. intros c I. apply in_app_or in I as [I|I]; [rewrite (B c I); reflexivity|]. destruct (weak e); [|destruct I]. change (u "W/") with [87%N; 47%N] in I. destruct I as [<-|[<-|[]]]; reflexivity.
  - apply forallb_forall. intros c I. rewrite (A c I). reflexivity.
  - destruct (etag_of e) as [|c r]; [exact I|]. apply ED. left. reflexivity.
  - destruct (rev (etag_of e)) as [|c r] eqn:R; [exact I|]. apply ED. apply in_rev. rewrite R. left. reflexivity.
Qed.
Lemma entry_comma e : good_entry e -> ~ In 44%N (entry_text e).
Proof.
  intros (B & A & N & T) I. unfold entry_text in I. apply in_app_or in I as [I|I]; [discriminate (B _ I)|]. apply in_app_or in I as [I|I]; [destruct (weak e); [|destruct I]; change (u "W/") with [87%N; 47%N] in I; destruct I as [I|[I|[]]]; discriminate I|].
  apply in_app_or in I as [I|I]; [apply (T _ I); change (u " W/,") with [32%N; 87%N; 47%N; 44%N]; cbn; tauto|discriminate (A _ I)].
Qed.
Theorem C80_tags_partial : forall date etag modified request es,
  es <> [] -> Forall good_entry es -> values (u "if-none-match") request = [join (u ",") (map entry_text es)] -> values (u "if-modified-since") request = [] ->
  (is_not_modified date etag modified request = true <-> In etag (map etag_of es)).
Proof.
  intros date etag modified request es NE F V1 V2. unfold is_not_modified. rewrite (hget_values (u "if-none-match") request eq_refl), V1, (hget_values (u "if-modified-since") request eq_refl), V2. cbn [hd_error]. rewrite orb_false_r.
  change (u ",") with [44%N]. rewrite split_char_join.
  - rewrite smem_In, map_map. replace (map (fun x => strip_by (fun c => N.eqb c 32 || N.eqb c 87 || N.eqb c 47) (entry_text x)) es) with (map etag_of es); [tauto|].
    apply map_ext_in. intros e I. symmetry. apply entry_strip. exact (proj1 (Forall_forall _ _) F e I).
  - destruct es; [contradiction NE; reflexivity|discriminate].
  - intros x I. apply in_map_iff in I. destruct I as (e & <- & I). apply entry_comma. exact (proj1 (Forall_forall _ _) F e I).
Qed.
Print Assumptions C80_tags_partial.
Example C80_case : let es := [{| before := []; weak := true; etag_of := u "ab"; after := [] |}; {| before := u " "; weak := false; etag_of := u "cd"; after := u " " |}] in
  Forall good_entry es /\ join (u ",") (map entry_text es) = u "W/ab, cd " /\ is_not_modified (fun _ => None) (u "cd") [] [(u "If-None-Match", u "W/ab, cd ")] = true.
Proof.
  cbn zeta. split; [|split; vm_compute; reflexivity].
  assert (G : forall b w t a, forallb (fun c => N.eqb c 32) b = true -> forallb (fun c => N.eqb c 32) a = true -> t <> [] -> forallb (fun c => negb (cmem c (u " W/,"))) t = true -> good_entry {| before := b; weak := w; etag_of := t; after := a |}).
  { intros b w t a B A NT T. split; [intros c I; apply N.eqb_eq, (proj1 (forallb_forall _ _) B c I)|]. split; [intros c I; apply N.eqb_eq, (proj1 (forallb_forall _ _) A c I)|]. split; [exact NT|].
    intros c I. apply cmem_not_In. assert (X := proj1 (forallb_forall _ _) T c I). cbv beta in X. destruct (cmem c (u " W/,")); [discriminate X|reflexivity]. }
  constructor; [apply G; try reflexivity; discriminate|]. constructor; [apply G; try reflexivity; discriminate|constructor].
Qed.
