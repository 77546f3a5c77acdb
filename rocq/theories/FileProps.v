(** Property theorems for file responses: C04, C05. *)
From Verif Require Import PyStr PyStrFacts RangesModel RangesSpec FileModel FileSpec FileProofs.
Open Scope Z_scope.

(** C04, any GET that is not a multi-range request on a boundary-enabled response.  Either
    nothing is sent because the range cannot be satisfied, or: the messages after the start
    form one terminated body, Content-Length is its length, and it is the whole file with the
    configured status and no Content-Range, or exactly the bytes a..b that the Range header
    denotes, with status 206 and the Content-Range naming them. *)
Theorem C04_file_or_slice now chunk fr q : honest fr -> 0 < chunk ->
  header_only q = false -> fq_pathsend q = false ->
  (has_boundary (fr_boundary fr) = false \/ ~ In 44%N (fq_range q)) ->
  let last := Z.of_nat (length (fr_content fr)) - 1 in
  file_call now chunk fr q = FNotSatisfiable \/
  exists st h ms, file_call now chunk fr q = FOk (MStart st h :: ms) /\
    terminated ms /\ length_ok h ms /\
    ((st = fr_status fr /\ dget (u "content-range") h = None /\ body_bytes ms = fr_content fr) \/
     (st = 206 /\ fr_allow fr = true /\ exists rest a b, fq_range q = u "bytes=" ++ rest /\
        denotes last rest (mkRange a b) /\ 0 <= a <= b /\ b <= last /\
        dget (u "content-range") h =
          Some (u "bytes " ++ decz a ++ u "-" ++ decz b ++ u "/" ++ decz (last + 1)) /\
        body_bytes ms = slice (fr_content fr) a b)).
Proof. exact (file_single now chunk fr q). Qed.
Print Assumptions C04_file_or_slice.

(** C04, a request written "bytes=a-b" inside the file, with no or a matching If-Range. *)
Theorem C04_written_range now chunk fr q (a b : N) : honest fr -> 0 < chunk ->
  header_only q = false -> fr_allow fr = true ->
  (fq_if_range q = [] \/ (dget (u "etag") (fr_headers fr) = None /\ fq_if_range q = fr_etag fr)) ->
  fq_range q = u "bytes=" ++ dec a ++ u "-" ++ dec b ->
  (a <= b)%N -> Z.of_N b < Z.of_nat (length (fr_content fr)) ->
  exists h ms, file_call now chunk fr q = FOk (MStart 206 h :: ms) /\
    terminated ms /\ length_ok h ms /\
    dget (u "content-range") h =
      Some (u "bytes " ++ dec a ++ u "-" ++ dec b ++ u "/" ++ dec (N.of_nat (length (fr_content fr)))) /\
    body_bytes ms = slice (fr_content fr) (Z.of_N a) (Z.of_N b).
Proof. exact (file_written now chunk fr q a b). Qed.
Print Assumptions C04_written_range.

(** C04, a range that ends beyond the file: nothing is sent, the 416 error is raised. *)
Theorem C04_beyond_end now chunk fr q (a b : N) : honest fr ->
  header_only q = false -> fr_allow fr = true -> fq_if_range q = [] ->
  fq_range q = u "bytes=" ++ dec a ++ u "-" ++ dec b ->
  (a <= b)%N -> Z.of_nat (length (fr_content fr)) <= Z.of_N b ->
  file_call now chunk fr q = FNotSatisfiable.
Proof. exact (file_beyond now chunk fr q a b). Qed.
Print Assumptions C04_beyond_end.

(** C04, a stale If-Range: the whole file, whatever the Range header says. *)
Theorem C04_stale_if_range now chunk fr q : honest fr -> 0 < chunk ->
  header_only q = false -> fq_pathsend q = false ->
  dget (u "etag") (fr_headers fr) = None -> fq_if_range q <> [] -> fq_if_range q <> fr_etag fr ->
  exists h ms, file_call now chunk fr q = FOk (MStart (fr_status fr) h :: ms) /\
    terminated ms /\ length_ok h ms /\ dget (u "content-range") h = None /\
    body_bytes ms = fr_content fr.
Proof. exact (file_if_range_mismatch now chunk fr q). Qed.
Print Assumptions C04_stale_if_range.

(** C04, HEAD and OPTIONS: only the start message, with the length of the file. *)
Theorem C04_head now chunk fr q : honest fr -> header_only q = true ->
  exists h, file_call now chunk fr q = FOk [MStart (fr_status fr) h] /\
    dget (u "content-length") h = Some (dec (N.of_nat (length (fr_content fr)))).
Proof. exact (file_head now chunk fr q). Qed.
Print Assumptions C04_head.

Definition ex_fr (b : boundary) : file_resp :=
  mkFR 200 [(u "content-type", u "text/plain")] (u "text/plain") true b 10 (u "e1") (u "now")
    (u "0123456789").
Example C04_example_honest b : honest (ex_fr b).
Proof. repeat split. Qed.
Example C04_example_range :
  file_call [] 2 (ex_fr BoundaryOff) (mkFQ (Some (u "GET")) (u "bytes=3-7") [] false false) =
  FOk [MStart 206 [(u "content-type", u "text/plain"); (u "content-length", u "5");
                   (u "last-modified", u "now"); (u "etag", u "e1"); (u "content-range", u "bytes 3-7/10")];
       MBody (u "34") true; MBody (u "56") true; MBody (u "7") false].
Proof. vm_compute. reflexivity. Qed.
Example C04_example_full :
  file_call [] 6 (ex_fr BoundaryOff) (mkFQ (Some (u "GET")) (u "bytes=0-1,4-5") [] false true) =
  FOk [MStart 200 [(u "content-type", u "text/plain"); (u "content-length", u "10");
                   (u "last-modified", u "now"); (u "etag", u "e1")];
       MZero (u "012345") true; MZero (u "6789") false].
Proof. vm_compute. reflexivity. Qed.

(** C05, full statement (the length clause). *)
Definition C05_statement : Prop := forall now chunk fr q h ms,
  honest fr -> 0 < chunk -> header_only q = false ->
  file_call now chunk fr q = FOk (MStart 206 h :: ms) -> length_ok h ms.

(** It is false. *)
Theorem C05_refuted : ~ C05_statement.
Proof.
  intros H. specialize (H [] 65536 (ex_fr (BoundaryText (u "B")))
    (mkFQ (Some (u "GET")) (u "bytes=0-1,4-5") [] false false)).
  specialize (H _ _ (C04_example_honest _) eq_refl eq_refl eq_refl).
  vm_compute in H. discriminate H.
Qed.
Print Assumptions C05_refuted.

(** What every multi-range request gets: 416, the whole file, or a 206 whose body is the
    concatenation, in ascending order, of header block + exact slice for disjoint ranges that
    together cover exactly the requested bytes, correctly terminated as an ASGI body; its
    Content-Length counts only the slices, hence NEVER the body sent, and no closing delimiter
    is appended.  (Partial: those last two points are what C05 asks for.) *)
Theorem C05_parts_partial now chunk fr q : honest fr -> 0 < chunk -> header_only q = false ->
  fq_pathsend q = false -> fr_allow fr = true -> fq_if_range q = [] ->
  has_boundary (fr_boundary fr) = true -> In 44%N (fq_range q) ->
  let last := Z.of_nat (length (fr_content fr)) - 1 in
  file_call now chunk fr q = FNotSatisfiable \/
  (exists h ms, file_call now chunk fr q = FOk (MStart (fr_status fr) h :: ms) /\
     body_bytes ms = fr_content fr /\ terminated ms) \/
  (exists h ms bd rest asked rs n, file_call now chunk fr q = FOk (MStart 206 h :: ms) /\
     fq_range q = u "bytes=" ++ rest /\ Forall2 (denotes last) (split_char 44 rest) asked /\
     (forall b, covers rs b <-> covers asked b) /\ rs <> [] /\ ascending rs /\ Forall (satisfiable last) rs /\
     byte_count rs n /\
     dget (u "content-type") h = Some (u "multipart/byteranges; boundary=" ++ bd) /\
     dget (u "content-length") h = Some (decz n) /\
     dget (u "content-range") h = None /\
     terminated ms /\
     body_bytes ms = concat (map (fun r => part_header bd (strip_media (fr_media fr)) (last + 1) (r_start r) (r_stop r) ++
                                   slice (fr_content fr) (r_start r) (r_stop r)) rs) /\
     ~ length_ok h ms).
Proof. exact (file_multi now chunk fr q). Qed.
Print Assumptions C05_parts_partial.
Example C05_example : exists h ms,
  file_call [] 65536 (ex_fr (BoundaryText (u "B"))) (mkFQ (Some (u "GET")) (u "bytes=0-1,4-5") [] false false) =
    FOk (MStart 206 h :: ms) /\ dget (u "content-length") h = Some (u "4") /\
    length (body_bytes ms) = 120%nat.
Proof. do 2 eexists. split; [vm_compute; reflexivity|]. split; vm_compute; reflexivity. Qed.
