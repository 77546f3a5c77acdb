(** Model of lilya/responses.py [FileResponse] (966-1244). *)
From Verif Require Import PyStr RangesModel.
Open Scope Z_scope.

(** responses.py:984 [range_multipart_boundary: bool | str]. *)
Inductive boundary := BoundaryOff | BoundaryAuto | BoundaryText (s : str).

(** The part of a response object used by [__call__].
    [fr_headers]: headers after [__init__] (lower-case keys; responses.py:1018-1021), before the
    stat headers are added; [fr_content]: what reading the file gives; [fr_size]: [st_size].
    [fr_etag]/[fr_modified] are the texts computed from the stat result (1038-1040). *)
Record file_resp := mkFR {
  fr_status : Z; fr_headers : dict str; fr_media : str; fr_allow : bool; fr_boundary : boundary;
  fr_size : Z; fr_etag : str; fr_modified : str; fr_content : str }.

(** The part of the scope used: method, Range and If-Range headers ("" when absent),
    and the two extensions. *)
Record file_req := mkFQ {
  fq_method : option str; fq_range : str; fq_if_range : str; fq_pathsend : bool; fq_zerocopy : bool }.

Inductive file_msg :=
| MStart (status : Z) (headers : dict str)
| MBody (body : str) (more : bool)
| MZero (body : str) (more : bool)   (* zerocopysend; [body] is what the server copies from the fd *)
| MPathSend.

(** Exceptions: 416 (raised before anything is sent) and a KeyError/ValueError on Content-Length. *)
Inductive file_out := FOk (msgs : list file_msg) | FNotSatisfiable | FError.

(** [Header.setdefault]/[Header[...] = v] on lower-case keys. *)
Definition hdefault (k v : str) (h : dict str) : dict str := if dmem k h then h else dset k v h.

(** responses.py:1036-1044 [set_stat_headers]. *)
Definition set_stat_headers (fr : file_resp) : dict str :=
  let h := hdefault (u "content-length") (decz (fr_size fr)) (fr_headers fr) in
  let h := hdefault (u "last-modified") (fr_modified fr) h in
  hdefault (u "etag") (fr_etag fr) h.

(** responses.py:1046-1051 [check_if_range]. *)
Definition check_if_range (h : dict str) (q : file_req) : bool :=
  match fq_if_range q with
  | [] => true
  | ir => match dget (u "etag") h with Some e => seqb ir e | None => false end
  end.

Inductive ranges_res := RNone | RSome (c : content_ranges) (multi : bool) | RNotSat | RErr.

Definition has_boundary (b : boundary) : bool :=
  match b with BoundaryOff => false | BoundaryAuto => true | BoundaryText [] => false | BoundaryText _ => true end.

(** responses.py:1053-1066 [get_content_ranges_and_multipart]. *)
Definition get_content_ranges (fr : file_resp) (h : dict str) (q : file_req) : ranges_res :=
  match dget (u "content-length") h with
  | None => RErr
  | Some cl =>
      match int_parse cl with
      | None => RErr
      | Some n =>
          match parse_range_value (Some (fq_range q)) (bytes_max (n - 1)) true
                  (Some (if has_boundary (fr_boundary fr) then 5 else 1)) true with
          | PrvNotSatisfiable => RNotSat
          | PrvNone => RNone
          | PrvOk c => match cr_ranges c with
                       | [] => RNone
                       | _ => RSome c (cmem 44 (fq_range q))
                       end
          end
      end
  end.

(** responses.py:1033-1034 [make_boundary] and 1084-1085; [now] is [str(time.time())]. *)
Definition boundary_text (now : str) (h : dict str) (b : boundary) : str :=
  match b with
  | BoundaryText s => s
  | BoundaryAuto => now ++ u "-" ++ match dget (u "etag") h with Some e => e | None => [] end
  | BoundaryOff => []
  end.

(** responses.py:1094-1103, single-range headers; the list is not empty. *)
Definition content_range_text (r : range) (full : Z) : str :=
  u "bytes " ++ decz (r_start r) ++ u "-" ++ decz (r_stop r) ++ u "/" ++ decz full.

(** Result of [set_range_headers]: headers, status, and the ranges to send if any. *)
Inductive srh_res := SOk (h : dict str) (status : Z) (c : option content_ranges) | SNotSat | SErr.

(** responses.py:1068-1106 [set_range_headers]. *)
Definition set_range_headers (now : str) (fr : file_resp) (h : dict str) (q : file_req) : srh_res :=
  match get_content_ranges fr h q with
  | RErr => SErr
  | RNotSat => SNotSat
  | RNone => SOk h (fr_status fr) None
  | RSome c multi =>
      if multi && negb (has_boundary (fr_boundary fr)) then SOk h (fr_status fr) None
      else if multi then
        let h := dset (u "content-type")
                   (u "multipart/byteranges; boundary=" ++ boundary_text now h (fr_boundary fr)) h in
        SOk (dset (u "content-length") (decz (cr_size c)) h) 206 (Some c)
      else
        let c := match cr_ranges c with
                 | r0 :: (_ :: _) as rs =>
                     let nr := mkRange (r_start r0) (r_stop (last rs r0)) in
                     mkCR (cr_unit c) (cr_max c) (range_len nr) [nr]
                 | _ => c
                 end in
        match cr_ranges c with
        | [] => SErr   (* the assert of 1090 *)
        | r0 :: _ =>
            let h := dset (u "content-range") (content_range_text r0 (cr_max c + 1)) h in
            SOk (dset (u "content-length") (decz (cr_size c)) h) 206 (Some c)
        end
  end.

(** responses.py:1143-1148: subheader template; [None] when it stays "".
    Simplified: the f-string is formatted directly (a boundary or media type containing braces
    would be interpreted by [str.format]). *)
Definition subheader (bd media : str) (full : Z) (r : range) : str :=
  u "--" ++ bd ++ [10%N] ++ u "content-type: " ++ media ++ [10%N] ++
  u "content-range: " ++ content_range_text r full ++ [10%N; 10%N].

(** [file.read(n)] at position [pos]: the bytes and the new position ([n >= 0]). *)
Definition fread (f : str) (pos n : Z) : str * Z :=
  let b := firstn (Z.to_nat n) (skipn (Z.to_nat pos) f) in (b, pos + Z.of_nat (length b)).

(** responses.py:1216-1229 (and 1172-1186 for zero copy): one range in chunks.
    [fuel] only bounds the recursion (see [send_range_fuel]). *)
Fixpoint send_range (fuel : nat) (mk : str -> bool -> file_msg) (chunk : Z) (sub : bool)
    (f : str) (pos size : Z) : list file_msg * Z :=
  match fuel with
  | O => ([], pos)
  | S fu =>
      let more := chunk <? size in
      let count := if more then chunk else size in
      let '(b, pos') := fread f pos count in
      let m := mk b (more || sub) in
      if more then
        let '(ms, p) := send_range fu mk chunk sub f pos' (size - count) in (m :: ms, p)
      else ([m], pos')
  end.

(** responses.py:1200-1230 (1156-1187): the loop over the ranges; [sh] is the subheader, if any. *)
Fixpoint send_ranges (mk : str -> bool -> file_msg) (chunk : Z) (sh : option (range -> str))
    (f : str) (pos last_stop : Z) (rs : list range) : list file_msg :=
  match rs with
  | [] => []
  | r :: rest =>
      let pos := if last_stop =? r_start r then pos else r_start r in
      let size := range_len r in
      let pre := match sh with Some s => [MBody (s r) true] | None => [] end in
      let '(ms, pos') := send_range (S (Z.to_nat size)) mk chunk
                           (match sh with Some _ => true | None => false end) f pos size in
      pre ++ ms ++ send_ranges mk chunk sh f pos' (r_stop r) rest
  end.

Definition header_only (q : file_req) : bool :=
  match fq_method q with Some m => smem (upper m) [u "HEAD"; u "OPTIONS"] | None => false end.

Definition strip_media (m : str) : str := filter (fun c => negb ((c =? 32) || (c =? 10))%N) m.

(** responses.py:1108-1244 [__call__] for an existing regular file, http scope; [chunk] is
    [chunk_size]. *)
Definition file_call (now : str) (chunk : Z) (fr : file_resp) (q : file_req) : file_out :=
  let h := set_stat_headers fr in
  let hdr :=
    if negb (header_only q) && fr_allow fr && check_if_range h q then set_range_headers now fr h q
    else SOk h (fr_status fr) None in
  match hdr with
  | SErr => FError
  | SNotSat => FNotSatisfiable
  | SOk h st c =>
      let start := MStart st h in
      if header_only q then FOk [start]
      else match dget (u "content-length") h with
      | None => FError
      | Some cl =>
      match int_parse cl with
      | None => FError
      | Some n =>
          let rs := match c with None => [mkRange 0 (n - 1)] | Some c => cr_ranges c end in
          let sh := match c with
                    | Some c => if dmem (u "content-range") h then None
                                else Some (subheader (boundary_text now (set_stat_headers fr) (fr_boundary fr))
                                             (strip_media (fr_media fr)) (cr_max c + 1))
                    | None => None
                    end in
          let tail := match sh with Some _ => [MBody [] false] | None => [] end in
          if fq_pathsend q && match c with None => true | Some _ => false end
          then FOk [start; MPathSend]
          else FOk (start :: send_ranges (if fq_zerocopy q then MZero else MBody) chunk sh
                               (fr_content fr) 0 0 rs ++ tail)
      end end
  end.
