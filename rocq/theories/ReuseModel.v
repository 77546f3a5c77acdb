(** Model of one response object that answers several requests, behind the middlewares that edit headers:
    lilya/responses.py [Response.message], [Response.__call__] (325-358), [FileResponse] (1036-1244),
    lilya/datastructures.py [Header.ensure_header_instance] (209-219) and the [send] wrappers of the
    middlewares.

    The start message carries the header container of the response itself (responses.py:341), and
    [ensure_header_instance] gives that same container back (datastructures.py:217-219), so a middleware
    edits the headers of the object in place. *)
From Verif Require Import PyStr HeaderModel GzipModel FileModel RangesModel.

(** What the middlewares see of one request.  [q_session]: the Set-Cookie line the session middleware has
    for it, if any (sessions.py:134-160, modelled in SessionModel); [q_csrf]: the request brings the token
    cookie (csrf.py:240-250); [q_token]: the Set-Cookie line with the token made for it; [q_gzip]: it
    accepts gzip (compression.py:46-52); [q_origin]: its Origin header. *)
Record req := mkReq {
  q_session : option str; q_csrf : bool; q_token : str; q_gzip : bool; q_origin : option str }.

(** The middlewares, each with its configuration.  [LCors]: the allowed origins, none of them a
    wildcard, and the simple headers. *)
Inductive layer :=
| LSession (cookie : str)
| LCsrf
| LFrame (value : str)
| LSecurity (lines : list (str * str))
| LGzip (min : N) (zip : str -> str)
| LCors (origins : list str) (simple : list (str * str)).

(** sessions.py:128-160. *)
Definition session_edit (cookie : str) (q : req) (h : headers) : headers :=
  if forallb (fun l => negb (prefixb (cookie ++ u "=") l)) (hgetall (u "set-cookie") h)
  then match q_session q with Some l => hadd (u "set-cookie") l h | None => h end
  else h.
(** csrf.py:240-262. *)
Definition csrf_edit (q : req) (h : headers) : headers :=
  if q_csrf q then h else if hcontains (u "set-cookie") h then h else hadd (u "set-cookie") (q_token q) h.
(** clickjacking.py:45-50. *)
Definition frame_edit (v : str) (h : headers) : headers :=
  match hget (u "X-Frame-Options") h with None => hadd (u "X-Frame-Options") v h | Some _ => h end.
(** security.py:124-136. *)
Definition security_edit (lines : list (str * str)) (h : headers) : headers :=
  fold_left (fun h l => hadd (fst l) (snd l) h) lines h.
(** compression.py:46-56, 121-185, for an answer in one body message. *)
Definition gzip_edit (min : N) (zip : str -> str) (q : req) (hb : headers * str) : headers * str :=
  let '(h, b) := hb in
  if negb (q_gzip q) then (h, b)
  else if hcontains (u "content-encoding") h then (h, b)
  else if (N.of_nat (length b) <? min)%N then (h, b)
  else (standard_headers (N.of_nat (length (zip b))) h, zip b).
(** cors.py:98-106, 234-272; [headers.update] sets each simple header. *)
Definition cors_edit (origins : list str) (simple : list (str * str)) (q : req) (h : headers) : headers :=
  match q_origin q with
  | None => h
  | Some o =>
      let h := fold_left (fun h l => hset (fst l) (snd l) h) simple h in
      if smem o origins then
        let h := add_vary_header (u "Origin") (hset (u "Access-Control-Allow-Origin") o h) in
        match hget (u "Access-Control-Expose-Headers") h with
        | Some (_ :: _) => add_vary_header (u "Access-Control-Expose-Headers") h
        | _ => h
        end
      else h
  end.
Definition edit (q : req) (hb : headers * str) (l : layer) : headers * str :=
  match l with
  | LSession c => (session_edit c q (fst hb), snd hb)
  | LCsrf => (csrf_edit q (fst hb), snd hb)
  | LFrame v => (frame_edit v (fst hb), snd hb)
  | LSecurity ls => (security_edit ls (fst hb), snd hb)
  | LGzip m z => gzip_edit m z q hb
  | LCors os s => (cors_edit os s q (fst hb), snd hb)
  end.

(** A plain response, and what a client is sent. *)
Record resp := mkResp { r_status : Z; r_headers : headers; r_body : str }.
Record ans := mkAns { a_status : Z; a_headers : headers; a_body : str }.

(** responses.py:336-352 behind the middlewares, innermost first: the answer, and the object afterwards.
    The body of the object is put into a new message, so it stays.  Simplified: content that is not
    awaitable, no cleanup handler and no background task. *)
Definition call (ls : list layer) (r : resp) (q : req) : resp * ans :=
  let '(h, b) := fold_left (edit q) ls (r_headers r, r_body r) in
  (mkResp (r_status r) h (r_body r), mkAns (r_status r) h b).

(** One object for all the requests. *)
Fixpoint reused (ls : list layer) (r : resp) (qs : list req) : list ans :=
  match qs with
  | [] => []
  | q :: rest => let '(r', a) := call ls r q in a :: reused ls r' rest
  end.

(** ** File responses *)
(** The file as it is when a request is answered, the clock, and the request. *)
Record visit := mkVisit {
  v_now : str; v_size : Z; v_etag : str; v_modified : str; v_content : str; v_req : file_req }.
(** The object looking at the file as it is at that moment (responses.py:1109-1113; no [stat_result]
    was given). *)
Definition look (fr : file_resp) (v : visit) : file_resp :=
  mkFR (fr_status fr) (fr_headers fr) (fr_media fr) (fr_allow fr) (fr_boundary fr)
    (v_size v) (v_etag v) (v_modified v) (v_content v).
(** What [__call__] leaves on the object: responses.py:1042-1044, 1084-1104. *)
Definition left_over (now : str) (fr : file_resp) (q : file_req) : file_resp :=
  let h := set_stat_headers fr in
  let keep h st b := mkFR st h (fr_media fr) (fr_allow fr) b (fr_size fr) (fr_etag fr) (fr_modified fr) (fr_content fr) in
  if negb (header_only q) && fr_allow fr && check_if_range h q then
    match set_range_headers now fr h q with
    | SOk h' st (Some c) =>
        keep h' st (match get_content_ranges fr h q with
                    | RSome _ true => match fr_boundary fr with
                                      | BoundaryAuto => BoundaryText (boundary_text now h BoundaryAuto)
                                      | b => b
                                      end
                    | _ => fr_boundary fr
                    end)
    | _ => keep h (fr_status fr) (fr_boundary fr)
    end
  else keep h (fr_status fr) (fr_boundary fr).
Fixpoint file_reused (chunk : Z) (fr : file_resp) (vs : list visit) : list file_out :=
  match vs with
  | [] => []
  | v :: rest => file_call (v_now v) chunk (look fr v) (v_req v)
                 :: file_reused chunk (left_over (v_now v) (look fr v) (v_req v)) rest
  end.
