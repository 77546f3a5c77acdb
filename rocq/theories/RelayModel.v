(** Model of the reverse proxy (lilya/contrib/proxy/relay.py).  Header texts are latin-1; httpx is an oracle. *)
From Verif Require Import PyStr.

(** relay.py:124-133. *)
Definition hop_by_hop : list str :=
  [u "connection"; u "keep-alive"; u "proxy-authenticate"; u "proxy-authorization"; u "te"; u "trailer"; u "transfer-encoding"; u "upgrade"].
(** relay.py:99-121: the settings; the name lists are in lower case there.  [rewrite] is the callback. *)
Record config := { base_host : str; upstream_prefix : str; preserve_host : bool; extra : dict str;
                   drop_request : list str; drop_response : list str; allow_request : option (list str); allow_response : option (list str);
                   max_retries : nat; retry_statuses : list N; rewrite : option (str -> option str) }.
Definition lowers (l : list str) : list str := map lower l.

(** ** Request headers *)
(** relay.py:419-428. *)
Fixpoint copy_headers (cfg : config) (out : dict str) (hs : list (str * str)) : dict str :=
  match hs with
  | [] => out
  | (k, v) :: r => copy_headers cfg (if smem (lower k) hop_by_hop || smem (lower k) (lowers (drop_request cfg)) then out else dset k v out) r
  end.
Definition or_empty (o : option str) : str := match o with Some s => s | None => [] end.
Definition nonempty (s : str) : bool := match s with [] => false | _ => true end.
(** relay.py:419-449 [_prepare_request_headers]. *)
Definition prepare_request_headers (cfg : config) (hs : list (str * str)) (client : option str) (scheme : str) : dict str :=
  let h := copy_headers cfg [] hs in
  let h := dupdate h (extra cfg) in
  let h := if preserve_host cfg then h else dset (u "host") (if nonempty (base_host cfg) then base_host cfg else or_empty (dget (u "host") h)) h in
  let ip := or_empty client in
  let seen := or_empty (dget (u "x-forwarded-for") h) in
  let h := dset (u "x-forwarded-for") (if nonempty seen && nonempty ip then seen ++ u ", " ++ ip else if nonempty ip then ip else seen) h in
  let h := dset (u "x-forwarded-proto") (if seqb scheme (u "https") then u "https" else u "http") h in
  dset (u "x-forwarded-host") (or_empty (dget (u "host") h)) h.

(** ** Response headers *)
(** httpx's [Headers.items]: names in lower case, values of one name joined. *)
Fixpoint joined (out : dict str) (hs : list (str * str)) : dict str :=
  match hs with
  | [] => out
  | (k, v) :: r => joined (dset (lower k) (match dget (lower k) out with Some w => w ++ u ", " ++ v | None => v end) out) r
  end.
Definition httpx_items (hs : list (str * str)) : list (str * str) := joined [] hs.
(** relay.py:770-778 [_sanitize_response_headers]. *)
Definition sanitize_response_headers (cfg : config) (hs : list (str * str)) : list (str * str) :=
  filter (fun p => negb (smem (lower (fst p)) hop_by_hop || smem (lower (fst p)) (lowers (drop_response cfg))) && negb (seqb (lower (fst p)) (u "transfer-encoding"))) hs.
(** relay.py:863-883 [_rewrite_cookie], once there is a callback. *)
Definition is_domain (part : str) : bool := prefixb (u "domain=") (lower part).
Definition cookie_parts (c : str) : list str := filter nonempty (map strip (split_char 59%N c)).
Definition rewrite_cookie (rw : str -> option str) (c : str) : str :=
  match rw c with
  | None => c
  | Some d =>
      let parts := cookie_parts c in
      let kept := flat_map (fun p => if is_domain p then (if nonempty d then [u "Domain=" ++ d] else []) else [p]) parts in
      join (u "; ") (kept ++ (if negb (existsb is_domain parts) && nonempty d then [u "Domain=" ++ d] else []))
  end.
(** relay.py:816-833 [_rewrite_response_cookies]. *)
Definition set_cookies (hs : list (str * str)) : list str := map snd (filter (fun p => seqb (lower (fst p)) (u "set-cookie")) hs).
Definition rewrite_response_cookies (rw : str -> option str) (upstream headers : list (str * str)) : list (str * str) :=
  match set_cookies upstream with
  | [] => headers
  | cs => filter (fun p => negb (seqb (lower (fst p)) (u "set-cookie"))) headers ++ map (fun c => (u "set-cookie", rewrite_cookie rw c)) cs
  end.
(** relay.py:529-532. *)
Definition response_headers (cfg : config) (hs : list (str * str)) : list (str * str) :=
  let out := sanitize_response_headers cfg (httpx_items hs) in
  match rewrite cfg with None => out | Some rw => rewrite_response_cookies rw hs out end.

(** ** Paths *)
(** relay.py:344-346 [_join_paths]. *)
Definition join_paths (prefix path : str) : str :=
  (if suffixb (u "/") prefix then prefix else prefix ++ u "/") ++ lstrip_by (fun c => N.eqb c 47) path.
(** [urllib.parse.urljoin] of a base without path and an absolute path (without parameters, query, fragment),
    as used by [httpx.URL.join]. *)
Fixpoint resolve_segments (out : list str) (segs : list str) : list str :=
  match segs with
  | [] => out
  | s :: r => if seqb s (u "..") then resolve_segments (removelast out) r
              else if seqb s (u ".") then resolve_segments out r else resolve_segments (out ++ [s]) r
  end.
Definition resolve_path (p : str) : str :=
  let segs := split_char 47%N p in
  let out := resolve_segments [] segs in
  let l := last segs [] in
  let out := if seqb l (u ".") || seqb l (u "..") then out ++ [[]] else out in
  match join (u "/") out with [] => u "/" | p => p end.
(** relay.py:375-379 [_build_upstream_url]: the path; servers give [raw_path] whole, and a mount (routing/include.py:243-247)
    only extends [root_path]. *)
Definition upstream_path (cfg : config) (raw_path : str) : str := resolve_path (join_paths (upstream_prefix cfg) raw_path).
Definition mounted_raw_path (mount rest : str) : str := mount ++ rest.

(** ** Requests *)
Inductive event := Chunk (body : str) (more : bool) | Disconnect | OtherEvent.
(** relay.py:480-492 [body_iter]: what the generator can still yield; [None]: it has ended.  No more events stand
    for a disconnect. *)
Definition gen := option (list event).
Fixpoint take_body (limit : option nat) (es : list event) : list str * gen :=
  match limit with
  | Some O => ([], Some es)
  | _ =>
      match es with
      | [] | Disconnect :: _ => ([], None)
      | OtherEvent :: r => take_body limit r
      | Chunk b more :: r =>
          let less := match limit with Some (S n) => Some n | _ => limit end in
          if nonempty b then
            if more then let (t, g) := take_body less r in (b :: t, g)
            else match less with Some O => ([b], Some [Disconnect]) | _ => ([b], None) end
          else if more then take_body limit r else ([], None)
      end
  end.
Definition take_gen (limit : option nat) (g : gen) : list str * gen :=
  match g with None => ([], None) | Some es => take_body limit es end.

Inductive message := Start (status : N) (headers : list (str * str)) | Body (b : str) (more : bool).
Definition text_headers : list (str * str) := [(u "content-type", u "text/plain; charset=utf-8")].
(** relay.py:907-914 [_send_text]; the encoding of the text is left to [encode]. *)
Definition send_text (encode : str -> str) (status : N) (t : str) : list message := [Start status text_headers; Body (encode t) false].

Section Http.
(** Exceptions, with the classes of the except clauses, relay.py:256-302, in this order. *)
Context {Exn : Type} (timeout retryable request_error : Exn -> bool) (show : Exn -> str) (encode : str -> str).
(** httpx: what one attempt does. It takes some of the body's chunks ([None]: all), then raises or answers; an
    answer's chunks (raw, as the upstream sent them) may be cut off by an exception; [text] is the text of a response that has been read. *)
Inductive answer := Raises (e : Exn) | Answers (status : N) (headers : list (str * str)) (raw : list str) (cut : option Exn) (text : option str).
Record attempt := { reads : option nat; gives : answer }.
(** The decoding of [aiter_bytes] by the upstream's Content-Encoding, and the exception of a text that has not been read. *)
Context (decode : option str -> list str -> list str) (not_read : Exn).
Inductive finish := Returned | Failed (e : Exn) | Loops.
(** What an attempt comes to: relay.py:521-547 [_forward_to_upstream] returns, raises, or raises the status error. *)
Inductive forwarded := Done | Threw (e : Exn) | BadStatus (status : N) (text : option str).
Definition forward_to_upstream (cfg : config) (a : answer) : list message * forwarded :=
  match a with
  | Raises e => ([], Threw e)
  | Answers st hs raw cut t =>
      if existsb (N.eqb st) (retry_statuses cfg) then ([], BadStatus st t)
      else
        let ms := Start st (response_headers cfg hs) :: map (fun c => Body c true) (decode (dget (u "content-encoding") (httpx_items hs)) raw) in
        match cut with Some e => (ms, Threw e) | None => (ms ++ [Body [] false], Done) end
  end.
Definition has_body (method : str) : bool := negb (smem method [u "GET"; u "HEAD"; u "OPTIONS"]).
(** relay.py:242-302 [_handle_http]: the chunks each attempt sent, the messages to the client, and how it ended. *)
Fixpoint attempts (fuel : nat) (cfg : config) (plan : nat -> attempt) (n : nat) (g : gen) : list (list str) * list message * finish :=
  match fuel with
  | O => ([], [], Loops)
  | S fuel =>
      let n := S n in
      let (sent, g) := take_gen (reads (plan n)) g in
      let (ms, f) := forward_to_upstream cfg (gives (plan n)) in
      let again (last : list message * finish) :=
        if Nat.leb n (max_retries cfg)
        then let '(ss, ms', f') := attempts fuel cfg plan n g in (sent :: ss, ms ++ ms', f')
        else ([sent], ms ++ fst last, snd last) in
      match f with
      | Done => ([sent], ms, Returned)
      | BadStatus st t => again (match t with Some t => (send_text encode st t, Returned) | None => ([], Failed not_read) end)
      | Threw e =>
          if timeout e then again (send_text encode 504 (u "Gateway Timeout"), Returned)
          else if retryable e then again (send_text encode 502 (u "Upstream error: " ++ show e), Returned)
          else if request_error e then ([sent], ms ++ send_text encode 502 (u "Upstream error: " ++ show e), Returned)
          else ([sent], ms, Failed e)
      end
  end.
Definition handle_http (cfg : config) (plan : nat -> attempt) (method : str) (es : list event) : list (list str) * list message * finish :=
  attempts (S (max_retries cfg)) cfg plan 0 (if has_body method then Some es else None).
End Http.

(** ** WebSockets *)
Inductive frame := TextFrame (t : str) | BytesFrame (b : str).
Inductive down := Sends (f : frame) | Closes (code : N).
(** What happens in some order: the client's messages (with the two optional fields) and its leaving, the
    upstream's messages, the loss of its connection, and the end of the iteration (normal or not). *)
Inductive ws_event := FromClient (t : option str) (b : option str) | ClientGone | FromUpstream (f : frame) | UpstreamLost | UpstreamEnds (normal : bool).
(** The two tasks, whether the upstream accepts messages, and what was sent. *)
Record pump := { reading : bool; iterating : bool; up_open : bool; to_up : list frame; to_down : list down }.
Definition pump0 : pump := {| reading := true; iterating := true; up_open := true; to_up := []; to_down := [] |}.
(** relay.py:596-602: an exception ends both tasks and closes with 1011.  If the iterating task is cancelled,
    [cleans] says whether its clean-up (relay.py:666-667) still gets its message through. *)
Definition break_pump (cleans : bool) (p : pump) : pump :=
  {| reading := false; iterating := false; up_open := false; to_up := to_up p;
     to_down := to_down p ++ (if iterating p && cleans then [Closes 1000] else []) ++ [Closes 1011] |}.
Definition client_frame (t b : option str) : option frame :=
  match t, b with Some t, _ => Some (TextFrame t) | None, Some b => Some (BytesFrame b) | None, None => None end.
(** relay.py:642-670 [_pump_websocket]; a message to a closed upstream raises. *)
Definition pump_step (cleans : bool) (p : pump) (e : ws_event) : pump :=
  match e with
  | FromClient t b =>
      if reading p then
        match client_frame t b with
        | None => p
        | Some f => if up_open p then {| reading := true; iterating := iterating p; up_open := true; to_up := to_up p ++ [f]; to_down := to_down p |}
                    else break_pump cleans p
        end
      else p
  | ClientGone => if reading p then {| reading := false; iterating := iterating p; up_open := false; to_up := to_up p; to_down := to_down p |} else p
  | FromUpstream f => if iterating p then {| reading := reading p; iterating := true; up_open := up_open p; to_up := to_up p; to_down := to_down p ++ [Sends f] |} else p
  | UpstreamLost => {| reading := reading p; iterating := iterating p; up_open := false; to_up := to_up p; to_down := to_down p |}
  | UpstreamEnds normal =>
      if iterating p then
        let p' := {| reading := reading p; iterating := false; up_open := false; to_up := to_up p; to_down := to_down p ++ [Closes 1000] |} in
        if normal then p' else break_pump cleans p'
      else p
  end.
Definition pump_run (cleans : bool) (es : list ws_event) : pump := fold_left (pump_step cleans) es pump0.
