(** Model of where the reverse proxy connects to, and of a whole proxied websocket (lilya/contrib/proxy/relay.py). *)
From Verif Require Import PyStr RelayModel.

(** An [httpx.URL] by its parts; the authority has the port.  Fragments are left out. *)
Record address := { a_scheme : str; a_authority : str; a_path : str; a_query : str }.
(** The path up to its last slash: RFC 3986, 5.2.3, for a base with an authority. *)
Definition up_to_slash (p : str) : str :=
  match rev (split_char 47%N p) with [] | [_] => u "/" | _ :: r => join (u "/") (rev r) ++ u "/" end.
(** [httpx.URL.join] with a reference without a scheme, query and fragment: two slashes name another server, one an
    absolute path, and none a path beside the base's. *)
Definition join_reference (base : address) (p : str) : address :=
  if prefixb (u "//") p then
    match split_char 47%N (skipn 2 p) with
    | [] => base
    | h :: rest => {| a_scheme := a_scheme base; a_authority := h; a_path := resolve_path (join (u "/") ([] :: rest)); a_query := [] |}
    end
  else {| a_scheme := a_scheme base; a_authority := a_authority base;
          a_path := resolve_path (if prefixb (u "/") p then p else up_to_slash (a_path base) ++ p); a_query := [] |}.
(** The parts of a scope that are read: relay.py:375-377 (a server that gives no [raw_path] is left out) and 698. *)
Record ws_scope := { s_scheme : option str; s_raw_path : str; s_query : str }.
(** relay.py:375-379 [_build_upstream_url]. *)
Definition build_upstream_url (base : address) (cfg : config) (sc : ws_scope) : address :=
  let a := join_reference base (join_paths (upstream_prefix cfg) (s_raw_path sc)) in
  {| a_scheme := a_scheme a; a_authority := a_authority a; a_path := a_path a; a_query := s_query sc |}.
(** relay.py:698-701 [_build_upstream_ws_url]. *)
Definition build_upstream_ws_url (base : address) (cfg : config) (sc : ws_scope) : address :=
  let scheme := match s_scheme sc with Some s => s | None => u "http" end in
  let ws_scheme := if seqb scheme (u "https") then u "wss" else u "ws" in
  let a := build_upstream_url base cfg sc in
  {| a_scheme := ws_scheme; a_authority := a_authority a; a_path := a_path a; a_query := a_query a |}.

(** What the client of a proxied websocket is sent. *)
Inductive to_client := Accept | Frame (f : frame) | Close (code : N) (reason : str).
(** What becomes of the connection to the upstream (the [websockets] library): it times out, fails, or is made, and
    then the events of RelayModel happen. *)
Inductive connecting := TimesOut | Fails | Connects (cleans : bool) (es : list ws_event).
(** relay.py:667 and 600-602; what is raised in the tasks reaches the latter as an exception group. *)
Definition with_reason (d : down) : to_client :=
  match d with Sends f => Frame f | Closes code => Close code (if N.eqb code 1000 then u "Upstream closed" else u "Upstream WS error") end.
(** relay.py:572-602 [_handle_websocket]: also whom it connects to. *)
Definition handle_websocket (base : address) (cfg : config) (sc : ws_scope) (c : connecting) : address * list to_client :=
  (build_upstream_ws_url base cfg sc,
   Accept :: match c with
             | TimesOut => [Close 1011 (u "Upstream WS timeout")]
             | Fails => [Close 1011 (u "Upstream WS error")]
             | Connects cleans es => map with_reason (to_down (pump_run cleans es))
             end).
