(** What C314 and C315 say. *)
From Verif Require Import PyStr Utf8 HeaderModel PathModel UrlModel UrlSpec.

(** The schemes of requests. *)
Definition request_scheme (s : str) : Prop := In s [u "http"; u "https"; u "ws"; u "wss"].
(** The scheme of a link: the kind of the route, as secure as the request. *)
Inductive link_scheme : str -> option bool -> str -> Prop :=
| ls_http s : s = u "http" \/ s = u "ws" -> link_scheme s (Some false) (u "http")
| ls_https s : s = u "https" \/ s = u "wss" -> link_scheme s (Some false) (u "https")
| ls_ws s : s = u "http" \/ s = u "ws" -> link_scheme s (Some true) (u "ws")
| ls_wss s : s = u "https" \/ s = u "wss" -> link_scheme s (Some true) (u "wss")
| ls_same s : link_scheme s None s.
(** The port a scheme implies. *)
Definition implied (scheme : str) (n : N) : Prop := (In scheme [u "http"; u "ws"] /\ n = 80%N) \/ (In scheme [u "https"; u "wss"] /\ n = 443%N).
(** The authority of a request: its Host header, or else the server's address, without the port that the scheme implies. *)
Inductive addressed (ip_ok : str -> bool) (sc : scope) : str -> Prop :=
| ad_host us pw h p : hget (u "host") (s_headers sc) = Some (authority us pw h p) -> good_authority ip_ok us pw h p -> addressed ip_ok sc (authority us pw h p)
| ad_implied h n : hget (u "host") (s_headers sc) = None -> s_server sc = Some (h, Some n) -> good_host ip_ok h -> implied (s_scheme sc) n ->
    addressed ip_ok sc (authority None None h None)
| ad_port h n : hget (u "host") (s_headers sc) = None -> s_server sc = Some (h, Some n) -> good_host ip_ok h -> (n <= 65535)%N -> ~ implied (s_scheme sc) n ->
    addressed ip_ok sc (authority None None h (Some n)).
(** The authority of a link: the host of the route, if it has one. *)
Inductive link_authority (ip_ok : str -> bool) (asked : str) : str -> str -> Prop :=
| la_asked : link_authority ip_ok asked [] asked
| la_host us pw h p : good_authority ip_ok us pw h p -> authority us pw h p <> [] -> link_authority ip_ok asked (authority us pw h p) (authority us pw h p).
(** A path that ends in no slash. *)
Definition no_last_slash (s : str) : Prop := forall r, s <> r ++ [slash].
(** The path a server hands over for the text of a link: what precedes the query, with the percent escapes decoded.  (Characters that a
    client escapes are decoded to themselves.) *)
Definition requested (ip_ok : str -> bool) (link : str) (path : str) : Prop := exists x, url_of ip_ok link = Some x /\ path = unquote (p_path (split x)).
