(** What C35, C36, C39 and C68 say. *)
From Verif Require Import PyStr Utf8 Asgi HeaderModel HeaderSpec CorsSpec UrlModel UrlSpec HostModel.

(** A list of patterns allows a host: it lists the host, or "*.d" and the host ends in ".d". *)
Definition allows (patterns : list str) (host : str) : Prop :=
  In host patterns \/ exists d front, In (u "*." ++ d) patterns /\ host = front ++ u "." ++ d.
(** Patterns the middleware accepts: "*" only in front, alone or before a dot. *)
Definition pattern (p : str) : Prop := ~ In 42%N p \/ p = u "*" \/ exists d, p = u "*." ++ d /\ ~ In 42%N d.

(** A Host header: a host and perhaps a port; a host with colons is in brackets. *)
Inductive host_value : str -> str -> Prop :=
| hv_name h port : ~ In 58%N h -> (forall c, In c port -> (48 <= c <= 57)%N) -> host_value h (h ++ u ":" ++ port)
| hv_bare h : ~ In 58%N h -> host_value h h
| hv_ip a port : (forall c, In c port -> (48 <= c <= 57)%N) -> host_value (u "[" ++ a ++ u "]") (u "[" ++ a ++ u "]" ++ u ":" ++ port)
| hv_bare_ip a : host_value (u "[" ++ a ++ u "]") (u "[" ++ a ++ u "]").
(** The host of a request: of its Host header, empty without one. *)
Definition request_host (s : scope) (h : str) : Prop :=
  (exists v, hd_error (values (u "host") (s_headers s)) = Some v /\ host_value h v)
  \/ (values (u "host") (s_headers s) = [] /\ h = []).

(** The application is called. *)
Definition called (o : outcome) : Prop := exists f, o = Through f.
(** The answer is a redirect with a status to a place. *)
Definition redirects (o : outcome) (st : Z) (location : str) : Prop :=
  exists ms, o = Answer ms /\ status_is ms st /\ response_complete ms /\ lines (u "location") ms = [location].
Definition refused (o : outcome) (why : str) : Prop :=
  exists ms, o = Answer ms /\ status_is ms 400 /\ response_complete ms /\ abytes ms = why.

(** [location] names the resource: scheme, authority, path and query.  The path is percent-encoded. *)
Definition names (location scheme auth path query : str) : Prop :=
  exists raw, location = scheme ++ u "://" ++ auth ++ raw ++ match query with [] => [] | _ => u "?" ++ query end
    /\ unquote raw = path /\ free_of (u "?#") raw.
(** A path that URLs can hold without ambiguity: it begins with "/" and has no "%", "?", "#", tab or line end. *)
Definition plain_path (p : str) : Prop :=
  (exists r, p = u "/" ++ r) /\ free_of (u "%?#") p /\ smooth p /\ (forall c, In c p -> scalar c).
(** A query as clients send it. *)
Definition url_char (c : N) : Prop :=
  (48 <= c <= 57 \/ 65 <= c <= 90 \/ 97 <= c <= 122)%N \/ In c (u "_.-~:/%?=@[]!$&'()*+,;").
Definition sent_query (q : str) : Prop := forall c, In c q -> url_char c.
(** A host name. *)
Definition host_name (h : str) : Prop :=
  h <> [] /\ forall c, In c h -> (48 <= c <= 57 \/ 65 <= c <= 90 \/ 97 <= c <= 122 \/ c = 45 \/ c = 46 \/ c = 95)%N.
(** The authority without a default port. *)
Definition secure_authority (name : str) (prt : option N) : str :=
  match prt with
  | Some 80%N => lower name
  | Some 443%N => lower name
  | _ => authority None None name prt
  end.

Definition digits (s : str) : Prop := s <> [] /\ forall c, In c s -> (48 <= c <= 57)%N.
Definition two_colons (a : str) : Prop := exists x y z, a = x ++ u ":" ++ y ++ u ":" ++ z.
(** An address as a server reports it: IPv4 or a name without colon, or IPv6. *)
Definition address (a : str) : Prop :=
  a <> [] /\ a <> u "unix" /\ (~ In 58%N a \/ two_colons a /\ free_of (u "[]") a).
(** The address in a forwarding header: IPv4 or a dotted name, or IPv6 in brackets, perhaps with a port; or,
    without a port, a bare IPv6 address, a name, an obfuscated identifier or "unknown". *)
Inductive node : str -> str -> Prop :=
| nd_4 a : In 46%N a -> free_of (u ":"";, ") a -> node a a
| nd_4p a p : In 46%N a -> free_of (u ":"";, ") a -> digits p -> node a (a ++ u ":" ++ p)
| nd_6 a : two_colons a -> free_of (u "[]"";, ") a -> node a (u "[" ++ a ++ u "]")
| nd_6p a p : two_colons a -> free_of (u "[]"";, ") a -> digits p -> node a (u "[" ++ a ++ u "]:" ++ p)
| nd_bare a : address a -> free_of (u """;, ") a -> node a a.
(** The authority a request is for: its Host header, or the server's name and port without one. *)
Definition default (scheme : str) (n : N) : Prop :=
  (scheme = u "http" \/ scheme = u "ws") /\ n = 80%N \/ (scheme = u "https" \/ scheme = u "wss") /\ n = 443%N.
Definition request_authority (s : scope) (name : str) (prt : option N) : Prop :=
  hd_error (values (u "host") (s_headers s)) = Some (authority None None name prt)
  \/ (values (u "host") (s_headers s) = []
      /\ exists n, s_server s = Some (name, Some n)
         /\ (prt = None /\ default (s_scheme s) n \/ prt = Some n /\ ~ default (s_scheme s) n)).
