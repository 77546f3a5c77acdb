(** Model of the links a request makes to routes: [request.url_path_for] and [URLPath.make_absolute_url], over the URLs of UrlModel. *)
From Verif Require Import PyStr PathModel UrlModel.

(** datastructures.py:644-652 [URLPath]: the path, the protocol ([Some false] for http, [Some true] for websocket, [None] for none) and
    the host, which is empty for a route that is below no [Host]. *)
Record route_url := { ru_path : str; ru_protocol : option bool; ru_host : str }.
(** datastructures.py:458-466 [is_secure]. *)
Definition is_secure (scheme : str) : bool := seqb scheme (u "https") || seqb scheme (u "wss").
(** datastructures.py:654-674 [make_absolute_url] with a URL.  The URL is made from keyword arguments (datastructures.py:342-359): its
    parts are the given ones, unread, and its text is what [urlunsplit] makes of them. *)
Definition make_absolute_url (r : route_url) (base : url) : url :=
  let b := split base in
  let scheme := match ru_protocol r with
                | Some false => if is_secure (p_scheme b) then u "https" else u "http"
                | Some true => if is_secure (p_scheme b) then u "wss" else u "ws"
                | None => p_scheme b
                end in
  let netloc := match ru_host r with [] => p_netloc b | h => h end in
  let parts := {| p_scheme := scheme; p_netloc := netloc; p_path := rstrip_by is_slash (p_path b) ++ ru_path r; p_query := []; p_fragment := [] |} in
  {| text := urlunsplit parts; split := parts |}.
(** _connection.py:91-93: the root path with a slash at the end. *)
Definition base_path (root : str) : str := if suffixb [slash] root then root else root ++ [slash].
(** _connection.py:85-100 [base_url]; [root] is the root path of the application, which mounts leave alone (include.py:245). *)
Definition base_url (ip_ok : str -> bool) (sc : scope) (root : str) : option url :=
  build_from_scope ip_ok
    {| s_type := s_type sc; s_scheme := s_scheme sc; s_server := s_server sc;
       s_path := base_path root; s_query := []; s_headers := s_headers sc |}.
(** _connection.py:206-217 [url_path_for], for the path the router has made. *)
Definition url_path_for (ip_ok : str -> bool) (sc : scope) (root : str) (r : route_url) : option url :=
  match base_url ip_ok sc root with Some b => Some (make_absolute_url r b) | None => None end.
