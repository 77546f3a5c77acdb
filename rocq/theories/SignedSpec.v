(** What C42 says. *)
From Verif Require Import PyStr Utf8 UrlModel UrlSpec.

(** The authentication code of bytes is a text of unreserved characters. *)
Definition tag (mac : str -> str) : Prop := forall b, mac b <> [] /\ forall c, In c (mac b) -> unreserved c = true.
(** Different messages have different codes. *)
Definition no_collision (mac : str -> str) : Prop := forall a b, mac a = mac b -> a = b.
(** Text of Unicode scalar values. *)
Definition plain_text (s : str) : Prop := forall c, In c s -> scalar c.

(** The parts of an http(s) URL. *)
Record address := { a_scheme : str; a_user : option str; a_pass : option str; a_host : str; a_port : option N; a_path : str; a_query : str; a_fragment : str }.
Definition address_text (a : address) : str :=
  url_text (a_scheme a) (authority (a_user a) (a_pass a) (a_host a) (a_port a)) (a_path a) (a_query a) (a_fragment a).
Record good_address (ip_ok : str -> bool) (a : address) : Prop := {
  g_scheme : a_scheme a = u "http" \/ a_scheme a = u "https";
  g_authority : good_authority ip_ok (a_user a) (a_pass a) (a_host a) (a_port a);
  g_path : good_path (a_path a); g_path_text : plain_text (a_path a);
  g_query : good_query (a_query a); g_query_text : plain_text (a_query a);
  g_fragment : smooth (a_fragment a) }.
(** The query pairs of a URL; the pairs other than the signature. *)
Definition pairs (a : address) : list (str * str) := parse_qsl (a_query a).
Definition signed_pairs (a : address) : list (str * str) := filter (fun e => negb (seqb (fst e) (u "sig"))) (pairs a).
(** The last value of a name that is not blank. *)
Definition last_value (n : str) (a : address) : option str :=
  match filter (fun v => negb (empty v)) (rev (param n (pairs a))) with [] => None | v :: _ => Some v end.
(** The part of a path before the parameters of its last segment. *)
Definition before_semicolon (path p : str) : Prop :=
  (p = path /\ ~ exists a b, path = a ++ u ";" ++ b /\ ~ In 47%N b)
  \/ exists b, path = p ++ u ";" ++ b /\ ~ In 47%N b /\ ~ exists x y, p = x ++ u ";" ++ y /\ ~ In 47%N y.
