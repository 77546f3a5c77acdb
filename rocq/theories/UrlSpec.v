(** What C69 and C70 say. *)
From Coq Require Import Permutation.
From Verif Require Import PyStr Utf8 UrlModel.

(** No tab or line end. *)
Definition smooth (s : str) : Prop := forall c, In c s -> c <> 9%N /\ c <> 10%N /\ c <> 13%N.
(** Characters an authority may not hold, bracketed addresses aside. *)
Definition free_of (forbidden : str) (s : str) : Prop := forall c, In c s -> ~ In c forbidden.

(** A host: a name, or an address in brackets. *)
Inductive good_host (ip_ok : str -> bool) : str -> Prop :=
| gh_name h : h <> [] -> free_of (u "@:/?#[]") h -> smooth h -> good_host ip_ok h
| gh_ip a : ip_ok a = true -> free_of (u "@/?#[]") a -> smooth a -> good_host ip_ok (u "[" ++ a ++ u "]").
(** The authority of a URL: [user[:password]@]host[:port]. *)
Definition authority (user pass : option str) (host : str) (prt : option N) : str :=
  match user with
  | None => []
  | Some us => us ++ match pass with None => [] | Some pw => u ":" ++ pw end ++ u "@"
  end ++ host ++ match prt with None => [] | Some n => u ":" ++ dec n end.
Record good_authority (ip_ok : str -> bool) (user pass : option str) (host : str) (prt : option N) : Prop := {
  ga_user : forall us, user = Some us -> free_of (u "@:/?#[]") us /\ smooth us;
  ga_pass : forall pw, pass = Some pw -> free_of (u "@/?#[]") pw /\ smooth pw;
  ga_host : good_host ip_ok host;
  ga_port : forall n, prt = Some n -> (n <= 65535)%N }.

(** A scheme: a letter, then letters, digits, "+", "-" and "."; in lower case. *)
Definition scheme_name (s : str) : Prop :=
  exists c r, s = c :: r /\ (97 <= c <= 122)%N /\ forall x, In x r -> (97 <= x <= 122 \/ 48 <= x <= 57 \/ In x (u "+-."))%N.
(** A path: empty or beginning with "/". *)
Definition good_path (s : str) : Prop := (s = [] \/ exists r, s = u "/" ++ r) /\ free_of (u "?#") s /\ smooth s.
Definition good_query (s : str) : Prop := free_of (u "#") s /\ smooth s.

(** A URL in its parts, and as text; the reading has an authority. *)
Definition url_text (scheme auth path query fragment : str) : str :=
  scheme ++ u "://" ++ auth ++ path
  ++ match query with [] => [] | _ => u "?" ++ query end
  ++ match fragment with [] => [] | _ => u "#" ++ fragment end.
(** The parts a URL object shows. *)
Definition shows (x : url) (scheme auth path query fragment : str) : Prop :=
  split x = {| p_scheme := scheme; p_netloc := auth; p_path := path; p_query := query; p_fragment := fragment |}.

(** Query parameters: pairs of texts. *)
Definition texts (l : list (str * str)) : Prop := forall k v, In (k, v) l -> (forall c, In c k -> scalar c) /\ (forall c, In c v -> scalar c).
(** [sorted] of the items: the same pairs in some order. *)
Definition sorts (f : list (str * str) -> list (str * str)) : Prop := forall l, Permutation (f l) l.
(** The values of one parameter. *)
Definition param (k : str) (l : list (str * str)) : list str := map snd (filter (fun e => seqb (fst e) k) l).
