(** What C33 and C65 say. *)
From Verif Require Import PyStr Asgi HeaderModel HeaderSpec CorsModel.

(** The configuration allows the origin. *)
Definition allowed (c : config) (origin : str) : Prop :=
  In (u "*") (c_origins c) \/ In origin (c_origins c) \/ exists re, c_regex c = Some re /\ re origin = true.
(** It allows the method: listed, or one of the usual ones if all are, or GET if none is. *)
Definition usual : list str := [u "GET"; u "QUERY"; u "POST"; u "PUT"; u "PATCH"; u "DELETE"; u "HEAD"; u "OPTIONS"].
Inductive allows_method (c : config) (m : str) : Prop :=
| am_all : In (u "*") (c_methods c) -> In m usual -> allows_method c m
| am_listed : ~ In (u "*") (c_methods c) -> In m (c_methods c) -> allows_method c m
| am_none : c_methods c = [] -> m = u "GET" -> allows_method c m.
(** It allows a header name: listed, whatever the case of letters, or one of four that always are. *)
Definition allows_name (c : config) (n : str) : Prop :=
  exists a, In a ([u "Accept"; u "Accept-Language"; u "Content-Language"; u "Content-Type"] ++ c_headers c) /\ lower a = lower n.
(** It allows the names in a comma separated list. *)
Definition allows_headers (c : config) (requested : option str) : Prop :=
  match requested with
  | None => True
  | Some r => In (u "*") (c_headers c) \/ forall h, In h (split_char 44 r) -> allows_name c (strip h)
  end.
(** [sorted] keeps the elements. *)
Definition sorts (c : config) : Prop := forall l x, In x (c_sorted c l) <-> In x l.

(** The values of a header in the response starts of a list of messages. *)
Definition lines (n : str) (ms : list amsg) : list str :=
  flat_map (fun m => match m with AStart _ h => values n h | ABody _ _ => [] end) ms.
Definition grants (ms : list amsg) : list str := lines (u "access-control-allow-origin") ms.
Definition status_is (ms : list amsg) (st : Z) : Prop := exists h r, ms = AStart st h :: r.
(** A request asks for a preflight. *)
Definition has (n : str) (req : headers) : Prop := values n req <> [].
