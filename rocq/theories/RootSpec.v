(** What C310-C312 say. *)
From Verif Require Import PyStr PathModel RouterModel.

(** A request as a server hands it over. *)
Definition request (root path method : str) : scope := {| sc_root := root; sc_path := path; sc_method := method; sc_params := [] |}.
(** Handlers that do not look at the root path and the path of the scope. *)
Definition indifferent (handlers : nat -> scope -> prog) : Prop := forall id a b, sc_method a = sc_method b -> sc_params a = sc_params b -> handlers id a = handlers id b.
(** What the client gets and which handlers ran, with what. *)
Definition told (c : call) : nat * dict pvalue * list str := (c_id c, c_params c, c_seen c).
Definition same_service (a b : outcome) : Prop := o_answers a = o_answers b /\ o_error a = o_error b /\ map told (o_calls a) = map told (o_calls b).
(** The same, with the prefix in front of redirects. *)
Definition below (root : str) (a : answer) : answer := match a with ARedirect p => ARedirect (root ++ p) | x => x end.
Definition same_service_below (root : str) (a b : outcome) : Prop :=
  o_answers a = map (below root) (o_answers b) /\ o_error a = o_error b /\ map told (o_calls a) = map told (o_calls b).
(** A usual root path does not end in a slash; a usual path begins with one and has no two in a row. *)
Definition usual_root (root : str) : Prop := root <> [] /\ last root 0%N <> slash.
Definition usual_path (path : str) : Prop := (exists r, path = slash :: r) /\ forall a b, path <> a ++ slash :: slash :: b.
(** The root path in force: the application's own, or else the one the server names. *)
Definition in_force (own server : str) : str := match own with [] => server | _ => own end.
(** The same request when a mount or a middleware has already found parameters. *)
Definition carrying (ps : dict pvalue) (sc : scope) : scope := {| sc_root := sc_root sc; sc_path := sc_path sc; sc_method := sc_method sc; sc_params := ps |}.
