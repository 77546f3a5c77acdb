(** What an OpenAPI document of an application should say, without the functions of the model. *)
From Coq Require Import List NArith Bool.
From Verif Require Import PyStr DocModel.
Import ListNotations.

(** A path under an include. *)
Definition mounted (p q : str) : str := if seqb p (u "/") then q else p ++ q.

(** The template at which a route is served, and whether it and the includes around it are to be shown. *)
Inductive located : list route -> str -> bool -> leaf -> Prop :=
| here l rs : In (Leaf l) rs -> located rs (l_path l) (l_in l) l
| inside p shown rs' rs q b l : In (Node p shown rs') rs -> located rs' q b l -> located rs (mounted p q) (shown && b) l
| hosted rs' rs q b l : In (HostNode rs') rs -> located rs' q b l -> located rs q b l.

(** The route answers the HTTP method [m] with the handler [h]. *)
Inductive answers : leaf -> str -> handler -> Prop :=
| by_function l h ms m : l_ws l = false -> l_end l = Func h -> l_methods l = Some ms -> In m ms -> answers l m h
| by_object l h m : l_ws l = false -> l_end l = Other h -> (forall ms, l_methods l = Some ms -> In m ms) -> answers l m h
| by_controller l x attrs m h : l_ws l = false -> l_end l = Ctrl x attrs -> (forall ms, l_methods l = Some ms -> In m ms) ->
    In m [u "GET"; u "QUERY"; u "POST"; u "PUT"; u "PATCH"; u "DELETE"; u "HEAD"; u "OPTIONS"; u "TRACE"] ->
    dget (lower m) attrs = Some h -> answers l m h.

(** The decorator asks for the handler to be left out; the controller does. *)
Definition handler_shown (h : handler) : Prop := forall mt, h_meta h = Some mt -> m_shown mt = true.
Definition endpoint_shown (l : leaf) : Prop := forall attrs, l_end l <> Ctrl true attrs.

(** The document has the operation [o] for the method [m] of the path. *)
Definition documents (s : spec) (path m : str) (o : operation) : Prop :=
  exists os, dget path (paths s) = Some os /\ dget (lower m) os = Some o.

(** Routes within what the document describes faithfully: no hosts, no websockets, includes at paths without parameters
    and shown, controllers for all methods, no handler left out by its decorator. *)
Definition ordinary_leaf (l : leaf) : Prop :=
  l_ws l = false /\
  (forall x attrs, l_end l = Ctrl x attrs -> l_methods l = None) /\
  (forall h, l_end l = Func h -> l_methods l <> None) /\ (forall h, l_end l = Other h -> l_methods l <> None) /\
  (forall ms m, l_methods l = Some ms -> In m ms -> upper m = m) /\
  (forall m h, answers l m h -> handler_shown h).
Inductive ordinary : route -> Prop :=
| o_leaf l : ordinary_leaf l -> ordinary (Leaf l)
| o_node p rs : ~ In 123%N p -> Forall ordinary rs -> ordinary (Node p true rs).

(** A template: texts without braces and parameters. *)
Inductive piece := Text (t : str) | Par (name : str).
Definition piece_ok (p : piece) : Prop :=
  match p with Text t => ~ In 123%N t | Par n => n <> [] /\ ~ In 125%N n end.
Definition written (ps : list piece) : str := flat_map (fun p => match p with Text t => t | Par n => u "{" ++ n ++ u "}" end) ps.
Definition names (ps : list piece) : list str := flat_map (fun p => match p with Text _ => [] | Par n => [n] end) ps.

(** The operation says what the handler declares, for the method of a path of these pieces. *)
Record says (o : operation) (ps : list piece) (m : str) (h : handler) : Prop := {
  says_summary : forall mt, h_meta h = Some mt -> o_summary o = m_summary mt;
  says_id : forall mt i, h_meta h = Some mt -> m_id mt = Some i -> o_id o = Some i;
  says_name : h_meta h = None -> o_id o = h_name h;
  says_params : o_params o = map InPath (names ps) ++ match h_meta h with Some mt => map (fun q => InQuery (fst q) (snd q)) (m_query mt) | None => [] end;
  says_body : forall mt, h_meta h = Some mt -> In m [u "QUERY"; u "POST"; u "PUT"; u "PATCH"] -> o_body o = m_body mt;
  says_no_body : ~ In m [u "QUERY"; u "POST"; u "PUT"; u "PATCH"] -> o_body o = None;
  says_responses : forall mt code r, h_meta h = Some mt -> NoDup (map fst (m_responses mt)) -> In (code, r) (m_responses mt) ->
    exists text, dget (dec code) (o_responses o) = Some (text, Some (u "application/json", r_listed r, r_name r)) /\ (r_text r <> [] -> text = r_text r);
  says_only : forall mt code x, h_meta h = Some mt -> m_responses mt <> [] -> dget code (o_responses o) = Some x ->
    exists n r, In (n, r) (m_responses mt) /\ code = dec n;
  says_default : (forall mt, h_meta h = Some mt -> m_responses mt = []) -> map fst (o_responses o) = [u "200"] }.
