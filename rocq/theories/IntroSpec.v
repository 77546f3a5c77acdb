(** What the introspection graph should say, without looking at how it is built. *)
From Coq Require Import List.
From Verif Require Import PyStr IntroModel.
Import ListNotations.

(** Every include of an application leads to an application that exists. *)
Definition closed (st : store) : Prop :=
  forall ap p nm mws perms c, In ap st -> In (Incl p nm mws perms (ToApp c)) (a_routes ap) -> c < length st.

(** Application [a] includes application [c], without middleware or permissions on the include. *)
Definition includes_bare (st : store) (a c : nat) : Prop :=
  exists ap p nm, nth_error st a = Some ap /\ In (Incl p nm [] [] (ToApp c)) (a_routes ap).
(** In one or more steps. *)
Inductive reaches (st : store) (a : nat) : nat -> Prop :=
| reaches_one c : includes_bare st a c -> reaches st a c
| reaches_more b c : reaches st a b -> includes_bare st b c -> reaches st a c.

(** The routes among some entries serve a path; whatever is wrapped around the includes on the way. *)
Inductive serves (st : store) (p : str) : list entry -> Prop :=
| serves_route ms mws perms es : In (Route (Some p) ms mws perms) es -> serves st p es
| serves_app q nm mws perms c ap es : In (Incl q nm mws perms (ToApp c)) es -> nth_error st c = Some ap -> serves st p (a_routes ap) -> serves st p es
| serves_routes q nm mws perms rs es : In (Incl q nm mws perms (ToRoutes rs)) es -> serves st p rs -> serves st p es.

(** The class a declaration names. *)
Definition named (ds : list decl) : list str := map (fun d => match d with Define c | Raw c => c end) ds.
