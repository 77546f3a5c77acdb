(** Specification for host routes. *)
From Verif Require Import PyStr PathModel PathSpec.

(** A port as written after a host: nothing, or a colon and digits. *)
Definition is_port (p : str) : Prop := p = [] \/ exists d, p = u ":" ++ d /\ all_in is_digit d.
(** A host as it stands in a Host header, without the port: a name without colon, or an address in brackets. *)
Definition is_host (h : str) : Prop := ~ In 58%N h \/ exists x, h = u "[" ++ x ++ u "]".

(** A host template: literal text and parameters with different identifiers as names; no leading slash. *)
Definition host_template (t : template) : Prop :=
  (forall l n c, In (l, n, c) (fst t) -> plain l /\ is_ident n) /\ plain (snd t) /\
  NoDup (map (fun p => snd (fst p)) (fst t)) /\ (forall q, written t <> slash :: q).
(** Its last literal text has no colon. *)
Definition named_host (t : template) : Prop := ~ In 58%N (snd t).

(** [merged old new d]: [d] has the entries of [new], and those of [old] it does not replace. *)
Definition merged {V} (old new d : dict V) : Prop :=
  forall n, dget n d = match dget n new with Some v => Some v | None => dget n old end.

(** There is one way only to read [h] as an instance of [t]. *)
Definition one_reading (t : template) (h : str) : Prop :=
  forall vs vs', instance t vs h -> instance t vs' h -> vs = vs'.
