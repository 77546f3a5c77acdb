(** Specifications about template controllers. *)
From Verif Require Import PyStr Asgi HeaderModel HeaderSpec CookieModel CookieSpec RequestModel FormSpec CsrfModel TplModel.

(** Every class's version of a hook runs once, the most derived first, until one gives a result. *)
Section Hooks.
Context {R : Type} (own : nat -> option (hook R)).
Fixpoint expected (classes : list nat) : list nat * option R :=
  match classes with
  | [] => ([], None)
  | c :: r =>
      match own c with
      | None => expected r
      | Some h => match h_result h with Some x => ([c], Some x) | None => (c :: fst (expected r), snd (expected r)) end
      end
  end.
End Hooks.
(** Single inheritance: a class's ancestors are those that follow it. *)
Definition linear (mro : nat -> list nat) (self : nat) : Prop :=
  (exists r, mro self = self :: r) /\ forall a c r, mro self = a ++ c :: r -> mro c = c :: r.

(** A browser that gets a page and then submits a form with the token of the page. *)
Definition visit (e : env) (c : config) (order : list str -> list str) (jar : dict str) (method random : str) (h : headers) : dict str :=
  fold_left client_store
    (values (u "set-cookie") (wire order (if smem method (s_safe c) then send_wrapper e c order (client_send jar) random h else h))) jar.
Definition submit (e : env) (c : config) (order : list str -> list str) (jar : dict str) (t : str) : outcome :=
  csrf e c order (u "POST") ((u "content-type", u "application/x-www-form-urlencoded") :: client_send jar) [MReq (std_encode [(s_field c, t)]) false].
Definition accepted (o : outcome) : Prop := exists msgs, o = Called msgs.

(** The last of several dicts that has a name. *)
Fixpoint latest {V} (n : str) (ds : list (dict V)) : option V :=
  match ds with
  | [] => None
  | d :: r => match latest n r with Some v => Some v | None => dget n d end
  end.
(** A dict as Python has them. *)
Definition proper {V} (d : dict V) : Prop := NoDup (map fst d).
(** A processor is called with its parameters that are available, by name. *)
Definition given {V} (names : list str) (available : dict V) : dict V :=
  flat_map (fun n => match dget n available with Some v => [(n, v)] | None => [] end) names.
