(** What C50, C90 and C91 say. *)
From Verif Require Import PyStr ArgsModel.

Section Spec.
Context {V C P : Type}.
Implicit Types (r : request V) (f : field V C) (e : surroundings V P).
(** C50: the same arguments, or the same error. *)
Definition same (x y : outcome V) : Prop :=
  match x, y with
  | Args a, Args b => forall n, dget n a = dget n b
  | Fails e, Fails e' => e = e'
  | _, _ => False
  end.

(** C90: the texts a request sends for a parameter [n] marked [f]: a query parameter goes by its alias, or else by
    its own name; a header or a cookie by the name the marker gives. *)
Definition asked (n : str) f : str :=
  match fkind f, alias f with
  | QueryParam, None => n
  | QueryParam, Some a => if seqb a [] then n else a
  | _, _ => wire_name f
  end.
Definition sent r (n : str) f : list str :=
  match fkind f with
  | QueryParam => query_values r (asked n f)
  | HeaderParam => header_values r (asked n f)
  | CookieParam => match cookie_value r (asked n f) with Some t => [t] | None => [] end
  end.
(** The value a marker asks for: cast if it says so. *)
Definition converted (do_cast : C -> V -> casted V) f (x v : V) : Prop :=
  match cast f with Some c => do_cast c x = Cast v | None => v = x end.
(** The value of the parameter: nothing sent is the default, one text is that text, several are a list. *)
Inductive reads (none : V) (of_text : str -> V) (of_texts : list str -> V) (do_cast : C -> V -> casted V) f : list str -> V -> Prop :=
| reads_none : required f = false -> fdefault f = None -> reads none of_text of_texts do_cast f [] none
| reads_default d v : required f = false -> fdefault f = Some d -> converted do_cast f d v -> reads none of_text of_texts do_cast f [] v
| reads_one t v : converted do_cast f (of_text t) v -> reads none of_text of_texts do_cast f [t] v
| reads_many t t' ts v : converted do_cast f (of_texts (t :: t' :: ts)) v -> reads none of_text of_texts do_cast f (t :: t' :: ts) v.
(** What a request is answered with 422 for: a required value that is missing, or one that does not convert. *)
Definition unprocessable (of_text : str -> V) (of_texts : list str -> V) (do_cast : C -> V -> casted V) f (ts : list str) : Prop :=
  match ts with
  | [] => required f = true \/ exists d c, fdefault f = Some d /\ cast f = Some c /\ do_cast c d = BadValue
  | [t] => exists c, cast f = Some c /\ do_cast c (of_text t) = BadValue
  | _ => exists c, cast f = Some c /\ do_cast c (of_texts ts) = BadValue
  end.

(** C91: the levels that may provide a name, from the outermost to the innermost; overrides win over all. *)
Definition levels e : list (dict P) := app_deps e :: include_deps e ++ [route_deps e; overrides e].
Definition ws_levels (own : dict P) e : list (dict P) := app_deps e :: include_deps e ++ [own; route_deps e; overrides e].
(** The innermost level that has the name. *)
Definition innermost (ls : list (dict P)) (n : str) (p : P) : Prop :=
  exists i l, nth_error ls i = Some l /\ dget n l = Some p /\ forall j l', i < j -> nth_error ls j = Some l' -> dget n l' = None.
End Spec.
