(** What a marker means, without anything kept from before. *)
From Verif Require Import PyStr InjModel.

Section Inj.
Context {V : Type} (markers : nat -> marker V) (sig : nat -> list (str * param V)) (is_class : nat -> bool) (call : nat -> list V -> dict V -> option V).
Context (overrides : list (nat * target V)) (mapping : dict (entry V)).
(** The function that stands for [f]: the first replacement listed for it, or itself. *)
Inductive stands : list (nat * target V) -> nat -> nat -> Prop :=
| s_none f : stands [] f f
| s_first f g r : stands ((f, TFun g) :: r) f g
| s_later f g f' t r : f' <> f -> stands r f g -> stands ((f', t) :: r) f g.
(** A marker means [v]: what its function, or the function that stands for it, gives for the arguments of the
    marker or, if it has none, for what its parameters are filled with. *)
Inductive means : nat -> V -> Prop :=
| m_given m g v : m_args (markers m) <> [] \/ m_kwargs (markers m) <> [] \/ is_class (m_fun (markers m)) = true ->
    stands overrides (m_fun (markers m)) g -> call g (m_args (markers m)) (m_kwargs (markers m)) = Some v -> means m v
| m_filled m g kwargs v : m_args (markers m) = [] -> m_kwargs (markers m) = [] -> is_class (m_fun (markers m)) = false ->
    fills (sig (m_fun (markers m))) kwargs ->
    stands overrides (m_fun (markers m)) g -> call g [] kwargs = Some v -> means m v
with fills : list (str * param V) -> dict V -> Prop :=
| f_end : fills [] []
| f_variadic n r kw : fills r kw -> fills ((n, Variadic) :: r) kw
| f_marked n m v r kw : means m v -> fills r kw -> fills ((n, Marked m) :: r) ((n, v) :: kw)
| f_mapped n p e v r kw : p <> Variadic -> (forall m, p <> Marked m) -> dget n mapping = Some e -> entry_is e v -> fills r kw -> fills ((n, p) :: r) ((n, v) :: kw)
| f_default n v r kw : dget n mapping = None -> fills r kw -> fills ((n, Default v) :: r) ((n, v) :: kw)
with entry_is : entry V -> V -> Prop :=
| e_value v : entry_is (EValue v) v
| e_fun f v : call f [] [] = Some v -> entry_is (EFun f) v
| e_marker m v : means m v -> entry_is (EMarker m) v.

(** What a function with injected arguments is to be called with: what the caller gives, else what the marker means,
    else the default; nothing for variadic parameters. *)
Definition argument (bound : dict V) (p : str * param V) (o : option V) : Prop :=
  match dget (fst p) bound, snd p with
  | Some v, _ => o = Some v
  | None, Marked m => exists v, o = Some v /\ means m v
  | None, Default v => o = Some v
  | None, Variadic => o = None
  | None, Required => False
  end.
End Inj.
