(** Model of dependencies without a request: [Depends], [inject] (lilya/dependencies.py:595-1022) and the instances
    kept by [scope_manager] (lilya/_internal/_scopes.py). *)
From Verif Require Import PyStr.

Section Inj.
Context {V : Type}.
(** dependencies.py:608-652: a marker. Its [scope] is that of a call, of the application or global. *)
Inductive life := PerCall | PerApp | Global.
Record marker := { m_fun : nat; m_args : list V; m_kwargs : dict V; m_cache : bool; m_life : life }.
(** A parameter of a function: required, with a default value, with a marker as default, or [*args]/[**kwargs]. *)
Inductive param := Required | Default (v : V) | Marked (m : nat) | Variadic.
(** An entry of [dependencies_map]: a value, a function that is not a marker, or a marker; a replacement in
    [overrides]: a function or a static value. *)
Inductive entry := EValue (v : V) | EFun (f : nat) | EMarker (m : nat).
Inductive target := TFun (f : nat) | TValue (v : V).
(** The markers and functions of the program by number.  The number of a marker is its identity: [Depends] gives the
    same marker for equal arguments (dependencies.py:809-856).  [call]: what a call returns, [None] when it raises; for
    a generator function the value it yields first (876-928, see ScopeModel).  Functions are taken to be functions of
    their arguments. *)
Context (markers : nat -> marker) (sig : nat -> list (str * param)) (is_class : nat -> bool) (call : nat -> list V -> dict V -> option V).

(** What outlives a resolution: the values of markers, the instances of [scope_manager], and a log of all calls. *)
Record state := { kept : nat -> option V; shared : life -> nat -> option V; calls : list (nat * list V * dict V) }.
Definition fresh : state := {| kept := fun _ => None; shared := fun _ _ => None; calls := [] |}.
Definition keep (m : nat) (v : V) (s : state) : state :=
  {| kept := fun m' => if Nat.eqb m' m then Some v else kept s m'; shared := shared s; calls := calls s |}.
Definition life_eqb (a b : life) : bool := match a, b with PerCall, PerCall | PerApp, PerApp | Global, Global => true | _, _ => false end.
Definition share (l : life) (f : nat) (v : V) (s : state) : state :=
  {| kept := kept s; shared := fun l' f' => if life_eqb l' l && Nat.eqb f' f then Some v else shared s l' f'; calls := calls s |}.
(** The outcome: a value; an exception of a function, or a TypeError; the RuntimeError of an unknown parameter; or
    endless recursion. *)
Inductive res := Val (v : V) | Raises | Unresolved | TooDeep.

Section Resolve.
Context (overrides : list (nat * target)) (mapping : dict entry).
(** [overrides.get(f, f)]. *)
Definition override (f : nat) : target :=
  match List.find (fun p => Nat.eqb (fst p) f) overrides with Some (_, t) => t | None => TFun f end.
(** dependencies.py:858-873 [_maybe_call_async]; a static value cannot be called. *)
Definition invoke (s : state) (t : target) (args : list V) (kwargs : dict V) : state * res :=
  match t with
  | TFun g =>
      let s := {| kept := kept s; shared := shared s; calls := calls s ++ [(g, args, kwargs)] |} in
      match call g args kwargs with Some v => (s, Val v) | None => (s, Raises) end
  | TValue _ => (s, Raises)
  end.
(** dependencies.py:741-777: the loop over the parameters; [go] resolves a marker. *)
Fixpoint fill (go : state -> nat -> state * res) (s : state) (ps : list (str * param)) (kwargs : dict V) : state * (dict V + res) :=
  match ps with
  | [] => (s, inl kwargs)
  | (_, Variadic) :: r => fill go s r kwargs
  | (n, Marked m) :: r =>
      match go s m with (s1, Val v) => fill go s1 r (dset n v kwargs) | (s1, e) => (s1, inr e) end
  | (n, p) :: r =>
      match dget n mapping with
      | Some (EMarker m) => match go s m with (s1, Val v) => fill go s1 r (dset n v kwargs) | (s1, e) => (s1, inr e) end
      | Some (EFun f) => match invoke s (TFun f) [] [] with (s1, Val v) => fill go s1 r (dset n v kwargs) | (s1, e) => (s1, inr e) end
      | Some (EValue v) => fill go s r (dset n v kwargs)
      | None => match p with Default v => fill go s r (dset n v kwargs) | _ => (s, inr Unresolved) end
      end
  end.
(** dependencies.py:717-792 [_resolve_internal]. *)
Definition explicit (k : marker) : bool :=
  negb (Nat.eqb (length (m_args k)) 0) || negb (Nat.eqb (length (m_kwargs k)) 0) || is_class (m_fun k).
Definition internal (go : state -> nat -> state * res) (s : state) (m : nat) : state * res :=
  let k := markers m in
  let done sr := match sr with (s1, Val v) => (if m_cache k then keep m v s1 else s1, Val v) | x => x end in
  if explicit k then done (invoke s (override (m_fun k)) (m_args k) (m_kwargs k))
  else match fill go s (sig (m_fun k)) [] with
       | (s1, inl kwargs) => done (invoke s1 (override (m_fun k)) [] kwargs)
       | (s1, inr e) => (s1, e)
       end.
(** dependencies.py:668-715 [resolve]; [n] bounds the depth of calls. *)
Fixpoint resolve (n : nat) (s : state) (m : nat) : state * res :=
  match n with
  | 0 => (s, TooDeep)
  | S n =>
      let k := markers m in
      match (if m_cache k then kept s m else None) with
      | Some v => (s, Val v)
      | None =>
          match m_life k with
          | PerCall => internal (resolve n) s m
          | l =>
              match shared s l (m_fun k) with
              | Some v => (s, Val v)
              | None => match internal (resolve n) s m with (s1, Val v) => (share l (m_fun k) v s1, Val v) | x => x end
              end
          end
      end
  end.

(** dependencies.py:931-1022 [inject]: [bound] are the arguments that the caller gives, by the names of the
    parameters; the result is what the function is called with. *)
Fixpoint injected (n : nat) (s : state) (ps : list (str * param)) (bound : dict V) : state * (dict V + res) :=
  match ps with
  | [] => (s, inl bound)
  | (name, p) :: r =>
      if dmem name bound then injected n s r bound
      else match p with
           | Marked m => match resolve n s m with (s1, Val v) => injected n s1 r (dset name v bound) | (s1, e) => (s1, inr e) end
           | Default v => injected n s r (dset name v bound)
           | _ => (s, inr Unresolved)
           end
  end.
End Resolve.

(** A history of resolutions, each with its own overrides and mapping. *)
Fixpoint history (n : nat) (s : state) (h : list (list (nat * target) * dict entry * nat)) : state * list res :=
  match h with
  | [] => (s, [])
  | (ov, dm, m) :: r =>
      let '(s1, x) := resolve ov dm n s m in let '(s2, xs) := history n s1 r in (s2, x :: xs)
  end.
End Inj.
Arguments marker V : clear implicits.
Arguments param V : clear implicits.
Arguments entry V : clear implicits.
Arguments target V : clear implicits.
Arguments state V : clear implicits.
Arguments res V : clear implicits.
