(** Model of [Provide] and [wrap_dependency] (lilya/dependencies.py:26-336), for dependencies of
    REQUEST scope (the others go through the scope manager, see ScopeModel).  The parameter markers
    [Resolve] and [Security] (224-232) and map entries that are not [Provide] objects (241-268) are
    left out: routes and applications wrap every entry of [dependencies]. *)
From Verif Require Import PyStr.

(** Values: texts, the request of a number, what a factory returned, and a generator object together
    with the value it yields. *)
Inductive value := VText (s : str) | VRequest (n : nat) | VMade (f : nat) (args : list value) (kwargs : list (str * value)) | VGen (v : value).

(** inspect.signature: a parameter; [Var] is *args or **kwargs. *)
Inductive kind := Plain | Var.
Record param := { a_name : str; a_kind : kind; a_default : bool }.
(** dependencies.py:69-106 [Provide.__init__]: the factory [f], its parameters, the arguments given,
    [use_cache], whether the factory is a class. *)
Record provide := { p_fn : nat; p_params : list param; p_args : list value; p_kwargs : dict value; p_cache : bool; p_class : bool }.
(** What changes: [provided_kwargs], and [_cache] when [_resolved]. *)
Record pstate := { kw : dict value; cached : option value }.
Definition start (provs : list provide) : list pstate := map (fun p => {| kw := p_kwargs p; cached := None |}) provs.

(** A request: its number and what [await request.data()] gives: a mapping, something else that is
    true (a text, bytes, a list), or nothing (an empty body or an exception). *)
Inductive data := DMap (d : dict value) | DOther | DNone.
Record request := { r_id : nat; r_data : data }.

Inductive outcome := Ret (v : value) | AttributeError | Raised.
Fixpoint update {A} (i : nat) (x : A) (l : list A) : list A :=
  match i, l with _, [] => [] | O, _ :: r => x :: r | S j, y :: r => y :: update j x r end.
Definition param_names (p : provide) : list str := map a_name (p_params p).

(** dependencies.py:193-205: values of the body for parameters that are not dependencies are stored
    among the keyword arguments of the provider. *)
Definition from_body (p : provide) (deps : dict nat) (body : dict value) (k : dict value) : dict value :=
  fold_left (fun k e => if smem (fst e) (param_names p) && negb (dmem (fst e) deps) then dset (fst e) (snd e) k else k) body k.

(** dependencies.py:277-303: whether the request is injected, and where. *)
Definition inject_request (p : provide) (k0 : dict value) (req : nat) (kwargs : dict value) : dict value :=
  match p_params p with
  | [] => kwargs
  | first :: more =>
      let yes := if smem (u "request") (param_names p) && negb (dmem (u "request") kwargs) then true
                 else match more with
                      | [] => match a_kind first with Plain => true | Var => false end && negb (a_default first)
                              && match p_args p with [] => true | _ => false end
                              && match k0 with [] => true | _ => false end && negb (dmem (a_name first) kwargs)
                      | _ => false
                      end in
      if yes then dset (a_name first) (VRequest req) kwargs else kwargs
  end.

(** The call of a factory: the user's functions give a value (a generator function gives a generator
    object) or raise. *)
Definition invoke (call : nat -> list value -> dict value -> option value) (p : provide) (kwargs : dict value) : option value :=
  call (p_fn p) (p_args p) kwargs.
Definition remember (p : provide) (i : nat) (v : value) (st : list pstate) : list pstate :=
  if p_cache p then match nth_error st i with Some s => update i {| kw := kw s; cached := Some v |} st | None => st end else st.
(** dependencies.py:317-334: the value a generator yields. *)
Definition yielded (v : value) : value := match v with VGen w => w | _ => v end.

(** dependencies.py:222-271: the loop over the parameters; [res] resolves a nested provider. *)
Fixpoint walk (res : nat -> list pstate -> option (outcome * list pstate * list nat)) (deps : dict nat)
    (l : list param) (kwargs : dict value) (st : list pstate) (log : list nat) : option ((dict value + outcome) * list pstate * list nat) :=
  match l with
  | [] => Some (inl kwargs, st, log)
  | a :: r =>
      match a_kind a with
      | Var => walk res deps r kwargs st log
      | Plain =>
          match dget (a_name a) deps with
          | Some j =>
              match res j st with
              | Some (Ret v, st', log') => walk res deps r (dset (a_name a) v kwargs) st' (log ++ log')
              | Some (e, st', log') => Some (inr e, st', log ++ log')
              | None => None
              end
          | None => walk res deps r kwargs st log
          end
      end
  end.

(** dependencies.py:119-181 [resolve] and 183-336 [_resolve_internal].  [provs] are all providers, by
    number; [deps] is the map from names to providers.  [fuel] bounds the depth; [None] is running
    out of it (a RecursionError).  The result has the new state and the numbers of the providers
    whose factories were called and returned, in order. *)
Fixpoint resolve (fuel : nat) (call : nat -> list value -> dict value -> option value) (provs : list provide) (deps : dict nat)
    (rq : request) (i : nat) (st : list pstate) : option (outcome * list pstate * list nat) :=
  match fuel with
  | O => None
  | S f =>
      match nth_error provs i, nth_error st i with
      | Some p, Some s =>
          match (if p_cache p then cached s else None) with
          | Some v => Some (Ret v, st, [])
          | None =>
              match match p_params p with [] => DNone | _ => r_data rq end with
              | DOther => Some (AttributeError, st, [])
              | d =>
                  let k := match d with DMap body => from_body p deps body (kw s) | _ => kw s end in
                  let st1 := update i {| kw := k; cached := cached s |} st in
                  if match p_args p, k with [], [] => p_class p | _, _ => true end then
                    match invoke call p k with
                    | Some v => Some (Ret v, remember p i v st1, [i])
                    | None => Some (Raised, st1, [])
                    end
                  else
                    match walk (fun j st => resolve f call provs deps rq j st) deps (p_params p) [] st1 [] with
                    | Some (inl kwargs, st2, log) =>
                        match invoke call p (inject_request p k (r_id rq) kwargs) with
                        | Some v => Some (Ret (yielded v), remember p i v st2, log ++ [i])
                        | None => Some (Raised, st2, log)
                        end
                    | Some (inr e, st2, log) => Some (e, st2, log)
                    | None => None
                    end
              end
          end
      | _, _ => None
      end
  end.

(** A history: requests one after another, each resolving a provider. *)
Fixpoint history (fuel : nat) call provs deps (hs : list (request * nat)) (st : list pstate) : option (list outcome * list pstate * list nat) :=
  match hs with
  | [] => Some ([], st, [])
  | (rq, i) :: r =>
      match resolve fuel call provs deps rq i st with
      | Some (o, st1, l1) => match history fuel call provs deps r st1 with
                             | Some (os, st2, l2) => Some (o :: os, st2, l1 ++ l2)
                             | None => None
                             end
      | None => None
      end
  end.

(** dependencies.py:26-53 [wrap_dependency] for values: an lru_cache of 1024 entries, whose keys are
    compared with Python's ==.  [None] is the TypeError for a value that cannot be hashed. *)
Inductive const := KNone | KBool (b : bool) | KInt (z : Z) | KText (s : str) | KList (l : list Z).
Definition num (c : const) : option Z := match c with KBool b => Some (if b then 1 else 0)%Z | KInt z => Some z | _ => None end.
Definition py_eq (a b : const) : bool :=
  match num a, num b with
  | Some x, Some y => Z.eqb x y
  | None, None => match a, b with KNone, KNone => true | KText s, KText t => seqb s t | _, _ => false end
  | _, _ => false
  end.
Fixpoint take_out (c : const) (cache : list (const * const)) : option ((const * const) * list (const * const)) :=
  match cache with
  | [] => None
  | e :: r => if py_eq c (fst e) then Some (e, r) else match take_out c r with Some (x, r') => Some (x, e :: r') | None => None end
  end.
Definition maxsize : nat := N.to_nat 1024.
(** The most recently used entry comes first; the constant that resolving the provider gives. *)
Definition wrap_constant (c : const) (cache : list (const * const)) : option (const * list (const * const)) :=
  match c with
  | KList _ => None
  | _ => match take_out c cache with
         | Some (e, r) => Some (snd e, e :: r)
         | None => Some (c, firstn maxsize ((c, c) :: cache))
         end
  end.
