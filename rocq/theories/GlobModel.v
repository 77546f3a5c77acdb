(** Model of [g], the state of a request (lilya/context.py:204-317, apps.py:513-548,
    middleware/global_context.py), with tasks that run at the same time. *)
From Verif Require Import PyStr.

Section Glob.
Context {V : Type}.
(** The context variable (context.py:252-255): never set, set by the application but no state yet ([_G_ACTIVE]), or a
    [G].  A [G] holds a dict and nothing else (context.py:217-220): it is the address of its dict. *)
Inductive gvar := Unset | Active | Ref (a : nat).
(** The dicts, and for each task the values of the variable: the present one first, behind it those that the tokens
    of [set] keep for [reset]. *)
Record state := { heap : list (dict V); vars : nat -> list gvar }.
Definition initial : state := {| heap := []; vars := fun _ => [] |}.
Definition current (s : state) (t : nat) : gvar := match vars s t with v :: _ => v | [] => Unset end.
Definition put {A} (f : nat -> A) (t : nat) (x : A) : nat -> A := fun t' => if Nat.eqb t' t then x else f t'.

(** What [populate_global_context] returns: a new dict, or one there is already. *)
Inductive source := New (d : dict V) | Same (a : nat).
(** What tasks do, one at a time. [Make]: the program makes a dict of its own.  [Spawn p t]: task [p] starts the task
    or thread [t] (a handler that is not a coroutine function runs in one), which gets a copy of its context.
    [Enter]: a request reaches an application, or a child application, or [GlobalContextMiddleware]; [Leave]: it is
    done or has failed. [Write]: [g.k = v]; [Read]: [g.k]; [Item]: [g[k]]; [Delete]: [del g.k]; [Size]: [len(g)]. *)
Inductive event :=
| Make (d : dict V) | Spawn (p t : nat) | Enter (t : nat) (populated : option source) | Leave (t : nat)
| Write (t : nat) (k : str) (v : V) | Read (t : nat) (k : str) | Item (t : nat) (k : str) | Delete (t : nat) (k : str) | Size (t : nat).
Inductive out := Done | LookupErr | Value (v : V) | Method | AttributeErr | KeyErr | Count (n : nat).

Definition alloc (s : state) (d : dict V) : state := {| heap := heap s ++ [d]; vars := vars s |}.
(** context.py:269-277 [_get_or_create_g]. *)
Definition get_or_create (s : state) (t : nat) : option (nat * state) :=
  match current s t with
  | Unset => None
  | Active =>
      let a := length (heap s) in
      Some (a, {| heap := heap s ++ [[]]; vars := put (vars s) t (Ref a :: tl (vars s t)) |})
  | Ref a => Some (a, s)
  end.
Definition contents (s : state) (a : nat) : dict V := nth a (heap s) [].
Fixpoint update (h : list (dict V)) (a : nat) (d : dict V) : list (dict V) :=
  match h, a with
  | [], _ => []
  | _ :: r, 0 => d :: r
  | x :: r, S a => x :: update r a d
  end.
Definition store (s : state) (a : nat) (d : dict V) : state := {| heap := update (heap s) a d; vars := vars s |}.
(** The attributes of the class [G], found before its dict (context.py:215-249).  Names with two underscores at either
    end are left out. *)
Definition attributes : list str := [u "store"; u "copy"; u "clear"; u "_context"].
Definition step (s : state) (e : event) : state * out :=
  let use t f := match get_or_create s t with None => (s, LookupErr) | Some (a, s1) => f a s1 end in
  match e with
  | Make d => (alloc s d, Done)
  | Spawn p t => ({| heap := heap s; vars := put (vars s) t [current s p] |}, Done)
  | Enter t None => ({| heap := heap s; vars := put (vars s) t (Active :: vars s t) |}, Done)
  | Enter t (Some (New d)) => ({| heap := heap s ++ [d]; vars := put (vars s) t (Ref (length (heap s)) :: vars s t) |}, Done)
  | Enter t (Some (Same a)) => ({| heap := heap s; vars := put (vars s) t (Ref a :: vars s t) |}, Done)
  | Leave t => ({| heap := heap s; vars := put (vars s) t (tl (vars s t)) |}, Done)
  | Write t k v => use t (fun a s1 => (store s1 a (dset k v (contents s1 a)), Done))
  | Read t k => use t (fun a s1 =>
      (s1, if smem k attributes then Method else match dget k (contents s1 a) with Some v => Value v | None => AttributeErr end))
  | Item t k => use t (fun a s1 => (s1, match dget k (contents s1 a) with Some v => Value v | None => KeyErr end))
  | Delete t k => use t (fun a s1 =>
      match dget k (contents s1 a) with Some _ => (store s1 a (ddel k (contents s1 a)), Done) | None => (s1, KeyErr) end)
  | Size t => use t (fun a s1 => (s1, Count (length (contents s1 a))))
  end.
Fixpoint run (s : state) (es : list event) : list out :=
  match es with [] => [] | e :: r => snd (step s e) :: run (fst (step s e)) r end.
End Glob.
Arguments event V : clear implicits.
Arguments out V : clear implicits.
Arguments state V : clear implicits.
Arguments source V : clear implicits.
