(** Model of lilya/datastructures.py:272-310 (State) and of lilya/_internal/_connection.py:108-113, the
    state of a connection.  Python objects that are shared are cells of a heap. *)
From Verif Require Import PyStr.

(** What is stored: a dict (its place in the heap), or a value that is neither a dict nor callable. *)
Inductive val := Plain (x : N) | DictAt (p : nat).

(** The dicts; the dict of each State made by hand; for each scope its entry "state"; for each
    connection its scope and the dict of its cached State (_connection.py:59, 110). *)
Record world := World {
  dicts : list (dict val);
  objs : list nat;
  scopes : list (option nat);
  conns : list (nat * option nat)
}.
Definition empty_world : world := World [] [] [] [].

(** [state] for [state = State()] and [connection.state]. *)
Inductive handle := Own (i : nat) | Conn (c : nat).

Inductive op :=
| OScope (init : option (list (str * val)))   (* a server makes a scope, with or without "state" *)
| OConn (s : nat)                             (* a request or websocket over scope number s *)
| ONew                                        (* State() *)
| OSet (h : handle) (k : str) (v : val)       (* setattr(state, k, v) *)
| OGet (h : handle) (k : str)                 (* getattr(state, k) *)
| OItem (h : handle) (k : str)                (* state[k] *)
| ODel (h : handle) (k : str)                 (* delattr(state, k) *)
| OLen (h : handle)                           (* len(state) *)
| OCopy (h : handle).                         (* state.copy() *)

(** What an operation gives.  [ROwn i]: the new State is number [i].  [RClass]: something of the class,
    such as a method.  [RAbsent]: there is no such object to work on. *)
Inductive out := RNone | RVal (v : val) | RLen (n : nat) | ROwn (i : nat) | RClass
  | RAttributeError | RKeyError | RTypeError | RAbsent.

Fixpoint upd {A} (n : nat) (x : A) (l : list A) : list A :=
  match l, n with
  | [], _ => []
  | _ :: r, 0 => x :: r
  | y :: r, S m => y :: upd m x r
  end.

(** The dict behind a State; for a connection _connection.py:108-113: the cached State, or a State over the
    scope's "state", which is put there if it is missing. *)
Definition locate (w : world) (h : handle) : world * option nat :=
  match h with
  | Own i => (w, nth_error (objs w) i)
  | Conn c =>
      match nth_error (conns w) c with
      | None => (w, None)
      | Some (_, Some p) => (w, Some p)
      | Some (s, None) =>
          match nth_error (scopes w) s with
          | None => (w, None)
          | Some (Some p) => (World (dicts w) (objs w) (scopes w) (upd c (s, Some p) (conns w)), Some p)
          | Some None =>
              let p := length (dicts w) in
              (World (dicts w ++ [[]]) (objs w) (upd s (Some p) (scopes w)) (upd c (s, Some p) (conns w)), Some p)
          end
      end
  end.
Definition the_dict (w : world) (p : nat) : dict val := nth p (dicts w) [].
Definition set_dict (w : world) (p : nat) (d : dict val) : world :=
  World (upd p d (dicts w)) (objs w) (scopes w) (conns w).

(** What [object.__getattribute__] finds in the class: datastructures.py:272-310 and [object]. *)
Definition class_names : list str :=
  [u "copy"; u "_state"; u "__init__"; u "__setattr__"; u "__getattribute__"; u "__delattr__"; u "__copy__"; u "__len__";
   u "__getitem__"; u "__class__"; u "__dict__"; u "__doc__"; u "__module__"; u "__weakref__"; u "__annotations__";
   u "__new__"; u "__repr__"; u "__str__"; u "__hash__"; u "__eq__"; u "__ne__"; u "__lt__"; u "__le__"; u "__gt__";
   u "__ge__"; u "__format__"; u "__sizeof__"; u "__reduce__"; u "__reduce_ex__"; u "__getstate__"; u "__dir__";
   u "__init_subclass__"; u "__subclasshook__"].
(** datastructures.py:289-295 [__getattribute__]. *)
Definition get_attribute (w : world) (p : nat) (k : str) : out :=
  match dget k (the_dict w p) with
  | Some v => RVal v
  | None => if seqb k (u "_state") then RVal (DictAt p) else if smem k class_names then RClass else RAttributeError
  end.
(** [self._state] in the methods of lines 297-307. *)
Definition own_state (w : world) (p : nat) : option nat :=
  match get_attribute w p (u "_state") with RVal (DictAt q) => Some q | _ => None end.

(** 286-287 [__setattr__], 289-295, 297-298 [__delattr__], 300-301 [__copy__], 303-304 [__len__], 306-307
    [__getitem__], 309-310 [copy].  A value that is no dict in the place of "_state" makes TypeErrors. *)
Definition on_state (w : world) (p : nat) (o : op) : world * out :=
  match o with
  | OSet _ k v => (set_dict w p (dset k v (the_dict w p)), RNone)
  | OGet _ k => (w, get_attribute w p k)
  | OItem _ k =>
      (w, match own_state w p with
          | None => RTypeError
          | Some q => match dget k (the_dict w q) with Some v => RVal v | None => RKeyError end
          end)
  | ODel _ k =>
      match own_state w p with
      | None => (w, RTypeError)
      | Some q => if dmem k (the_dict w q) then (set_dict w q (ddel k (the_dict w q)), RNone) else (w, RKeyError)
      end
  | OLen _ => (w, match own_state w p with None => RTypeError | Some q => RLen (length (the_dict w q)) end)
  | OCopy _ =>
      match get_attribute w p (u "copy"), get_attribute w p (u "__class__"), own_state w p with
      | RClass, RClass, Some q =>
          (World (dicts w ++ [the_dict w q]) (objs w ++ [length (dicts w)]) (scopes w) (conns w), ROwn (length (objs w)))
      | _, _, _ => (w, RTypeError)
      end
  | _ => (w, RAbsent)
  end.

Definition step (w : world) (o : op) : world * out :=
  match o with
  | OScope None => (World (dicts w) (objs w) (scopes w ++ [None]) (conns w), RNone)
  | OScope (Some l) =>
      (World (dicts w ++ [dupdate [] l]) (objs w) (scopes w ++ [Some (length (dicts w))]) (conns w), RNone)
  | OConn s =>
      if s <? length (scopes w)
      then (World (dicts w) (objs w) (scopes w) (conns w ++ [(s, None)]), RNone)
      else (w, RAbsent)
  | ONew => (World (dicts w ++ [[]]) (objs w ++ [length (dicts w)]) (scopes w) (conns w), ROwn (length (objs w)))
  | OSet h _ _ | OGet h _ | OItem h _ | ODel h _ | OLen h | OCopy h =>
      match locate w h with
      | (w1, Some p) => on_state w1 p o
      | (w1, None) => (w1, RAbsent)
      end
  end.
Fixpoint run (w : world) (ops : list op) : list out :=
  match ops with
  | [] => []
  | o :: r => let '(w1, x) := step w o in x :: run w1 r
  end.
