(** Model of [Context] (lilya/context.py:17-180), the object handlers may ask for, as its instance
    dictionary.  Simplification: no value here is a class or a dictionary, which only matters for keys
    [__class__] and [__dict__]. *)
From Verif Require Import PyStr.

Section Ctx.
Context {V : Type}.
Definition context : Type := dict V.
(** context.py:47-70 [__init__]: the names end in underscores, so they are not mangled. *)
Definition fresh (handler request : V) : context := [(u "__handler__", handler); (u "__request__", request)].
(** What [setattr] refuses: the properties of context.py:72-93 have no setter, and of the three attributes every
    object of a class has, the first cannot be written and the others take a class or a dictionary only. *)
Definition fixed : list str :=
  [u "handler"; u "request"; u "user"; u "settings"; u "scope"; u "app"; u "__weakref__"; u "__class__"; u "__dict__"].
(** context.py:95-136 [add_to_context], apart from its warning; [None] is an exception. *)
Definition add (k : str) (v : V) (c : context) : option context := if smem k fixed then None else Some (dset k v c).
(** context.py:138-147 [get_context_data]. *)
Definition data (c : context) : dict V := filter (fun e => negb (prefixb (u "__") (fst e)) && negb (suffixb (u "__") (fst e))) c.
(** What [context.get_context_data] means: the attribute of the object comes before the method of its class. *)
Inductive meant := TheMethod | TheValue (v : V).
Definition attribute (name : str) (c : context) : meant := match dget name c with Some v => TheValue v | None => TheMethod end.
(** A handler that adds values, whether or not it survives an exception in between. *)
Definition adds (l : list (str * V)) (c : context) : context :=
  fold_left (fun c e => match add (fst e) (snd e) c with Some c' => c' | None => c end) l c.
End Ctx.
Arguments context : clear implicits.
Arguments meant : clear implicits.
