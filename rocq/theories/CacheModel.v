(** Model of [InMemoryCache] (lilya/caches/memory.py). *)
From Verif Require Import PyStr.

Section Cache.
(** Values, their serialised form (json_encode, which may raise) and serializer.loads. *)
Context {V : Type} (dumps : V -> option str) (loads : str -> option V).
(** memory.py:28: data and expiry of a key; times are in a fixed unit. *)
Definition store := dict (str * option Z).
(** memory.py:122-136 [sync_delete]. *)
Definition cache_delete (key : str) (s : store) : store := ddel key s.
(** memory.py:68-97 [sync_get]; [None] is also the result after an exception. *)
Definition cache_get (now : Z) (key : str) (s : store) : store * option V :=
  match dget key s with
  | None => (s, None)
  | Some (data, expiry) =>
      if match expiry with Some e => (e <? now)%Z | None => false end then (cache_delete key s, None)
      else (s, loads data)
  end.
(** memory.py:99-120 [sync_set]; exceptions are logged. *)
Definition cache_set (now : Z) (key : str) (v : V) (ttl : option Z) (s : store) : store :=
  match dumps v with
  | None => s
  | Some data => dset key (data, match ttl with Some t => if Z.eqb t 0 then None else Some (now + t)%Z | None => None end) s
  end.
(** memory.py:30-66: the asynchronous methods call these at once. *)
Inductive cop := CSet (key : str) (v : V) (ttl : option Z) | CGet (key : str) | CDelete (key : str).
Definition cache_step (s : store) (o : Z * cop) : store :=
  match snd o with
  | CSet k v ttl => cache_set (fst o) k v ttl s
  | CGet k => fst (cache_get (fst o) k s)
  | CDelete k => cache_delete k s
  end.
Definition cache_run (os : list (Z * cop)) : store := fold_left cache_step os [].
End Cache.
Arguments cop V : clear implicits.
