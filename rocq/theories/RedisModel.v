(** Model of [RedisCache] (lilya/caches/redis.py) over JSON values. *)
From Verif Require Import PyStr Utf8 JsonSpec JsonModel CacheModel.

(** A client of redis-py: its number, and the event loop its connections were opened in.  redis-py opens a
    connection on the first command and keeps it in the pool of the client; the streams of a connection
    belong to the loop that opened it, and another loop that uses them gets an exception.  redis.py makes
    a client only to give it a command at once, so a client belongs to the loop that made it. *)
Record client := { c_number : nat; c_loop : nat }.
(** The server holds, for a key, bytes and the millisecond the key expires at.  The registry of redis.py:48
    maps identities of loops to clients.  [made] clients were made, [closed] are closed. *)
Record world := { server : dict (str * option Z); registry : list (N * client); made : nat; closed : list nat }.
Definition empty : world := {| server := []; registry := []; made := 0; closed := [] |}.
(** What a call of the cache gives. *)
Inductive answer := Value (v : jvalue) | Done | Error.

(** The server: GET does not find a key from the moment it expires on, and forgets it then. *)
Definition srv_get (now : Z) (key : str) (s : dict (str * option Z)) : dict (str * option Z) * option str :=
  match dget key s with
  | None => (s, None)
  | Some (data, e) => if match e with Some e' => (e' <=? now)%Z | None => false end then (ddel key s, None) else (s, Some data)
  end.
(** SETEX refuses a lifetime that is not positive. *)
Definition srv_setex (now : Z) (key : str) (ttl : Z) (data : str) (s : dict (str * option Z)) : option (dict (str * option Z)) :=
  if (ttl <=? 0)%Z then None else Some (dset key (data, Some (now + ttl * 1000)%Z) s).
Definition srv_set (key data : str) (s : dict (str * option Z)) : dict (str * option Z) := dset key (data, None) s.

Section Redis.
(** [id(loop)]: two loops that live at different times may have the same. *)
Variable ident : nat -> N.
Fixpoint registered (i : N) (r : list (N * client)) : option client :=
  match r with [] => None | (j, c) :: r' => if N.eqb i j then Some c else registered i r' end.
(** redis.py:50-67 [async_client] in the running loop. *)
Definition async_client (loop : nat) (w : world) : client * world :=
  match registered (ident loop) (registry w) with
  | Some c => (c, w)
  | None =>
      let c := {| c_number := made w; c_loop := loop |} in
      (c, {| server := server w; registry := registry w ++ [(ident loop, c)]; made := S (made w); closed := closed w |})
  end.
Definition with_server (w : world) (s : dict (str * option Z)) : world :=
  {| server := s; registry := registry w; made := made w; closed := closed w |}.
(** redis.py:89-99 [get]. *)
Definition redis_get (loop : nat) (now : Z) (key : str) (w : world) : world * answer :=
  let (c, w1) := async_client loop w in
  if Nat.eqb (c_loop c) loop then
    let (s, found) := srv_get now key (server w1) in
    (with_server w1 s,
     match found with
     | Some data => match loads_bytes data with Some v => Value v | None => Error end
     | None => Value JNull
     end)
  else (w1, Error).
(** redis.py:101-117 [set]: [if ttl]. *)
Definition redis_set (loop : nat) (now : Z) (key : str) (v : jvalue) (ttl : option Z) (w : world) : world * answer :=
  match json_body v with
  | None => (w, Error)
  | Some data =>
      let (c, w1) := async_client loop w in
      if Nat.eqb (c_loop c) loop then
        match (match ttl with Some d => if Z.eqb d 0 then None else Some d | None => None end) with
        | Some d => match srv_setex now key d data (server w1) with Some s => (with_server w1 s, Done) | None => (w1, Error) end
        | None => (with_server w1 (srv_set key data (server w1)), Done)
        end
      else (w1, Error)
  end.
(** redis.py:119-125 [delete]. *)
Definition redis_delete (loop : nat) (key : str) (w : world) : world * answer :=
  let (c, w1) := async_client loop w in
  if Nat.eqb (c_loop c) loop then (with_server w1 (ddel key (server w1)), Done) else (w1, Error).
(** redis.py:127-135 [close]: the first client that cannot be closed ends it. *)
Fixpoint close_all (loop : nat) (r : list (N * client)) (done : list nat) : list nat * bool :=
  match r with
  | [] => (done, true)
  | (_, c) :: r' => if Nat.eqb (c_loop c) loop then close_all loop r' (done ++ [c_number c]) else (done, false)
  end.
Definition redis_close (loop : nat) (w : world) : world * answer :=
  let (done, fine) := close_all loop (registry w) (closed w) in
  if fine then ({| server := server w; registry := []; made := made w; closed := done |}, Done)
  else ({| server := server w; registry := registry w; made := made w; closed := done |}, Error).
(** A call in a loop at a time.  redis.py:137-182: the synchronous methods make the same calls in a loop of
    their own, made for the call and closed after it. *)
Definition redis_call (e : nat * (Z * cop jvalue)) (w : world) : world * answer :=
  let '(loop, (now, o)) := e in
  match o with
  | CSet k v ttl => redis_set loop now k v ttl w
  | CGet k => redis_get loop now k w
  | CDelete k => redis_delete loop k w
  end.
Fixpoint redis_run (h : list (nat * (Z * cop jvalue))) (w : world) : world * list answer :=
  match h with
  | [] => (w, [])
  | e :: r => let (w1, a) := redis_call e w in let (w2, as_) := redis_run r w1 in (w2, a :: as_)
  end.
End Redis.
