(** Model of the [cache] decorator (lilya/decorators.py:93-295) over the in-memory backend of CacheModel
    (lilya/caches/memory.py) and the encoders of EncModel.
    Simplified: values are those of EncModel; [md5] is a parameter; the wrapper's logging is left out. *)
From Verif Require Import PyStr Utf8 JsonModel EncModel CacheModel.
Local Open Scope N_scope.

(** A function object, and what the key uses of it: [__module__], [__qualname__], [__name__], and whether it is a
    bound method ([inspect.ismethod]).  Two functions made by one [def] differ only in [f_id]. *)
Record func := { f_id : nat; f_module : str; f_qual : str; f_name : str; f_bound : bool }.
(** A call: positional and keyword arguments. *)
Definition call : Type := list pv * dict pv.

Section Memo.
(** [hasattr(value, name)], the hexadecimal md5 of a text, and the depth to which json is willing to go. *)
Context (has_attr : pv -> str -> bool) (md5 : str -> str) (depth : nat).

(** decorators.py:104-109 [convert].  [json_encode] returns what json.loads returns: no tuples and no sets. *)
Definition convert (v : pv) : pv := match v with PTuple l => PList l | _ => v end.
(** The JSON of a value that json.loads returned. *)
Fixpoint json_of (v : pv) : jvalue :=
  match v with
  | PBool b => JBool b | PInt z => JInt z | PFloat t => JFloat t | PStr s => JStr s
  | PList l | PTuple l => JArr (map json_of l)
  | PDict l => JObj (map (fun e => (fst e, json_of (snd e))) l)
  | _ => JNull
  end.
Definition encoded (v : pv) : option pv := option_map convert (json_encode DEFAULT_ENCODER_TYPES None false depth v).
(** decorators.py:111-118: is the first argument taken for [self]? *)
Definition bound_method (f : func) (args : list pv) : bool :=
  f_bound f || match args with a :: _ => has_attr a (f_name f) | [] => false end.
Definition encoded_args (f : func) (args : list pv) : list pv := if bound_method f args then tl args else args.
(** decorators.py:120-125: the text that is hashed; [None] when an argument cannot be encoded. *)
Definition key_text (f : func) (c : call) : option str :=
  match all_some (map encoded (encoded_args f (fst c))),
        all_some (map (fun e => match encoded (snd e) with Some v => Some (fst e, v) | None => None end) (snd c)) with
  | Some args, Some kwargs =>
      dumps (JObj [(u "args", JArr (map json_of args)); (u "kwargs", JObj (map (fun e => (fst e, json_of (snd e))) kwargs))])
  | _, _ => None
  end.
(** decorators.py:98-101. *)
Definition key_base (f : func) : str := replace (u ".<locals>.") (u ".") (f_module f ++ u "." ++ f_qual f).
(** decorators.py:93-130 [generate_cache_key]; [None] is an exception. *)
Definition generate_cache_key (f : func) (c : call) : option str :=
  match key_text f c with
  | Some t => match encode t with Some _ => Some (key_base f ++ u ":" ++ md5 t) | None => None end
  | None => None
  end.

(** memory.py:112-115: what is stored for a value; and 88 what comes back. *)
Definition stored (v : pv) : option str :=
  match json_text DEFAULT_ENCODER_TYPES None false depth v with Some t => encode t | None => None end.
Definition restored (b : str) : option pv := option_map back (loads_bytes b).

(** ** The wrappers *)
(** decorators.py:208-225, 250-283 up to the call of the function: [None] when it has to be called.  [ok] is false
    when the backend raises, which is logged. *)
Definition lookup (ok : bool) (now : Z) (key : str) (s : store) : store * option pv :=
  if ok then
    match cache_get restored now key s with
    | (s, Some PNone) => (s, None)                   (* [if cached_value is not None] *)
    | r => r
    end
  else (s, None).
(** decorators.py:219-222, 275-281. *)
Definition keep (ok : bool) (now : Z) (key : str) (v : pv) (ttl : option Z) (s : store) : store :=
  if ok then cache_set stored now key v ttl s else s.
(** decorators.py:162: [ttl or settings.cache_default_ttl]. *)
Definition ttl_of (given : option Z) (default : option Z) : option Z :=
  match given with Some t => if Z.eqb t 0 then default else given | None => default end.

(** *** Any number of overlapping calls of asynchronous functions that share a backend.
    decorators.py:205-226: the lock is made anew for each call, so that it never waits.  A call first looks its key
    up; if it has to run, its end comes as another event, with the value the function returned. *)
Inductive event :=
  | Begins (id : nat) (f : func) (c : call) (now : Z) (ok : bool)
  | Ends (id : nat) (now : Z) (ok : bool) (v : pv)
  | Invalidates (f : func) (c : call) (ok : bool).     (* decorators.py:285-312 [invalidate] *)
(** What an event shows: a call returns a value, starts the function, raises; or nothing. *)
Inductive shown := Returns (f : func) (c : call) (v : pv) | Runs (f : func) (c : call) | Raises | Silent.
Record mstate := { m_store : store; m_running : list (nat * (func * call)) }.
Definition running (id : nat) (l : list (nat * (func * call))) : option (func * call) :=
  option_map snd (List.find (fun e => Nat.eqb (fst e) id) l).
(** [ttl]: the lifetime given to each decorator; [default]: [settings.cache_default_ttl]. *)
Context (ttl : func -> option Z) (default : option Z).
Definition memo_step (m : mstate) (e : event) : mstate * shown :=
  match e with
  | Begins id f c now ok =>
      match generate_cache_key f c with
      | None => (m, Raises)
      | Some k =>
          match lookup ok now k (m_store m) with
          | (s, Some v) => ({| m_store := s; m_running := m_running m |}, Returns f c v)
          | (s, None) => ({| m_store := s; m_running := (id, (f, c)) :: m_running m |}, Runs f c)
          end
      end
  | Ends id now ok v =>
      match running id (m_running m) with
      | Some (f, c) =>
          match generate_cache_key f c with
          | None => (m, Silent)
          | Some k => ({| m_store := keep ok now k v (ttl_of (ttl f) default) (m_store m);
                          m_running := filter (fun e => negb (Nat.eqb (fst e) id)) (m_running m) |}, Returns f c v)
          end
      | None => (m, Silent)
      end
  | Invalidates f c ok =>
      match generate_cache_key f c with
      | None => (m, Raises)
      | Some k => ({| m_store := if ok then cache_delete k (m_store m) else m_store m; m_running := m_running m |}, Silent)
      end
  end.
Definition after (es : list event) : mstate :=
  fold_left (fun m e => fst (memo_step m e)) es {| m_store := []; m_running := [] |}.
(** What an event shows after others. *)
Definition shows (es : list event) (e : event) : shown := snd (memo_step (after es) e).

(** *** Functions that call cached functions.
    A body ends with a value or calls a cached function and goes on with its value. *)
Inductive body := Return (v : pv) | Calls (f : func) (c : call) (next : pv -> body).
Inductive outcome := Gives (v : pv) (s : store) | Raised | Deadlock.
(** Without the decorator.  [n] bounds the depth of calls; [None] when it is not enough. *)
Fixpoint plainly (code : func -> call -> body) (n : nat) (b : body) : option pv :=
  match n with
  | O => None
  | S n =>
      (fix go (b : body) : option pv :=
         match b with
         | Return v => Some v
         | Calls f c next => match plainly code n (code f c) with Some v => go (next v) | None => None end
         end) b
  end.
(** With it, at one instant.  [sync]: decorators.py:250 takes [cache_lock],
    one plain lock for all functions, and holds it while the function runs; taking it again in the same thread waits
    for ever. *)
Fixpoint cached (sync : bool) (code : func -> call -> body) (now : Z) (n : nat) (held : bool) (b : body) (s : store) : option outcome :=
  match n with
  | O => None
  | S n =>
      (fix go (b : body) (s : store) : option outcome :=
         match b with
         | Return v => Some (Gives v s)
         | Calls f c next =>
             match generate_cache_key f c with
             | None => Some Raised
             | Some k =>
                 if held then Some Deadlock
                 else
                   match lookup true now k s with
                   | (s, Some v) => go (next v) s
                   | (s, None) =>
                       match cached sync code now n sync (code f c) s with
                       | Some (Gives v s) => go (next v) (keep true now k v (ttl_of (ttl f) default) s)
                       | o => o
                       end
                   end
             end
         end) b s
  end.
End Memo.
