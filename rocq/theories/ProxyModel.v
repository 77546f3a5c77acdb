(** Model of the proxies of the logger and of the serializer (lilya/logging.py:12-31,
    lilya/serializers.py:10-31) used by any number of threads; a step is one access to the attribute or to
    the lock.  The lookup of the attribute on what the proxy stands for is not modelled. *)
From Verif Require Import PyStr.

Inductive kind := Logger | Serializer.
(** What a proxy may stand for: what the default setup makes, or what the user gives. *)
Inductive obj := Default | Custom (n : nat).
Inductive pop := Use | Bind (o : option obj).
(** What happened: a setup of the default began; the default, or what a bind gives, was put in place; a use
    got what was in place. *)
Inductive event := ESetup (t : nat) | EDefault (t : nat) | EBind (t : nat) (o : option obj) | EGot (t : nat) (o : option obj).
(** Where a thread is, between its operations or in one. *)
Inductive pc := Idle | ULock | UCheck | USetup | SLock | SWrite | SRel | UGet | UDone | URel | URead | BLock (o : option obj) | BWrite (o : option obj) | BRel.
(** The attribute [_logger] or [_serializer], the reentrant lock, and the threads. *)
Record state := { cur : option obj; owner : option nat; depth : nat; at_ : nat -> pc; todo : nat -> list pop; trace : list event }.
Definition start (progs : nat -> list pop) : state :=
  {| cur := None; owner := None; depth := 0; at_ := fun _ => Idle; todo := progs; trace := [] |}.

Section Proxy.
Variable k : kind.
(** A custom logger may be false, as an object with a length is when it is empty. *)
Variable falsy : nat -> bool.
(** logging.py:27, 30: [not self._logger]; serializers.py:26, 28: [is None]. *)
Definition missing (o : option obj) : bool :=
  match o, k with
  | None, _ => true
  | Some (Custom n), Logger => falsy n
  | Some _, _ => false
  end.
Definition upd {A} (f : nat -> A) (t : nat) (x : A) : nat -> A := fun i => if Nat.eqb i t then x else f i.
Definition go (s : state) (t : nat) (p : pc) : state :=
  {| cur := cur s; owner := owner s; depth := depth s; at_ := upd (at_ s) t p; todo := todo s; trace := trace s |}.
Definition note (s : state) (e : event) : state :=
  {| cur := cur s; owner := owner s; depth := depth s; at_ := at_ s; todo := todo s; trace := trace s ++ [e] |}.
Definition put (s : state) (o : option obj) : state :=
  {| cur := o; owner := owner s; depth := depth s; at_ := at_ s; todo := todo s; trace := trace s |}.
(** [threading.RLock]: [None] when another thread has it. *)
Definition acquire (s : state) (t : nat) : option state :=
  match owner s with
  | None => Some {| cur := cur s; owner := Some t; depth := 1; at_ := at_ s; todo := todo s; trace := trace s |}
  | Some t' => if Nat.eqb t t' then Some {| cur := cur s; owner := Some t; depth := S (depth s); at_ := at_ s; todo := todo s; trace := trace s |} else None
  end.
Definition release (s : state) : state :=
  {| cur := cur s; owner := if Nat.eqb (depth s) 1 then None else owner s; depth := pred (depth s); at_ := at_ s; todo := todo s; trace := trace s |}.
(** One step of a thread, or none if it has nothing to do or waits.
    logging.py:20-22 and serializers.py:18-20 [bind_...]: [BLock], [BWrite], [BRel].
    logging.py:24-31 [__getattr__]: the first look, [ULock], [UCheck], the setup, [URel], [URead].
    serializers.py:22-29 [__getattr__]: the first look, [ULock], [UCheck], the setup, [UGet], [UDone].
    logging.py:131-163 and serializers.py:121-157 [setup_...] without a configuration: [USetup], then the
    bind again: [SLock], [SWrite], [SRel]. *)
Definition step (t : nat) (s : state) : option state :=
  match at_ s t with
  | Idle =>
      match todo s t with
      | [] => None
      | o :: r =>
          let s := {| cur := cur s; owner := owner s; depth := depth s; at_ := at_ s; todo := upd (todo s) t r; trace := trace s |} in
          match o with
          | Bind x => Some (go s t (BLock x))
          | Use =>
              if missing (cur s) then Some (go s t ULock)
              else match k with
                   | Logger => Some (go s t URead)
                   | Serializer => Some (note s (EGot t (cur s)))
                   end
          end
      end
  | BLock x => option_map (fun s => go s t (BWrite x)) (acquire s t)
  | BWrite x => Some (go (note (put s x) (EBind t x)) t BRel)
  | BRel => Some (go (release s) t Idle)
  | ULock => option_map (fun s => go s t UCheck) (acquire s t)
  | UCheck => Some (go s t (if missing (cur s) then USetup else match k with Logger => URel | Serializer => UGet end))
  | USetup => Some (go (note s (ESetup t)) t SLock)
  | SLock => option_map (fun s => go s t SWrite) (acquire s t)
  | SWrite => Some (go (note (put s (Some Default)) (EDefault t)) t SRel)
  | SRel => Some (go (release s) t (match k with Logger => URel | Serializer => UGet end))
  | UGet => Some (go (note s (EGot t (cur s))) t UDone)
  | UDone => Some (go (release s) t Idle)
  | URel => Some (go (release s) t URead)
  | URead => Some (go (note s (EGot t (cur s))) t Idle)
  end.
(** A schedule; a thread that cannot move is passed over. *)
Fixpoint run (sched : list nat) (s : state) : state :=
  match sched with
  | [] => s
  | t :: r => run r (match step t s with Some s' => s' | None => s end)
  end.
End Proxy.
