(** Model of the command and query buses (lilya/contrib/cqrs/bus.py, registry.py). *)
From Verif Require Import PyStr.

Section Bus.
(** Messages, results, exceptions and handlers; [kind] is [type(message)], [None] for the message None; the
    call of a handler returns or raises. *)
Context {Msg Res Exn Hnd : Type} (kind : Msg -> option nat) (handle : Hnd -> Msg -> Res + Exn).
(** A middleware, given a message: it returns, raises, or calls [next] with a message and goes on with what
    comes back. *)
Inductive prog := Ret (v : Res) | Err (e : Exn) | Next (m : Msg) (k : Res + Exn -> prog).
Definition middleware := Msg -> prog.
(** The calls that are made: of the middleware at a position, of a handler, and the ends of the former. *)
Inductive called := Enter (i : nat) (m : Msg) | Handles (h : Hnd) (m : Msg) | Leave (i : nat).
Fixpoint run_prog (p : prog) (next : Msg -> list called * (Res + Exn)) : list called * (Res + Exn) :=
  match p with
  | Ret v => ([], inl v)
  | Err e => ([], inr e)
  | Next m k => let (t, r) := next m in let (t', r') := run_prog (k r) next in (t ++ t', r')
  end.
(** bus.py:64-73 [run_chain]. *)
Fixpoint run_chain (i : nat) (mws : list middleware) (h : Hnd) (m : Msg) : list called * (Res + Exn) :=
  match mws with
  | [] => ([Handles h m], handle h m)
  | mw :: r => let (t, res) := run_prog (mw m) (run_chain (S i) r h) in ([Enter i m] ++ t ++ [Leave i], res)
  end.

(** registry.py:26. *)
Definition registry := list (nat * Hnd).
Fixpoint rget (k : nat) (r : registry) : option Hnd := match r with [] => None | (j, h) :: r => if Nat.eqb j k then Some h else rget k r end.
Inductive failure := AlreadyRegistered | NotFound | InvalidMessage.
(** registry.py:28-41 [register]. *)
Definition register (k : nat) (h : Hnd) (r : registry) : registry * option failure :=
  match rget k r with Some _ => (r, Some AlreadyRegistered) | None => (r ++ [(k, h)], None) end.
(** bus.py:120-146 [dispatch] and 187-210 [ask]: the calls, and the result or an exception of its own. *)
Definition ask (mws : list middleware) (r : registry) (m : Msg) : list called * ((Res + Exn) + failure) :=
  match kind m with
  | None => ([], inr InvalidMessage)
  | Some k => match rget k r with
              | None => ([], inr NotFound)
              | Some h => let (t, res) := run_chain 0 mws h m in (t, inl res)
              end
  end.
Definition dispatch (mws : list middleware) (r : registry) (m : Msg) : list called * ((unit + Exn) + failure) :=
  let (t, res) := ask mws r m in (t, match res with inl (inl _) => inl (inl tt) | inl (inr e) => inl (inr e) | inr f => inr f end).
(** registry.py:61-67 [clear]. *)
Inductive bop := Register (k : nat) (h : Hnd) | ClearAll.
Definition bus_step (r : registry) (o : bop) : registry := match o with Register k h => fst (register k h r) | ClearAll => [] end.
Definition bus_run (os : list bop) : registry := fold_left bus_step os [].
End Bus.
Arguments prog : clear implicits.
Arguments called : clear implicits.
Arguments bop : clear implicits.
