(** Model of dependency scopes: [PureScope] (lilya/dependencies.py:511-573), the cleanups of requests
    and websockets (lilya/requests.py:75-76, 330-342, lilya/websockets.py:199-205) and [ScopeManager]
    (lilya/_internal/_scopes.py). *)
From Coq Require Import List Arith Lia Bool Permutation.
Import ListNotations.

(** How a cleanup function ends: it returns, it raises an Exception, or it raises something that is
    not an Exception (a cancellation). *)
Inductive fin := Fine | Fails | Cancelled.
(** A cleanup function: running it registers further ones and ends. *)
Inductive cleanup := Cleanup (id : nat) (adds : list cleanup) (ends : fin).

Fixpoint csize (c : cleanup) : nat :=
  match c with Cleanup _ adds _ => S (fold_right (fun a n => csize a + n) 0 adds) end.
Definition ssize (l : list cleanup) : nat := fold_right (fun a n => csize a + n) 0 l.

(** dependencies.py:541-557 [PureScope.aclose]: the loop; the last registered comes first in [stack].
    The result is what ran, what is left registered and whether an error leaves the loop.  [None] is
    running out of fuel, which [pclose] never does. *)
Fixpoint aclose (fuel : nat) (stack : list cleanup) : option (list nat * list cleanup * bool) :=
  match fuel with
  | 0 => None
  | S f =>
      match stack with
      | [] => Some ([], [], false)
      | Cleanup i adds e :: rest =>
          match e with
          | Cancelled => Some ([i], rev adds ++ rest, true)
          | _ => match aclose f (rev adds ++ rest) with
                 | Some (log, kept, x) => Some (i :: log, kept, x)
                 | None => None
                 end
          end
      end
  end.
Definition pclose (stack : list cleanup) : option (list nat * list cleanup * bool) := aclose (S (ssize stack)) stack.

(** The life of a scope: [add_cleanup] (529-539) and [aclose] calls; the state is the stack and the
    cleanups that ran. *)
Inductive pop := PAdd (c : cleanup) | PClose.
Definition pstep (s : list cleanup * list nat) (o : pop) : list cleanup * list nat :=
  match o with
  | PAdd c => (c :: fst s, snd s)
  | PClose => match pclose (fst s) with Some (log, kept, _) => (kept, snd s ++ log) | None => s end
  end.
Definition prun (ops : list pop) : list cleanup * list nat := fold_left pstep ops ([], []).

(** requests.py:330-342 [Request.close] after the form, and websockets.py:199-205 [WebSocket.close]
    after the message: the callbacks stay registered; those added while it runs are visited too.
    The result is what ran, the callbacks registered at the end and whether an error was raised. *)
Fixpoint rclose (fuel : nat) (queue : list cleanup) : option (list nat * list cleanup * bool) :=
  match fuel with
  | 0 => None
  | S f =>
      match queue with
      | [] => Some ([], [], false)
      | Cleanup i adds e :: rest =>
          match e with
          | Fine => match rclose f (rest ++ adds) with
                    | Some (log, added, x) => Some (i :: log, adds ++ added, x)
                    | None => None
                    end
          | _ => Some ([i], adds, true)
          end
      end
  end.
Definition request_close (callbacks : list cleanup) : option (list nat * list cleanup * bool) :=
  match rclose (S (ssize callbacks)) callbacks with
  | Some (log, added, x) => Some (log, callbacks ++ added, x)
  | None => None
  end.

(** A generator with one [yield]: not started, waiting at the yield, finished.  Its events are those
    before the yield ([Setup]) and after it ([Teardown]). *)
Inductive gstate := GNew | GOpen | GClosed.
Inductive gevent := Setup (n : nat) | Use | Teardown (n : nat).
Definition gnext (n : nat) (s : gstate) : gstate * list gevent :=
  match s with GNew => (GOpen, [Setup n]) | _ => (GClosed, match s with GOpen => [Teardown n] | _ => [] end) end.
(** [close()]: runs what follows the yield if it waits there. *)
Definition gclose (n : nat) (s : gstate) : gstate * list gevent :=
  (GClosed, match s with GOpen => [Teardown n] | _ => [] end).

(** dependencies.py:876-928 [_handle_generators_requestless] for a generator that yields: the value is
    taken, [close] is registered or called, and the [finally] clause calls [close] as well. *)
Definition handle_requestless (n : nat) (in_scope : bool) : gstate * list gevent :=
  let '(s1, e1) := gnext n GNew in
  let '(s2, e2) := if in_scope then (s1, []) else gclose n s1 in
  let '(s3, e3) := gclose n s2 in (s3, e1 ++ e2 ++ e3).
(** A program that resolves generator dependencies 0..n-1, uses their values and closes the scope. *)
Definition requestless_program (n : nat) (in_scope : bool) : list gevent :=
  let rs := map (fun i => (i, handle_requestless i in_scope)) (seq 0 n) in
  flat_map (fun r => snd (snd r)) rs ++ [Use]
  ++ (if in_scope then flat_map (fun r => snd (gclose (fst r) (fst (snd r)))) (rev rs) else []).

(** dependencies.py:317-334: [Provide] takes the value and registers [close] on the connection. *)
Definition handle_provide (n : nat) : gstate * list gevent := gnext n GNew.
(** A websocket handler with generator dependencies 0..n-1 that uses them and closes the websocket. *)
Definition websocket_program (n : nat) : list gevent :=
  let rs := map (fun i => (i, handle_provide i)) (seq 0 n) in
  flat_map (fun r => snd (snd r)) rs ++ [Use] ++ flat_map (fun r => snd (gclose (fst r) (fst (snd r)))) rs.
(** An HTTP handler (lilya/_internal/_responses.py:387-583): the handler is called and the response
    sent; nothing calls [Request.close]. *)
Definition http_program (n : nat) : list gevent :=
  let rs := map (fun i => (i, handle_provide i)) (seq 0 n) in
  flat_map (fun r => snd (snd r)) rs ++ [Use].

(** ** ScopeManager *)
Inductive scope := SRequest | SApp | SGlobal.
Definition scope_eqb (a b : scope) : bool :=
  match a, b with SRequest, SRequest | SApp, SApp | SGlobal, SGlobal => true | _, _ => false end.
Definition skey := (scope * nat)%type.
Definition skey_eqb (a b : skey) : bool := scope_eqb (fst a) (fst b) && Nat.eqb (snd a) (snd b).
(** A call of [get_or_create]: not begun, waiting for its factory (which makes instance [v]), done. *)
Inductive task := TNew (k : skey) | TMaking (k : skey) (v : nat) | TDone.
(** What can be observed: a factory was called, a call returned, a scope was cleared. *)
Inductive event := Made (k : skey) (v : nat) | Got (k : skey) (v : nat) | Cleared (s : option scope).
Record manager := { instances : list (skey * nat); tasks : list task; next : nat; log : list event }.

Fixpoint lookup (k : skey) (d : list (skey * nat)) : option nat :=
  match d with [] => None | (k', v) :: r => if skey_eqb k k' then Some v else lookup k r end.
Fixpoint update {A} (i : nat) (x : A) (l : list A) : list A :=
  match i, l with _, [] => [] | 0, _ :: r => x :: r | S j, y :: r => y :: update j x r end.

(** _scopes.py:41-74 [get_or_create], from one await to the next, and 113-131 [clear] (94-111 [aclose]
    clears everything; nothing ever registers a callback there).  [Run i] continues call [i]. *)
Inductive action := Run (i : nat) | Clear (s : option scope).
Definition sstep (m : manager) (a : action) : manager :=
  match a with
  | Run i =>
      match nth_error (tasks m) i with
      | Some (TNew k) =>
          if scope_eqb (fst k) SRequest then
            {| instances := instances m; tasks := update i (TMaking k (next m)) (tasks m); next := S (next m);
               log := log m ++ [Made k (next m)] |}
          else match lookup k (instances m) with
               | Some v => {| instances := instances m; tasks := update i TDone (tasks m); next := next m;
                              log := log m ++ [Got k v] |}
               | None => {| instances := instances m; tasks := update i (TMaking k (next m)) (tasks m);
                            next := S (next m); log := log m ++ [Made k (next m)] |}
               end
      | Some (TMaking k v) =>
          {| instances := if scope_eqb (fst k) SRequest then instances m else (k, v) :: instances m;
             tasks := update i TDone (tasks m); next := next m; log := log m ++ [Got k v] |}
      | _ => m
      end
  | Clear s =>
      {| instances := match s with
                      | Some s => filter (fun e => negb (scope_eqb (fst (fst e)) s)) (instances m)
                      | None => []
                      end;
         tasks := tasks m; next := next m; log := log m ++ [Cleared s] |}
  end.
Definition fresh (calls : list skey) : manager := {| instances := []; tasks := map TNew calls; next := 0; log := [] |}.
Definition srun (calls : list skey) (acts : list action) : manager := fold_left sstep acts (fresh calls).
