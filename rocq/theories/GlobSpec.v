(** What [g] is meant to be: each request that enters an application has a store of its own, which the tasks it starts
    share, and gets the former one back when it leaves. *)
From Verif Require Import PyStr GlobModel.

Section Glob.
Context {V : Type}.
(** The stores by number; for each task the numbers of those it is in, innermost first; the program's own dicts; and
    which stores have been used or filled. *)
Record world := { total : nat; stores : nat -> dict V; inside : nat -> list (option nat); own : list (dict V); used : list nat }.
Definition at_ {A} (f : nat -> A) (n : nat) (x : A) : nat -> A := fun m => if Nat.eqb n m then x else f m.
Definition nothing : world := {| total := 0; stores := fun _ => []; inside := fun _ => []; own := []; used := [] |}.
Definition here (w : world) (t : nat) : option nat := match inside w t with x :: _ => x | [] => None end.
Definition given (w : world) (p : option (source V)) : dict V :=
  match p with None => [] | Some (New d) => d | Some (Same a) => nth a (own w) [] end.
Definition change (w : world) (n : nat) (d : dict V) : world :=
  {| total := total w; stores := at_ (stores w) n d; inside := inside w; own := own w; used := n :: used w |}.
Definition spec_step (w : world) (e : event V) : world * out V :=
  let on t f := match here w t with None => (w, LookupErr) | Some n => let '(d, o) := f (stores w n) in (change w n d, o) end in
  match e with
  | Make d => ({| total := total w; stores := stores w; inside := inside w; own := own w ++ [d]; used := used w |}, Done)
  | Spawn p t => ({| total := total w; stores := stores w; inside := at_ (inside w) t [here w p]; own := own w; used := used w |}, Done)
  | Enter t p =>
      let n := total w in
      ({| total := S n; stores := at_ (stores w) n (given w p); inside := at_ (inside w) t (Some n :: inside w t); own := own w;
          used := match p with None => used w | Some _ => n :: used w end |}, Done)
  | Leave t => ({| total := total w; stores := stores w; inside := at_ (inside w) t (tl (inside w t)); own := own w; used := used w |}, Done)
  | Write t k v => on t (fun d => (dset k v d, Done))
  | Read t k => on t (fun d => (d, match dget k d with Some v => Value v | None => AttributeErr end))
  | Item t k => on t (fun d => (d, match dget k d with Some v => Value v | None => KeyErr end))
  | Delete t k => on t (fun d => match dget k d with Some _ => (ddel k d, Done) | None => (d, KeyErr) end)
  | Size t => on t (fun d => (d, Count (length d)))
  end.
Fixpoint spec_run (w : world) (es : list (event V)) : list (out V) :=
  match es with [] => [] | e :: r => snd (spec_step w e) :: spec_run (fst (spec_step w e)) r end.

(** What the program must take care of: dicts that are not shared, tasks started only after the request's store has
    been used, and names that are not attributes of [g]. *)
Definition careful_event (w : world) (e : event V) : Prop :=
  match e with
  | Spawn p _ => match here w p with None => True | Some n => In n (used w) end
  | Enter _ (Some (Same _)) => False
  | Read _ k => ~ In k [u "store"; u "copy"; u "clear"; u "_context"]
  | _ => True
  end.
Fixpoint careful (w : world) (es : list (event V)) : Prop :=
  match es with [] => True | e :: r => careful_event w e /\ careful (fst (spec_step w e)) r end.
End Glob.
Arguments world V : clear implicits.
