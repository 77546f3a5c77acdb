(** Model of [SSEChannel] and [SSEChannelManager] (lilya/contrib/sse/channels.py) in every interleaving of
    broadcasters and subscribers, over anyio's memory streams without buffer. *)
From Verif Require Import PyStr.

Section Channel.
Context {Msg : Type}.
(** A subscriber, channels.py:163-169: the two ends of its stream, whether it waits in [receive], and the
    messages it was given (with the number of the broadcast, for reference). *)
Record sub := { send_open : bool; recv_open : bool; waits : bool; got : list (nat * Msg) }.
Definition fresh : sub := {| send_open := true; recv_open := true; waits := false; got := [] |}.
(** A broadcast that holds the lock, channels.py:126-140: its number and message, the subscribers in the
    order of the copied set, those still to come, those found dead, and whether it waits for the next. *)
Record bcast := { num : nat; msg : Msg; order : list nat; todo : list nat; dead : list nat; blocked : bool }.
(** How a broadcast ended: normally, by BrokenResourceError, or because its task was cancelled. *)
Inductive ending := Ended | Broke | Cancelled.
Record chan := { subs : nat -> sub; count : nat; members : list nat; lock : option bcast; next : nat; finished : list (bcast * ending) }.
Definition idle : chan := {| subs := fun _ => fresh; count := 0; members := []; lock := None; next := 0; finished := [] |}.
Definition with_subs (f : nat -> sub) (c : chan) : chan := {| subs := f; count := count c; members := members c; lock := lock c; next := next c; finished := finished c |}.
Definition with_lock (b : option bcast) (c : chan) : chan := {| subs := subs c; count := count c; members := members c; lock := b; next := next c; finished := finished c |}.
Definition with_members (m : list nat) (c : chan) : chan := {| subs := subs c; count := count c; members := m; lock := lock c; next := next c; finished := finished c |}.
Definition upd (i : nat) (s : sub) (f : nat -> sub) : nat -> sub := fun j => if Nat.eqb j i then s else f j.
Definition finish (b : bcast) (e : ending) (c : chan) : chan :=
  {| subs := subs c; count := count c; members := members c; lock := None; next := next c; finished := finished c ++ [(b, e)] |}.
Definition nmem (i : nat) (l : list nat) : bool := existsb (Nat.eqb i) l.
Definition remove_all (ds l : list nat) : list nat := filter (fun i => negb (nmem i ds)) l.
(** Subscriber [i] takes the message, the broadcast goes on. *)
Definition give (b : bcast) (i : nat) (r : list nat) (c : chan) : chan :=
  let s := subs c i in
  with_lock (Some {| num := num b; msg := msg b; order := order b; todo := r; dead := dead b; blocked := false |})
    (with_subs (upd i {| send_open := send_open s; recv_open := recv_open s; waits := false; got := got s ++ [(num b, msg b)] |} (subs c)) c).
(** What can happen. *)
Inductive event :=
  | Subscribe                           (* channels.py:163-169 *)
  | Receive (i : nat)                   (* a subscriber asks for a message, 175 and 185 *)
  | GiveUp (i : nat)                    (* its time is over, 184 *)
  | CloseReceive (i : nat)              (* it leaves the block of 174 or 180 *)
  | CloseSend (i : nat)                 (* then its clean-up runs, 198-204 *)
  | Start (m : Msg) (order : list nat)  (* a broadcast gets the lock and copies the set, 126-129 *)
  | Advance                             (* it goes on, 129-140 *)
  | Cancel.                             (* its task is cancelled *)
Definition permutes (a b : list nat) : bool := Nat.eqb (length a) (length b) && forallb (fun i => nmem i b) a && forallb (fun i => nmem i a) b.
Definition chan_step (c : chan) (e : event) : chan :=
  match e with
  | Subscribe => {| subs := upd (count c) fresh (subs c); count := S (count c); members := count c :: members c; lock := lock c; next := next c; finished := finished c |}
  | Receive i =>
      let s := subs c i in
      if Nat.ltb i (count c) && recv_open s && negb (waits s) then
        match lock c with
        | Some b => match blocked b, todo b with
                    | true, q :: r => if Nat.eqb q i then give b i r c
                                      else with_subs (upd i {| send_open := send_open s; recv_open := true; waits := true; got := got s |} (subs c)) c
                    | _, _ => with_subs (upd i {| send_open := send_open s; recv_open := true; waits := true; got := got s |} (subs c)) c
                    end
        | None => with_subs (upd i {| send_open := send_open s; recv_open := true; waits := true; got := got s |} (subs c)) c
        end
      else c
  | GiveUp i => let s := subs c i in with_subs (upd i {| send_open := send_open s; recv_open := recv_open s; waits := false; got := got s |} (subs c)) c
  | CloseReceive i =>
      let s := subs c i in
      if Nat.ltb i (count c) && recv_open s then
        let c' := with_subs (upd i {| send_open := send_open s; recv_open := false; waits := false; got := got s |} (subs c)) c in
        match lock c with
        | Some b => match blocked b, todo b with
                    | true, q :: _ => if Nat.eqb q i then finish b Broke c' else c'
                    | _, _ => c'
                    end
        | None => c'
        end
      else c
  | CloseSend i =>
      let s := subs c i in
      if Nat.ltb i (count c) && negb (recv_open s) then
        with_members (remove_all [i] (members c)) (with_subs (upd i {| send_open := false; recv_open := false; waits := false; got := got s |} (subs c)) c)
      else c
  | Start m o =>
      match lock c with
      | Some _ => c
      | None => if permutes o (members c) then
                  {| subs := subs c; count := count c; members := members c;
                     lock := Some {| num := next c; msg := m; order := o; todo := o; dead := []; blocked := false |}; next := S (next c); finished := finished c |}
                else c
      end
  | Advance =>
      match lock c with
      | None => c
      | Some b =>
          if blocked b then c
          else match todo b with
               | [] => finish b Ended (with_members (remove_all (dead b) (members c)) c)
               | q :: r =>
                   let s := subs c q in
                   if negb (send_open s) then with_lock (Some {| num := num b; msg := msg b; order := order b; todo := r; dead := dead b ++ [q]; blocked := false |}) c
                   else if negb (recv_open s) then finish b Broke c
                   else if waits s then give b q r c
                   else with_lock (Some {| num := num b; msg := msg b; order := order b; todo := q :: r; dead := dead b; blocked := true |}) c
               end
      end
  | Cancel => match lock c with Some b => finish b Cancelled c | None => c end
  end.
Definition chan_run (es : list event) : chan := fold_left chan_step es idle.
End Channel.
Arguments chan : clear implicits.
Arguments event : clear implicits.

(** channels.py:246-287: channels are numbered as they are made; each call holds the lock. *)
Record manager := { channels : dict nat; made : nat }.
Inductive mop := GetOrCreate (name : str) | ClearChannels.
Definition mgr_step (m : manager) (o : mop) : manager * option nat :=
  match o with
  | GetOrCreate n => match dget n (channels m) with
                     | Some ch => (m, Some ch)
                     | None => ({| channels := dset n (made m) (channels m); made := S (made m) |}, Some (made m))
                     end
  | ClearChannels => ({| channels := []; made := made m |}, None)
  end.
Definition mgr_run (os : list mop) : manager := fold_left (fun m o => fst (mgr_step m o)) os {| channels := []; made := 0 |}.
