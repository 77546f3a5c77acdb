(** What C31 and C62 say, apart from the model of the stack. *)
From Verif Require Import PyStr MwModel.

(** The entries and exits in a trace. *)
Definition crossing (e : event) : bool := match e with Enter _ | Exit _ => true | _ => false end.
(** Entries, exits and messages passing, without the texts of the messages. *)
Inductive tag := In_ (id : nat) | Msg (id : nat) | Out (id : nat).
Definition shape (e : event) : list tag :=
  match e with Enter i => [In_ i] | Exit i => [Out i] | Hook i _ => [Msg i] | Note _ => [] end.

(** On every path of the program the application it wraps is called exactly [c] times and exactly [n]
    messages are sent. *)
Inductive does : prog -> nat -> nat -> Prop :=
| do_return : does Return 0 0
| do_fail e : does (Fail e) 0 0
| do_look k next c n : (forall v, does (next v) c n) -> does (Look k next) c n
| do_put k a p c n : does p c n -> does (Put k a p) c n
| do_putlist k l p c n : does p c n -> does (PutList k l p) c n
| do_alias k f p c n : does p c n -> does (Alias k f p) c n
| do_drop k p c n : does p c n -> does (Drop k p) c n
| do_grow k h p c n : does p c n -> does (Grow k h p) c n
| do_emit m next c n : (forall o, does (next o) c n) -> does (Emit m next) c (S n)
| do_call next c n : (forall o, does (next o) c n) -> does (Call next) (S c) n
| do_show v p c n : does p c n -> does (Show v p) c n.
(** On every path the wrapped application is called exactly once. *)
Inductive calls : prog -> nat -> Prop :=
| ca_return : calls Return 0
| ca_fail e : calls (Fail e) 0
| ca_look k next c : (forall v, calls (next v) c) -> calls (Look k next) c
| ca_put k a p c : calls p c -> calls (Put k a p) c
| ca_putlist k l p c : calls p c -> calls (PutList k l p) c
| ca_alias k f p c : calls p c -> calls (Alias k f p) c
| ca_drop k p c : calls p c -> calls (Drop k p) c
| ca_grow k h p c : calls p c -> calls (Grow k h p) c
| ca_emit m next c : (forall o, calls (next o) c) -> calls (Emit m next) c
| ca_call next c : (forall o, calls (next o) c) -> calls (Call next) (S c)
| ca_show v p c : calls p c -> calls (Show v p) c.

(** The keys that carry route metadata. *)
Definition metadata (k : str) : Prop := k = u "route" \/ k = u "route_path_template" \/ k = u "handler".

(** Code of outer layers: it touches only scopes that exist already, below [n]. *)
Definition stays_below (n : nat) (snd : sender) : Prop := forall m w, n <= length (scopes w) ->
  length (scopes (fst (snd m w))) = length (scopes w) /\
  length (lists w) <= length (lists (fst (snd m w))) /\
  forall j, n <= j -> scope_of (fst (snd m w)) j = scope_of w j.

(** A layer that adds an entry to the scope before it calls on, and what the endpoint should see of
    [k]: the text added last, or what the first scope had. *)
Definition adder (l : layer) (k a : str) : Prop := l_body l = Put k a (Call (fun _ => Return)).
Fixpoint last_added (adds : list (str * str)) (k : str) (before : view) : view :=
  match adds with
  | [] => before
  | (k', a) :: r => last_added r k (if seqb k k' then IsText a else before)
  end.
(** The notes in a trace. *)
Definition notes (w : world) : list view := flat_map (fun e => match e with Note v => [v] | _ => [] end) (trace w).
(** References of a scope exist. *)
Definition sound (w : world) (i : nat) : Prop := forall k r, entry w i k = Some (Ref r) -> r < length (lists w).
