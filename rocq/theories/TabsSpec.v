(** What C303 and C304 say. *)
From Verif Require Import PyStr Asgi HeaderModel CookieModel CookieSpec SessionModel SessionSpec TabsModel.

Section Spec.
Context {V : Type}.

(** Times do not go back. *)
Fixpoint timely (now : N) (h : list (N * event V)) : Prop :=
  match h with [] => True | (t, _) :: r => (now <= t)%N /\ timely t r end.
(** What populate_session gives for the requests of a history, in the order in which they are made. *)
Definition pops (h : list (N * event V)) : list (option (dict V)) :=
  flat_map (fun x => match snd x with Goes p _ => [p] | _ => [] end) h.
(** The applications of the requests have these effects on the session they find. *)
Definition effects (e : senv V) (c : sconfig) (h : list (N * event V)) (fs : list (dict V -> dict V)) : Prop :=
  Forall2 (fun app f => serves e c app f) (flat_map (fun x => match snd x with Goes _ a => [a] | _ => [] end) h) fs.

(** The reference: one place holds a session and the time it was saved.  A request finds what is there, or
    what populate_session gives if nothing is, or it is too old. *)
Definition finds_at (max : option N) (now : N) (pop : option (dict V)) (m : memory V) : dict V :=
  match alive max now m with Some s => s | None => match pop with Some d => dupdate [] d | None => [] end end.
(** What is known about a request: the session its application leaves, whether a session was there when it
    came, and when its response started. *)
Record page := { p_left : dict V; p_known : bool; p_saved : option N }.
(** When the answer arrives the place holds what the application left, whatever was there before: nothing
    is compared or merged.  Only an empty session for which there was none before is not sent. *)
Definition after (p : page) (m : memory V) : memory V :=
  match p_left p, p_saved p with
  | [], _ => if p_known p then None else m
  | s, Some t => Some (s, t)
  | _, None => m
  end.
Definition turn (i : nat) (x : option page) (ps : nat -> option page) : nat -> option page := fun j => if Nat.eqb j i then x else ps j.
(** What is seen is what the reference allows. *)
Fixpoint allowed (max : option N) (pop : list (option (dict V))) (fs : list (dict V -> dict V)) (m : memory V) (ps : nat -> option page)
    (l : list (note V)) : Prop :=
  match l with
  | [] => True
  | Found now i s :: r =>
      exists p f, nth_error pop i = Some p /\ nth_error fs i = Some f /\ ps i = None /\ s = finds_at max now p m
        /\ allowed max pop fs m
             (turn i (Some {| p_left := f s; p_known := match alive max now m with Some _ => true | None => false end; p_saved := None |}) ps) r
  | Started now i :: r =>
      exists x, ps i = Some x /\ p_saved x = None
        /\ allowed max pop fs m (turn i (Some {| p_left := p_left x; p_known := p_known x; p_saved := Some now |}) ps) r
  | Came i :: r => exists x, ps i = Some x /\ p_saved x <> None /\ allowed max pop fs (after x m) ps r
  end.
End Spec.
Arguments page : clear implicits.
