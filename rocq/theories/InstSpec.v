(** What a user of controllers expects. *)
From Verif Require Import PyStr InstModel.

Section Spec.
  Context {request V A error response : Type}.
  Variable c : class request V A error response.

  (** The names of a signature that are bound to the query, a header or a cookie. *)
  Definition bound_names (s : signature) : list str := map fst (filter (fun p => match snd p with Bound => true | Other => false end) s).
  (** Their values on top of [a]; the first one that cannot be had is an error. *)
  Fixpoint with_bound (q : request) (ns : list str) (a : args (V := V)) : args (V := V) + error :=
    match ns with
    | [] => inl a
    | n :: ns' => match bound_value c q n with inl v => with_bound q ns' (dset n v a) | inr e => inr e end
    end.
  (** The code of a handler run to its end without anything in between. *)
  Fixpoint finish (p : code A error response) (a : A) : outcome error response :=
    match p with Return f => f a | Do f k => finish (k a) (f a) end.
  (** A request that is alone in the world and gets an object of its own: its handler gets the arguments that its
      own signature asks for, and sees the attributes of a new object. *)
  Definition serve (q : request) : outcome error response :=
    match pick c q with
    | None => match provided c q [] with inl _ => NotAllowed (in_app c q) | inr e => Raised e end
    | Some (h, s) =>
        match provided c q s with
        | inr e => Raised e
        | inl a =>
            match with_bound q (bound_names s) a with
            | inr e => Raised e
            | inl a => finish (body c h (if smem (u "request") (map fst s) then dset (u "request") (the_request c q) a else a)) (init c)
            end
        end
    end.
  (** Whatever the interleaving, every request that is over got what it gets alone, and is over after finitely
      many steps of its own. *)
  Definition isolated (guarded : bool) (qs : list request) : Prop :=
    forall i q, nth_error qs i = Some q ->
      (forall sched o, result (run c guarded qs sched) i = Some o -> o = serve q) /\
      exists n, forall sched, (n <= count_occ Nat.eq_dec sched i)%nat -> result (run c guarded qs sched) i = Some (serve q).

  (** Code that only reads the attributes of [self]. *)
  Inductive reads_only : code A error response -> Prop :=
  | RReturn : forall f, reads_only (Return f)
  | RDo : forall f k, (forall a, f a = a) -> (forall a, reads_only (k a)) -> reads_only (Do f k).
End Spec.
