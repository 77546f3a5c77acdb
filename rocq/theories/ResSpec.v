(** What the markers mean, as rules.  [solved t f v cs og]: from the moment when [t] calls have been
    made, the function [f] is worth [v]; this takes the calls [cs] and leaves the generators of the
    calls numbered [og] open.  [supplied t ps kwargs cs og]: the same for the parameters [ps]. *)
From Verif Require Import PyStr ResModel.

(** A call gives its value, or the first value of its generator, which stays open. *)
Inductive gives (t : nat) : behaviour -> value -> list nat -> Prop :=
  | gives_value v : gives t (Returns v) v []
  | gives_nothing : gives t (Generator None) VNone []
  | gives_first v : gives t (Generator (Some v)) v [t].

Definition no_required (ps : list (str * mark)) : Prop := forall a, ~ In (a, Required) ps.

Inductive solved (w : world) (tbl : list func) (ov : overrides) (rq : nat) : nat -> nat -> value -> list (nat * dict value) -> list nat -> Prop :=
  | solved_call t f fd kwargs cs og v o :
      nth_error tbl f = Some fd -> f_kind fd <> Obj -> no_required (f_params fd) ->
      supplied w tbl ov rq t (f_params fd) kwargs cs og ->
      gives (t + length cs) (w (t + length cs)%nat f kwargs) v o ->
      solved w tbl ov rq t f v (cs ++ [(f, kwargs)]) (og ++ o)
  | solved_object t f fd kwargs cs og :
      nth_error tbl f = Some fd -> f_kind fd = Obj -> no_required (f_params fd) ->
      supplied w tbl ov rq t (f_params fd) kwargs cs og ->
      solved w tbl ov rq t f (VCoro f kwargs) cs og
with supplied (w : world) (tbl : list func) (ov : overrides) (rq : nat) : nat -> list (str * mark) -> dict value -> list (nat * dict value) -> list nat -> Prop :=
  | supplied_none t : supplied w tbl ov rq t [] [] [] []
  | supplied_default t a r kwargs cs og :
      supplied w tbl ov rq t r kwargs cs og -> supplied w tbl ov rq t ((a, Optional) :: r) kwargs cs og
  | supplied_required t a r kwargs cs og :
      supplied w tbl ov rq t r kwargs cs og -> supplied w tbl ov rq t ((a, Required) :: r) kwargs cs og
  | supplied_scheme t a d fd b m more r v kwargs cs og :
      nth_error tbl d = Some fd -> f_kind fd <> Sync -> f_params fd = (b, m) :: more -> no_required more ->
      (w t d [(b, VRequest rq)] = Returns v \/ (exists g, w t d [(b, VRequest rq)] = Generator g) /\ v = VMade d [(b, VRequest rq)]) ->
      supplied w tbl ov rq (S t) r kwargs cs og ->
      supplied w tbl ov rq t ((a, Security d) :: r) ((a, v) :: kwargs) ((d, [(b, VRequest rq)]) :: cs) og
  | supplied_replaced t a d r v kwargs cs og :
      redirect ov d = TValue v -> supplied w tbl ov rq t r kwargs cs og ->
      supplied w tbl ov rq t ((a, Resolve d) :: r) ((a, v) :: kwargs) cs og
  | supplied_resolved t a d g r v kwargs cs og cs' og' :
      redirect ov d = TFn g -> solved w tbl ov rq t g v cs og -> supplied w tbl ov rq (t + length cs) r kwargs cs' og' ->
      supplied w tbl ov rq t ((a, Resolve d) :: r) ((a, v) :: kwargs) (cs ++ cs') (og ++ og').

(** The parameters of a function have different names. *)
Definition proper (tbl : list func) : Prop := forall f fd, nth_error tbl f = Some fd -> NoDup (map fst (f_params fd)).
(** A marker names a function that existed before: the functions can be ranked.  Overrides that put
    in functions must respect some ranking too. *)
Definition ranked (tbl : list func) (ov : overrides) (rank : nat -> nat) : Prop :=
  forall f fd a d, nth_error tbl f = Some fd ->
    (In (a, Security d) (f_params fd) -> (rank d < rank f)%nat) /\
    (In (a, Resolve d) (f_params fd) -> forall g, redirect ov d = TFn g -> (rank g < rank f)%nat).
Definition marked (p : str * mark) : bool := match snd p with Resolve _ | Security _ => true | _ => false end.
