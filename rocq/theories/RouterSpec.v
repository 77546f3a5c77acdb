(** What a router should do with a request, stated without its loop. *)
From Verif Require Import PyStr PathModel RouterModel.

(** A handler that always ends by having sent a response, whatever it reads. *)
Inductive always_answers : prog -> Prop :=
| aa_end : always_answers (PEnd true HReturn)
| aa_recv k : (forall m, always_answers (k m)) -> always_answers (PRecv k).

(** A handler that sends nothing, reads at most [n] messages, and returns or defers. *)
Inductive declines : nat -> prog -> Prop :=
| de_end n e : e <> HRaise -> declines n (PEnd false e)
| de_recv n k : (forall m, declines n (k m)) -> declines (S n) (PRecv k).

(** The values a route takes from the path itself, without what the scope already held. *)
Definition bare (sc : scope) : scope := set_params sc [].

(** The places of a route tree that have something to say about a request, in document order. *)
Inductive target :=
| TFull (id : nat) (root : str) (own : dict pvalue)   (** this handler matches path and method *)
| TPartial (allow : str)                              (** this route matches the path only *)
| TRedirect (path : str)                              (** a mounted router that knows the other spelling *)
| TBroken.                                            (** a converter refuses a value its pattern took *)

(** The other spelling of the path: with or without the trailing slash. *)
Definition other_spelling (sc : scope) : option str :=
  let rp := get_route_path (sc_root sc) (sc_path sc) in
  if seqb rp [slash] then None
  else Some (if suffixb [slash] rp then rstrip_by is_slash (sc_path sc) else sc_path sc ++ [slash]).

(** The first route, if any, that matches a path in some way. *)
Definition is_none (s : search_result) : bool := match s with SNone => true | _ => false end.
Definition first_touch (rs : list route) (sc : scope) : option route :=
  List.find (fun r => negb (is_none (search r (bare sc)))) rs.

(** What the other spelling leads to among [rs]. *)
Definition toggled (rs : list route) (sc : scope) : list target :=
  match other_spelling sc with
  | None => []
  | Some p => match first_touch rs (set_path sc p) with
              | None => []
              | Some r => match search r (bare (set_path sc p)) with
                          | SError => [TBroken]
                          | _ => [TRedirect p]
                          end
              end
  end.

Fixpoint targets (sc : scope) (r : route) : list target :=
  match search r (bare sc) with
  | SNone => []
  | SError => [TBroken]
  | SPartial => [TPartial (allow_header r)]
  | SFull child =>
      match r with
      | RPath p => [TFull (pr_id p) (sc_root sc) (sc_params child)]
      | RInclude _ _ redirect children =>
          let inner := {| sc_root := sc_root child; sc_path := sc_path sc; sc_method := sc_method sc; sc_params := [] |} in
          match first_touch children inner with
          | None => if redirect then toggled children inner else []
          | Some _ => flat_map (targets inner) children
          end
      end
  end.

Definition final (t : target) : bool := match t with TPartial _ => false | _ => true end.

(** The target that answers: the first full match or redirect, else the first method mismatch,
    else (when nothing at all matches) the other spelling, else none. *)
Definition chosen (redirect : bool) (rs : list route) (sc : scope) : option target :=
  match first_touch rs sc with
  | None => if redirect then hd_error (toggled rs sc) else None
  | Some _ => let ts := flat_map (targets sc) rs in
              match List.find final ts with
              | Some t => Some t
              | None => hd_error ts
              end
  end.

(** The handler's arguments contain the values its own path names. *)
Definition agrees (own params : dict pvalue) : Prop :=
  forall n v, dget n own = Some v -> dget n params = Some v.

(** The outcome that a choice stands for. *)
Definition outcome_of (t : option target) (o : outcome) : Prop :=
  match t with
  | Some (TFull id root own) =>
      o_answers o = [AHandler id] /\ o_error o = false /\
      exists c, o_calls o = [c] /\ c_id c = id /\ c_root c = root /\ agrees own (c_params c)
  | Some (TPartial allow) => o_answers o = [A405 allow] /\ o_error o = false /\ o_calls o = []
  | Some (TRedirect p) => o_answers o = [ARedirect p] /\ o_error o = false /\ o_calls o = []
  | Some TBroken => o_answers o = [] /\ o_error o = true /\ o_calls o = []
  | None => o_answers o = [ADefault] /\ o_error o = false /\ o_calls o = []
  end.

(** A method is served by a route declared with [ms]. *)
Definition declared (ms : list str) (m : str) : Prop :=
  (exists d, In d ms /\ m = upper d) \/ (m = u "HEAD" /\ exists d, In d ms /\ upper d = u "GET").

(** The names a route's path binds. *)
Definition binds (r : route) : list str :=
  match r with RPath p => dkeys (pr_convs p) | RInclude _ convs _ _ => dkeys convs end.
