(** What the test client is to show, without its stream and flags. *)
From Verif Require Import PyStr TcModel.
Local Open Scope N_scope.

(** A server that refuses nothing: the first message an application gets is the body, the next ones are disconnects, once
    a response is finished.  [plays body p asked ms ms' o]: with [ms] sent so far, [p] ends with [o] having sent [ms']. *)
Definition finished (ms : list smsg) : Prop := exists b more, In (Body b more) ms /\ more <> Some true.
Inductive plays (body : str) : asgi -> bool -> list smsg -> list smsg -> ended -> Prop :=
  | plays_return asked ms : plays body Return asked ms ms Returned
  | plays_raise e asked ms : plays body (Raise e) asked ms ms (Raised e)
  | plays_first k ms ms' o : plays body (k (RBody body)) true ms ms' o -> plays body (Receive k) false ms ms' o
  | plays_later k ms ms' o : finished ms -> plays body (k RDisconnect) true ms ms' o -> plays body (Receive k) true ms ms' o
  | plays_waits k ms : ~ finished ms -> plays body (Receive k) true ms ms Waits
  | plays_send m k asked ms ms' o : plays body (k None) asked (ms ++ [m]) ms' o -> plays body (Send m k) asked ms ms' o.

(** Messages beside the response. *)
Definition aside (m : smsg) : Prop := match m with Debug _ _ | Unknown _ => True | _ => False end.
(** A sequence of chunks in messages, [true] if it is finished by its last message. *)
Definition chunk (b : option datum) (x : str) : Prop := b = Some (Bytes x) \/ b = None /\ x = [].
Inductive chunks : bool -> list smsg -> str -> Prop :=
  | chunks_none : chunks false [] []
  | chunks_last b more x r : chunk b x -> more <> Some true -> Forall aside r -> chunks true (Body b more :: r) x
  | chunks_more b x fin r y : chunk b x -> chunks fin r y -> chunks fin (Body b (Some true) :: r) (x ++ y)
  | chunks_aside m fin r y : aside m -> chunks fin r y -> chunks fin (m :: r) y.
(** The messages are a response with this status, these headers and this body. *)
Inductive answer (fin : bool) : list smsg -> N -> list (datum * datum) -> str -> Prop :=
  | answer_start st hs ms x : chunks fin ms x -> answer fin (Start st hs :: ms) st (match hs with Some l => l | None => [] end) x
  | answer_aside m ms st hs x : aside m -> answer fin ms st hs x -> answer fin (m :: ms) st hs x.
(** The last debug message. *)
Fixpoint last_debug (ms : list smsg) (d : option (N * N)) : option (N * N) :=
  match ms with [] => d | Debug t x :: r => last_debug r (Some (t, x)) | _ :: r => last_debug r d end.
Definition good_header (h : datum * datum) : Prop := exists k v, h = (Bytes k, Bytes v) /\ ~ In 10 k /\ ~ In 10 v.
(** An application that catches nothing. *)
Inductive uncaught : asgi -> Prop :=
  | uncaught_return : uncaught Return
  | uncaught_raise e : uncaught (Raise e)
  | uncaught_receive k : (forall m, uncaught (k m)) -> uncaught (Receive k)
  | uncaught_send m k : uncaught (k None) -> (forall e, k (Some e) = Raise e) -> uncaught (Send m k).

(** The user as a variable with blocks. *)
Section Users.
Context {V : Type}.
Fixpoint users (o : @op V) (current : option V) : option V * list (option V) * bool :=
  match o with
  | Authenticate w => (w, [], false)
  | Logout => (None, [], false)
  | Request => (current, [current], false)
  | Fail => (current, [], true)
  | With w l =>
      let '(_, seen, failed) :=
        (fix all (l : list op) (current : option V) : option V * list (option V) * bool :=
           match l with
           | [] => (current, [], false)
           | o :: r => let '(now, seen, failed) := users o current in
                       if failed : bool then (now, seen, true) else let '(after, seen', failed') := all r now in (after, seen ++ seen', failed')
           end) l w in
      (current, seen, failed)
  end.
Fixpoint users_all (l : list (@op V)) (current : option V) : option V * list (option V) * bool :=
  match l with
  | [] => (current, [], false)
  | o :: r => let '(now, seen, failed) := users o current in
              if failed : bool then (now, seen, true) else let '(after, seen', failed') := users_all r now in (after, seen ++ seen', failed')
  end.
End Users.

(** A browser: cookies by name.  [browses jar l sents jar']: the cookies sent with each request, and those kept. *)
Definition over (d : dict str) (jar : str -> option str) : str -> option str := fun n => match dget n d with Some v => Some v | None => jar n end.
Inductive browses : (str -> option str) -> list (option (dict str) * (dict str -> dict str)) -> list (dict str) -> (str -> option str) -> Prop :=
  | browses_end jar : browses jar [] [] jar
  | browses_request jar g a sent r sents jar' :
      (forall n, dget n sent = match g with Some g => over g jar n | None => jar n end) ->
      browses (over (a sent) jar) r sents jar' -> browses jar ((g, a) :: r) (sent :: sents) jar'.
