(** Model of [Token] (lilya/contrib/security/jwt/token.py) and [convert_time] (lilya/contrib/security/utils.py:4-10).
    Library behaviour that is modelled: pydantic's reading of numbers as dates (documented: seconds up to 2e10,
    milliseconds beyond), its order of fields and [model_dump]; PyJWT's translation of dates in [encode] and its
    checks of exp and iat in [decode].  Signing and verifying are parameters.  Times are in microseconds since the
    epoch.  Simplified: a validation reads the clock once; claims that are floats, dates as texts and nbf are left
    out; [None] is an exception. *)
From Verif Require Import PyStr.
Local Open Scope Z_scope.

(** A datetime: what its clock shows and, when it is aware, its distance from UTC in seconds. *)
Record dt := { wall : Z; off : option Z }.
Definition million : Z := 1000000.
(** security/utils.py:4-10 [convert_time]: the result of [astimezone] is dropped. *)
Definition convert_time (d : dt) : dt := {| wall := wall d / million * million; off := off d |}.
(** [datetime.timestamp()]; [local] gives the time for what a clock in the local zone shows. *)
Definition timestamp (local : Z -> Z) (d : dt) : Z := match off d with Some o => wall d - o * million | None => local (wall d) end.
(** [datetime.now(timezone.utc)]. *)
Definition utc (now : Z) : dt := {| wall := now; off := Some 0 |}.

(** Values of claims and of keyword arguments. *)
Inductive value := VNull | VInt (z : Z) | VStr (s : str) | VDate (d : dt) | VOther (x : str).
Record token := { t_exp : dt; t_iat : dt; t_sub : option str; t_iss : option str; t_aud : option str; t_jti : option str }.

(** pydantic: a date from a date or from a number. *)
Definition watershed : Z := 20000000000.
Definition read_date (v : value) : option dt :=
  match v with
  | VDate d => Some d
  | VInt z => Some {| wall := if Z.abs z <=? watershed then z * million else z * 1000; off := Some 0 |}
  | _ => None
  end.
(** token.py:24-32 [validate_expiration]. *)
Definition validate_exp (local : Z -> Z) (now : Z) (d : dt) : option dt :=
  let date := convert_time d in
  if timestamp local date >=? timestamp local (convert_time (utc now)) then Some date else None.
(** token.py:34-40 [validate_iat]. *)
Definition validate_iat (local : Z -> Z) (now : Z) (d : dt) : option dt :=
  let date := convert_time d in
  if timestamp local date <=? timestamp local (convert_time (utc now)) then Some date else None.
(** token.py:19, 42-47: [constr(min_length=1) | conint(ge=1) | None], then [validate_sub], which is not called for
    the default. *)
Definition read_sub (o : option value) : option (option str) :=
  match o with
  | None => Some None
  | Some VNull => Some (Some (u "None"))
  | Some (VStr s) => match s with [] => None | _ => Some (Some s) end
  | Some (VInt z) => if 1 <=? z then Some (Some (decz z)) else None
  | Some _ => None
  end.
(** token.py:20-22: [str | None]. *)
Definition read_text (o : option value) : option (option str) :=
  match o with
  | None | Some VNull => Some None
  | Some (VStr s) => Some (Some s)
  | Some _ => None
  end.
(** token.py:12-22, the constructor: unknown names are ignored. *)
Definition make (local : Z -> Z) (now : Z) (data : dict value) : option token :=
  match match dget (u "exp") data with Some v => match read_date v with Some d => validate_exp local now d | None => None end | None => None end,
        match dget (u "iat") data with Some v => match read_date v with Some d => validate_iat local now d | None => None end | None => Some (convert_time (utc now)) end,
        read_sub (dget (u "sub") data), read_text (dget (u "iss") data), read_text (dget (u "aud") data), read_text (dget (u "jti") data) with
  | Some e, Some i, Some s, Some iss, Some aud, Some jti => Some {| t_exp := e; t_iat := i; t_sub := s; t_iss := iss; t_aud := aud; t_jti := jti |}
  | _, _, _, _, _, _ => None
  end.

(** pydantic [model_dump(exclude_none=True)]. *)
Definition some_claim (k : str) (o : option str) : dict value := match o with Some s => [(k, VStr s)] | None => [] end.
Definition model_dump (t : token) : dict value :=
  [(u "exp", VDate (t_exp t)); (u "iat", VDate (t_iat t))]
  ++ some_claim (u "sub") (t_sub t) ++ some_claim (u "iss") (t_iss t) ++ some_claim (u "aud") (t_aud t) ++ some_claim (u "jti") (t_jti t).
(** PyJWT api_jwt.py [encode]: [timegm(date.utctimetuple())] for the claims that are dates; a naive date counts as UTC. *)
Definition seconds (d : dt) : Z := match off d with Some o => (wall d - o * million) / million | None => wall d / million end.
Definition number_claim (e : str * value) : str * value :=
  match snd e with
  | VDate d => if seqb (fst e) (u "exp") || seqb (fst e) (u "iat") || seqb (fst e) (u "nbf") then (fst e, VInt (seconds d)) else e
  | _ => e
  end.
(** token.py:49-71 [encode]. *)
Definition payload (t : token) (extra : dict value) : dict value := dupdate (model_dump t) extra.
Definition encode (sign : dict value -> str -> str -> option str) (t : token) (key algorithm : str) (extra : dict value) : option str :=
  sign (map number_claim (payload t extra)) key algorithm.

(** PyJWT api_jwt.py [_validate_claims] for exp and iat: [int(claim)], then the comparison with the clock. *)
Definition claim_int (v : value) : option Z := match v with VInt z => Some z | VStr s => int_parse s | _ => None end.
Definition in_time (now leeway : Z) (data : dict value) : bool :=
  match dget (u "iat") data with
  | Some v => match claim_int v with Some z => negb (z * million >? now + leeway) | None => false end
  | None => true
  end &&
  match dget (u "exp") data with
  | Some v => match claim_int v with Some z => negb (z * million <=? now - leeway) | None => false end
  | None => true
  end.
(** token.py:73-86 [decode] with [leeway], 0 by default; the library reads the clock before pydantic does. *)
Definition decode (verify : str -> str -> list str -> option (dict value)) (local : Z -> Z) (now1 now2 leeway : Z) (text key : str) (algorithms : list str)
  : option token :=
  match verify text key algorithms with
  | Some data => if in_time now1 leeway data then make local now2 data else None
  | None => None
  end.
