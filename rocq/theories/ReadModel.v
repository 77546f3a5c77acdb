(** Model of the typed reads of [EnvironLoader] (lilya/environments.py), over the loader of EnvModel. *)
From Verif Require Import PyStr EnvModel.

(** environments.py:45-56 [_BOOLEAN_MAPPING]. *)
Definition boolean_mapping : dict bool :=
  [(u "true", true); (u "1", true); (u "y", true); (u "yes", true); (u "on", true);
   (u "false", false); (u "0", false); (u "n", false); (u "no", false); (u "off", false)].
(** What a call of a cast does: a value, a TypeError or ValueError, another exception. *)
Inductive cast_result (T : Type) := Good (t : T) | Refused | Other.
Arguments Good {T}. Arguments Refused {T}. Arguments Other {T}.
(** The cast argument: [None], [bool], another callable. *)
Inductive cast (T : Type) := NoCast | Bool | Call (f : value -> cast_result T).
Arguments NoCast {T}. Arguments Bool {T}. Arguments Call {T}.
(** What a read gives: the value as it is, [None], a boolean, what the callable made of it, or an exception. *)
Inductive answer (T : Type) := AsIs (v : value) | Nothing | Truth (b : bool) | Made (t : T) | KeyErr | ValueErr | OtherErr.
Arguments AsIs {T}. Arguments Nothing {T}. Arguments Truth {T}. Arguments Made {T}. Arguments KeyErr {T}. Arguments ValueErr {T}. Arguments OtherErr {T}.

Section Read.
Context {T : Type} (show : value -> str).
(** environments.py:59-77 [_parse_boolean]; the lower case is that of ASCII. *)
Definition parse_boolean (v : value) : answer T :=
  match dget (lower (text_of show v)) boolean_mapping with Some b => Truth b | None => ValueErr end.
(** environments.py:430-456 [_cast]. *)
Definition do_cast (v : value) (c : cast T) : answer T :=
  match c with
  | NoCast => AsIs v
  | Bool => match v with Scalar None => Nothing | _ => parse_boolean v end
  | Call f => match f v with Good t => Made t | Refused => ValueErr | Other => OtherErr end
  end.
(** environments.py:458-497 [env]; [os] is the live environment. *)
Definition env (l : loader) (os : dict str) (key : str) (c : cast T) (default : option value) : loader * answer T :=
  let k := fold_key (ignore_case l) (prefix l ++ key) in
  let l := mark k l in
  (l, match dget k (pairs l) with
      | Some v => do_cast v c
      | None => match dget k os with
                | Some t => do_cast (Scalar (Some t)) c
                | None => match default with Some d => do_cast d c | None => KeyErr end
                end
      end).
(** Inherited from multidict: [key in env], [env.get(key)]; the key is taken as it is. *)
Definition contains (l : loader) (key : str) : bool := dmem key (pairs l).
Definition get (l : loader) (key : str) : option value := dget key (pairs l).
End Read.
