(** A client that stores cookies (RFC 6265), independent of the model.  It is one whose requests
    match the path and domain of every cookie, and it keeps cookies until Max-Age ends them (an
    Expires date given by the program lies in the future; with Max-Age it is ignored). *)
From Verif Require Import PyStr Utf8 CookieModel.

(** One Set-Cookie line: the pair before the first ";", then the attributes. *)
Definition ends_now (attribute : str) : bool :=
  match split1 61 attribute with
  | Some (n, v) => seqb (lower (strip n)) (u "max-age") && match int_parse v with Some z => (z <=? 0)%Z | None => false end
  | None => false
  end.
Definition client_store (jar : dict str) (line : str) : dict str :=
  match split_char 59 line with
  | nv :: attributes =>
      match split1 61 nv with
      | Some (n, v) => if existsb ends_now attributes then ddel (strip n) jar else dset (strip n) (strip v) jar
      | None => jar
      end
  | [] => jar
  end.
(** The Cookie headers of the next request. *)
Definition client_send (jar : dict str) : list (str * str) :=
  match jar with
  | [] => []
  | _ => [(u "cookie", join (u "; ") (map (fun c => fst c ++ u "=" ++ snd c) jar))]
  end.

(** Reserved attribute names and name characters as in RFC 6265/2109: a name a program may use. *)
Definition name_char (c : N) : bool :=
  (between 97 122 c || between 65 90 c || between 48 57 c)%bool || cmem c (u "!#$%&'*+-.^_`|~:").
Definition usable_name (k : str) : Prop :=
  k <> [] /\ forallb name_char k = true /\
  ~ In (lower k) [u "expires"; u "path"; u "comment"; u "domain"; u "max-age"; u "secure"; u "httponly"; u "version"; u "samesite"].
(** A text given for an attribute: no ";" and no space at either end. *)
Definition attribute_text (o : option str) : Prop := forall t, o = Some t -> strip t = t /\ ~ In 59%N t.
Definition usable_cookie (c : cookie) : Prop :=
  usable_name (c_key c) /\ attribute_text (c_domain c) /\ attribute_text (c_path c) /\
  (forall s, c_samesite c = Some s -> In s [u "strict"; u "lax"; u "none"]).

(** A history of calls on a response. *)
Inductive call := Put (c : cookie) | Drop (now : str) (c : cookie).
Definition usable_call (x : call) : Prop :=
  match x with
  | Put c => usable_cookie c /\ attribute_text (c_expires c) /\ forall z, c_max_age c = Some z -> (0 < z)%Z
  | Drop now c => usable_cookie c /\ attribute_text (Some now)
  end.
Definition expect (d : dict str) (x : call) : dict str :=
  match x with Put c => dset (c_key c) (c_value c) d | Drop _ c => ddel (c_key c) d end.
