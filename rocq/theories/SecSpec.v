(** What clients send and what schemes owe them, independent of the model. *)
From Verif Require Import PyStr UrlSpec HeaderSpec SecModel.

(** The first Authorization header of a request, whatever the case of its name. *)
Definition sent (h : list (str * str)) : option str := hd_error (values (u "authorization") h).
(** A header of the form "scheme rest", the scheme in any case. *)
Definition presents (name : str) (h : list (str * str)) (scheme rest : str) : Prop :=
  sent h = Some (scheme ++ u " " ++ rest) /\ lower scheme = name.
(** ASCII text. *)
Definition plain (s : str) : Prop := forall c, In c s -> (c < 128)%N.

(** The schemes, and asking one of them; what they find is left out. *)
Inductive scheme :=
  | Base (challenge : str) | Basic (realm : str) | Bearer | Digest | OAuth2 | OpenId | PasswordBearer
  | KeyInHeader (name : str) | KeyInQuery (name query : str) | KeyInCookie (name : str).
Definition forget {A} (a : answer A) : answer unit := match a with Found _ => Found tt | Nothing => Nothing | Unauthorized c => Unauthorized c end.
Definition ask (order : list str -> list str) (s : scheme) (auto_error : bool) (h : list (str * str)) : answer unit :=
  match s with
  | Base c => forget (http_base auto_error c h)
  | Basic r => forget (http_basic auto_error r h)
  | Bearer => forget (http_bearer auto_error h)
  | Digest => forget (http_digest auto_error h)
  | OAuth2 => forget (oauth2 auto_error h)
  | OpenId => forget (open_id auto_error h)
  | PasswordBearer => forget (oauth2_bearer auto_error h)
  | KeyInHeader n => forget (api_key_in_header auto_error n h)
  | KeyInQuery n q => forget (api_key_in_query auto_error n q)
  | KeyInCookie n => forget (api_key_in_cookie order auto_error n h)
  end.
(** The challenge of each. *)
Definition challenge_of (s : scheme) : str :=
  match s with
  | Base c => c
  | Basic [] => u "Basic"
  | Basic r => u "Basic realm=""" ++ r ++ u """"
  | Bearer | OAuth2 | PasswordBearer => u "Bearer"
  | Digest => u "Digest"
  | OpenId | KeyInHeader _ | KeyInQuery _ _ | KeyInCookie _ => u "APIKey"
  end.
