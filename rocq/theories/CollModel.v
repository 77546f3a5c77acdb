(** Model of the containers of lilya/datastructures.py:36-128 (MultiMixin, MultiDict,
    ImmutableMultiDict), of QueryParam (699-724), Cookie (768-802) and FormData (805-820).
    The multidict package's MultiDict, which they wrap, is a list of entries; names are compared as
    they are.  A Python set of keys has no fixed order: [order] gives the order of its elements. *)
From Verif Require Import PyStr Utf8 UrlModel CookieModel HinModel.

Section Multi.
  Context {V : Type}.
  (** multidict's [getall(key)]; an absent key gives the empty list here. *)
  Definition mgetall (k : str) (l : list (str * V)) : list V := map snd (filter (fun e => seqb (fst e) k) l).
  (** multidict's [get(key)]. *)
  Definition mget (k : str) (l : list (str * V)) : option V := hd_error (mgetall k l).
  (** datastructures.py:39-43 [dump]: [dict(self.items())]. *)
  Definition dump (l : list (str * V)) : dict V := dupdate [] l.
  (** datastructures.py:51-53 [dict]. *)
  Definition as_dict (order : list str -> list str) (l : list (str * V)) : dict (list V) :=
    map (fun k => (k, mgetall k l)) (order (map fst l)).
  (** datastructures.py:55-59 [multi_items]. *)
  Definition mitems (order : list str -> list str) (l : list (str * V)) : list (str * V) :=
    flat_map (fun k => map (pair k) (mgetall k l)) (order (map fst l)).
  (** datastructures.py:80-81 [getlist]. *)
  Definition mgetlist (order : list str -> list str) (k : str) (l : list (str * V)) : list V :=
    map snd (filter (fun e => seqb (fst e) k) (mitems order l)).
  (** datastructures.py:76-78 [to_immutable]: the wrapped multidict is built from the other's items. *)
  Definition to_immutable (l : list (str * V)) : list (str * V) := l.
  (** datastructures.py:109-115 [mutablecopy]. *)
  Definition mutablecopy (order : list str -> list str) (l : list (str * V)) : list (str * V) := mitems order l.
End Multi.

(** The order of texts and of pairs of texts, and [sorted] as an insertion sort. *)
Fixpoint str_leb (a b : str) : bool :=
  match a, b with
  | [], _ => true
  | _ :: _, [] => false
  | x :: a', y :: b' => if N.eqb x y then str_leb a' b' else (x <? y)%N
  end.
Definition pair_leb (a b : str * str) : bool :=
  if seqb (fst a) (fst b) then str_leb (snd a) (snd b) else str_leb (fst a) (fst b).
Fixpoint insert_pair (e : str * str) (l : list (str * str)) : list (str * str) :=
  match l with
  | [] => [e]
  | x :: r => if pair_leb e x then e :: l else x :: insert_pair e r
  end.
Definition sorted (l : list (str * str)) : list (str * str) := fold_right insert_pair [] l.
Fixpoint pairs_eqb (a b : list (str * str)) : bool :=
  match a, b with
  | [], [] => true
  | x :: a', y :: b' => seqb (fst x) (fst y) && seqb (snd x) (snd y) && pairs_eqb a' b'
  | _, _ => false
  end.
(** datastructures.py:88-91, 117-120 [__eq__] of two containers of the same class whose values are
    texts.  Each has its own set of keys, so its own order. *)
Definition multi_eq (order order' : list str -> list str) (a b : list (str * str)) : bool :=
  pairs_eqb (sorted (mitems order a)) (sorted (mitems order' b)).

(** A value of a form: a text or an uploaded file (an object, equal to itself only). *)
Inductive fvalue := FText (t : str) | FFile (n : nat).
(** Comparing two values with "<" after they were found unequal; [None] is the TypeError of a
    comparison that is not defined. *)
Definition value_ltb (a b : fvalue) : option bool :=
  match a, b with FText s, FText t => Some (str_leb s t && negb (seqb s t)) | _, _ => None end.
Definition value_eqb (a b : fvalue) : bool :=
  match a, b with FText s, FText t => seqb s t | FFile m, FFile n => Nat.eqb m n | _, _ => false end.
(** "<" of two pairs: the first components that differ decide. *)
Definition entry_ltb (a b : str * fvalue) : option bool :=
  if seqb (fst a) (fst b) then (if value_eqb (snd a) (snd b) then Some false else value_ltb (snd a) (snd b))
  else Some (str_leb (fst a) (fst b)).
(** [sorted] of at most two entries: two are compared once, the second with the first.  Longer lists
    are left out ([None] stands for the TypeError; the outer option for what is left out). *)
Definition sorted_two (l : list (str * fvalue)) : option (option (list (str * fvalue))) :=
  match l with
  | [] => Some (Some [])
  | [a] => Some (Some [a])
  | [a; b] => Some (match entry_ltb b a with Some true => Some [b; a] | Some false => Some [a; b] | None => None end)
  | _ => None
  end.

(** datastructures.py:704-718 [QueryParam(value)] for the bytes of a scope (_connection.py:113-120)
    and for a text. *)
Definition query_of_bytes (b : str) : res (list (str * str)) :=
  match decode_strict b with Good t => Good (parse_qsl t) | Bad e => Bad e end.
Definition query_of_text (t : str) : list (str * str) := parse_qsl t.
(** datastructures.py:720-721 [__str__]. *)
Definition query_text (order : list str -> list str) (l : list (str * str)) : str := urlencode (sorted (mitems order l)).

(** datastructures.py:768-791 [Cookie]; [description] is never written. *)
Record acookie := {
  k_key : str; k_value : option str; k_max_age : option Z; k_expires : option Z; k_path : option str;
  k_domain : option str; k_secure : option bool; k_httponly : option bool; k_samesite : option str }.
(** What [SimpleCookie] is told by datastructures.py:794-801.  [date] gives the text of the moment
    so many seconds from now (http/cookies.py [_getdate]). *)
Definition morsel (date : Z -> str) (k : acookie) : cookie :=
  {| c_key := k_key k;
     c_value := match k_value k with Some v => v | None => [] end;
     c_path := k_path k; c_domain := k_domain k;
     c_secure := match k_secure k with Some b => b | None => false end;
     c_max_age := match k_max_age k with Some z => if Z.eqb z 0 then None else Some z | None => None end;
     c_expires := option_map date (k_expires k);
     c_httponly := match k_httponly k with Some b => b | None => false end;
     c_samesite := k_samesite k |}.
(** datastructures.py:793-802 [to_header(header=header)]; [None] is a CookieError (bad name). *)
Definition to_header (date : Z -> str) (header : str) (k : acookie) : option str :=
  if smem (lower (k_key k)) reserved || negb (is_legal_key (k_key k)) then None
  else Some (strip (header ++ u " " ++ output_string (morsel date k))).

(** datastructures.py:817-820 [FormData.close], 133-137 [FormMultiDict.close]: the files are closed
    one after the other; [raises n] says that closing file [n] raises.  The result: the files whose
    closing ended well, in order, and whether the call itself ended well. *)
Fixpoint close_all (raises : nat -> bool) (l : list (str * fvalue)) : list nat * bool :=
  match l with
  | [] => ([], true)
  | (_, FText _) :: r => close_all raises r
  | (_, FFile n) :: r => if raises n then ([], false) else let (closed, ok) := close_all raises r in (n :: closed, ok)
  end.
Definition form_close (order : list str -> list str) (raises : nat -> bool) (l : list (str * fvalue)) : list nat * bool :=
  close_all raises (mitems order l).
