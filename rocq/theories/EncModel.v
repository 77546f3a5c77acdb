(** Model of lilya/_internal/_encoders.py: the registry of encoders, [json_encode] and [apply_structure], over the
    JSON of JsonModel.
    Simplified: the keys of dicts and the values of enums are texts; paths, timedeltas, [model_dump] objects, aware
    datetimes and memoryviews are left out; one context, so that [ENCODER_TYPES] is a variable; json's check for
    cycles is left out. *)
From Verif Require Import PyStr Base64 Utf8 JsonModel.
Local Open Scope N_scope.

(** Values, and the classes among them that [apply_structure] knows. *)
Inductive pv :=
  | PNone | PBool (b : bool) | PInt (z : Z) | PFloat (literal : str) | PStr (s : str)
  | PList (l : list pv) | PTuple (l : list pv) | PSet (l : list pv) | PDict (l : list (str * pv))
  | PData (cls : str) (l : list (str * pv))      (* an instance of a dataclass *)
  | PNamed (cls : str) (l : list (str * pv))     (* a named tuple *)
  | PEnum (cls s : str) | PBytes (b : str) | PUuid (n : N)
  | PDate (y m d : N) | PDateTime (y m d hh mm ss us : N)
  | POther (cls : str).
Inductive pt :=
  | TData (cls : str) (fields : list str) | TNamed (cls : str) (fields : list str) | TEnum (cls : str) (members : list str)
  | TBytes | TUuid | TDate | TDateTime | TList | TOther (cls : str).

(** What an encoder offers; [None] for a method it lacks, and for an exception. *)
Record encoder := {
  e_name : str;
  e_is : pv -> bool;
  e_ser : option (pv -> option pv);
  e_struct : option (pt -> bool);
  e_encode : option (pt -> pv -> option pv)
}.

(** ** Texts of the standard library *)
(** Numbers with leading zeros. *)
Fixpoint pad (w : nat) (n : N) : str := match w with O => [] | S w => pad w (n / 10) ++ [48 + n mod 10] end.
Fixpoint hexpad (w : nat) (n : N) : str := match w with O => [] | S w => hexpad w (n / 16) ++ [hexlow (n mod 16)] end.
Definition fixed (s : str) : option N := if forallb is_digit s then Some (digits_val s) else None.
Fixpoint hexnum (acc : N) (s : str) : option N :=
  match s with [] => Some acc | c :: r => match hexval c with Some v => hexnum (acc * 16 + v) r | None => None end end.
(** uuid.py:280-283 [UUID.__str__] and 174-179 [UUID.__init__]; int(hex, 16) without signs and underscores. *)
Definition uuid_str (n : N) : str :=
  let h := hexpad 32 n in
  firstn 8 h ++ [45] ++ firstn 4 (skipn 8 h) ++ [45] ++ firstn 4 (skipn 12 h) ++ [45] ++ firstn 4 (skipn 16 h) ++ [45] ++ skipn 20 h.
Definition uuid_parse (s : str) : option N :=
  let h := replace (u "uuid:") [] (replace (u "urn:") [] s) in
  let h := filter (fun c => negb (c =? 45)) (strip_by (fun c => (c =? 123) || (c =? 125)) h) in
  if Nat.eqb (length h) 32 then hexnum 0 h else None.
(** _pydatetime.py [_is_leap], [_days_in_month], [_check_date_fields], [_check_time_fields]. *)
Definition leap (y : N) : bool := (y mod 4 =? 0) && (negb (y mod 100 =? 0) || (y mod 400 =? 0)).
Definition month_days (y m : N) : N :=
  if m =? 2 then if leap y then 29 else 28 else if (m =? 4) || (m =? 6) || (m =? 9) || (m =? 11) then 30 else 31.
Definition good_date (y m d : N) : bool :=
  (1 <=? y) && (y <=? 9999) && (1 <=? m) && (m <=? 12) && (1 <=? d) && (d <=? month_days y m).
Definition good_time (hh mm ss us : N) : bool := (hh <? 24) && (mm <? 60) && (ss <? 60) && (us <? 1000000).
(** _pydatetime.py:1056-1065, 168-187, 2036-2064 [isoformat] of naive values. *)
Definition date_str (y m d : N) : str := pad 4 y ++ [45] ++ pad 2 m ++ [45] ++ pad 2 d.
Definition time_str (hh mm ss us : N) : str :=
  pad 2 hh ++ [58] ++ pad 2 mm ++ [58] ++ pad 2 ss ++ (if us =? 0 then [] else [46] ++ pad 6 us).
(** _pydatetime.py:1849-1877 [datetime.fromisoformat]: of its formats only YYYY-MM-DD, alone or with any separator
    and HH:MM:SS or HH:MM:SS.ffffff; the year, month, day, hour, minute, second and microsecond. *)
Definition iso_date (s : str) : option (N * N * N) :=
  match s with
  | [y1; y2; y3; y4; a; m1; m2; b; d1; d2] =>
      if (a =? 45) && (b =? 45) then
        match fixed [y1; y2; y3; y4], fixed [m1; m2], fixed [d1; d2] with Some y, Some m, Some d => Some (y, m, d) | _, _, _ => None end
      else None
  | _ => None
  end.
Definition iso_time (s : str) : option (N * N * N * N) :=
  match s with
  | [] => Some (0, 0, 0, 0)
  | h1 :: h2 :: a :: m1 :: m2 :: b :: s1 :: s2 :: r =>
      if (a =? 58) && (b =? 58) then
        match fixed [h1; h2], fixed [m1; m2], fixed [s1; s2], match r with [] => Some 0 | c :: f => if (c =? 46) && Nat.eqb (length f) 6 then fixed f else None end with
        | Some hh, Some mm, Some ss, Some us => Some (hh, mm, ss, us)
        | _, _, _, _ => None
        end
      else None
  | _ => None
  end.
Definition fromisoformat (s : str) : option pv :=
  match iso_date (firstn 10 s), iso_time (skipn 11 s) with
  | Some (y, m, d), Some (hh, mm, ss, us) => if good_date y m d && good_time hh mm ss us then Some (PDateTime y m d hh mm ss us) else None
  | _, _ => None
  end.
(** dataclasses.py [asdict]. *)
Fixpoint asdict (v : pv) : pv :=
  match v with
  | PData _ l => PDict (map (fun e => (fst e, asdict (snd e))) l)
  | PNamed c l => PNamed c (map (fun e => (fst e, asdict (snd e))) l)
  | PList l => PList (map asdict l)
  | PTuple l => PTuple (map asdict l)
  | PDict l => PDict (map (fun e => (fst e, asdict (snd e))) l)
  | _ => v
  end.
Fixpoint all_some {A} (l : list (option A)) : option (list A) :=
  match l with
  | [] => Some []
  | None :: _ => None
  | Some a :: r => match all_some r with Some r => Some (a :: r) | None => None end
  end.
(** [structure( **value)] of a class with these fields and no defaults: the values in the order of the fields. *)
Definition by_name (fields : list str) (l : list (str * pv)) : option (list (str * pv)) :=
  if Nat.eqb (length l) (length fields)
  then all_some (map (fun f => match dget f l with Some v => Some (f, v) | None => None end) fields)
  else None.
(** [structure( *value)]. *)
Definition by_place (fields : list str) (l : list pv) : option (list (str * pv)) :=
  if Nat.eqb (length l) (length fields) then Some (combine fields l) else None.

(** ** The encoders of _encoders.py:67-209 *)
Definition DataclassEncoder : encoder := {|
  e_name := u "DataclassEncoder";
  e_is v := match v with PData _ _ => true | _ => false end;
  e_ser := Some (fun v => Some (asdict v));
  e_struct := Some (fun t => match t with TData _ _ => true | _ => false end);
  e_encode := Some (fun t v => match t, v with TData c fs, PDict l => option_map (PData c) (by_name fs l) | _, _ => None end) |}.
Definition NamedTupleEncoder : encoder := {|
  e_name := u "NamedTupleEncoder";
  e_is v := match v with PNamed _ _ => true | _ => false end;
  e_ser := Some (fun v => match v with PNamed _ l => Some (PDict l) | _ => None end);
  e_struct := Some (fun t => match t with TNamed _ _ => true | _ => false end);
  e_encode := Some (fun t v =>
    match t, v with
    | TNamed c fs, PDict l => option_map (PNamed c) (by_name fs l)
    | TNamed c fs, (PList l | PTuple l) => option_map (PNamed c) (by_place fs l)
    | _, _ => None
    end) |}.
Definition EnumEncoder : encoder := {|
  e_name := u "EnumEncoder";
  e_is v := match v with PEnum _ _ => true | _ => false end;
  e_ser := Some (fun v => match v with PEnum _ s => Some (PStr s) | _ => None end);
  e_struct := Some (fun t => match t with TEnum _ _ => true | _ => false end);
  e_encode := Some (fun t v => match t, v with TEnum c ms, PStr s => if smem s ms then Some (PEnum c s) else None | _, _ => None end) |}.
Definition DateEncoder : encoder := {|
  e_name := u "DateEncoder";
  e_is v := match v with PDate _ _ _ | PDateTime _ _ _ _ _ _ _ => true | _ => false end;
  e_ser := Some (fun v =>
    match v with
    | PDate y m d => Some (PStr (date_str y m d))
    | PDateTime y m d hh mm ss us => Some (PStr (date_str y m d ++ [84] ++ time_str hh mm ss us))
    | _ => None
    end);
  e_struct := Some (fun t => match t with TDate | TDateTime => true | _ => false end);
  e_encode := Some (fun t v =>
    match v with
    | PStr s =>
        match fromisoformat s, t with
        | Some (PDateTime y m d _ _ _ _ as o), TDateTime => Some o
        | Some (PDateTime y m d _ _ _ _), _ => Some (PDate y m d)
        | _, _ => None
        end
    | _ => None
    end) |}.
Definition BytesEncoder : encoder := {|
  e_name := u "BytesEncoder";
  e_is v := match v with PBytes _ => true | _ => false end;
  e_ser := Some (fun v => match v with PBytes b => Some (PStr (b64encode b)) | _ => None end);
  e_struct := Some (fun t => match t with TBytes => true | _ => false end);
  e_encode := Some (fun _ v =>
    match v with
    | PStr s => if forallb (fun c => c <? 128) s then option_map PBytes (b64decode s) else None
    | _ => None
    end) |}.
Definition StructureEncoder : encoder := {|
  e_name := u "StructureEncoder";
  e_is v := match v with PList _ | PTuple _ | PSet _ | PNamed _ _ => true | _ => false end;
  e_ser := Some (fun v =>
    match v with PList l | PTuple l | PSet l => Some (PList l) | PNamed _ l => Some (PList (map snd l)) | _ => None end);
  e_struct := Some (fun t => match t with TList => true | _ => false end);
  e_encode := Some (fun _ v =>
    match v with
    | PStr s => Some (PList (map (fun c => PStr [c]) s))
    | PDict l => Some (PList (map (fun e => PStr (fst e)) l))
    | PBytes b => Some (PList (map (fun c => PInt (Z.of_N c)) b))
    | _ => None
    end) |}.
Definition UUIDEncoder : encoder := {|
  e_name := u "UUIDEncoder";
  e_is v := match v with PUuid _ => true | _ => false end;
  e_ser := Some (fun v => match v with PUuid n => Some (PStr (uuid_str n)) | _ => None end);
  e_struct := Some (fun t => match t with TUuid => true | _ => false end);
  e_encode := Some (fun _ v => match v with PStr s => option_map PUuid (uuid_parse s) | _ => None end) |}.
(** _encoders.py:197-210. *)
Definition DEFAULT_ENCODER_TYPES : list encoder :=
  [DataclassEncoder; NamedTupleEncoder; EnumEncoder; DateEncoder; BytesEncoder; StructureEncoder; UUIDEncoder].

(** ** The registry and its use *)
(** _encoders.py:260-288 [register_encoder]: the first of the same name is removed, the new one goes first. *)
Fixpoint remove_first (n : str) (l : list encoder) : list encoder :=
  match l with
  | [] => []
  | e :: r => if seqb (e_name e) n then r else e :: remove_first n r
  end.
Definition register_encoder (e : encoder) (types : list encoder) : list encoder := e :: remove_first (e_name e) types.

(** _encoders.py:291-318 [json_encode_default]; [None] is a ValueError. *)
Fixpoint chosen (types : list encoder) (v : pv) : option encoder :=
  match types with
  | [] => None
  | e :: r => match e_ser e with Some _ => if e_is e v then Some e else chosen r v | None => chosen r v end
  end.
Definition json_encode_default (types : list encoder) (v : pv) : option pv :=
  match chosen types v with
  | Some e => match e_ser e with Some f => f v | None => None end
  | None => None
  end.
(** json/encoder.py [_make_iterencode]: natively known values, and [default] for the others.  [n] bounds the depth. *)
Fixpoint conv (types : list encoder) (n : nat) (v : pv) : option jvalue :=
  match n with
  | O => None
  | S n =>
      match v with
      | PNone => Some JNull
      | PBool b => Some (JBool b)
      | PInt z => Some (JInt z)
      | PFloat t => Some (JFloat t)
      | PStr s => Some (JStr s)
      | PList l | PTuple l => option_map JArr (all_some (map (conv types n) l))
      | PNamed _ l => option_map JArr (all_some (map (fun e => conv types n (snd e)) l))
      | PDict l => option_map JObj (all_some (map (fun e => match conv types n (snd e) with Some j => Some (fst e, j) | None => None end) l))
      | _ => match json_encode_default types v with Some w => conv types n w | None => None end
      end
  end.
(** _encoders.py:321-335 [_exclude_none_recursively]. *)
Definition is_none (v : pv) : bool := match v with PNone => true | _ => false end.
Fixpoint exclude_none (v : pv) : pv :=
  match v with
  | PDict l => PDict (flat_map (fun e => if is_none (snd e) then [] else [(fst e, exclude_none (snd e))]) l)
  | PList l => PList (flat_map (fun v => if is_none v then [] else [exclude_none v]) l)
  | PTuple l => PTuple (flat_map (fun v => if is_none v then [] else [exclude_none v]) l)
  | PNamed _ l => PTuple (flat_map (fun e => if is_none (snd e) then [] else [exclude_none (snd e)]) l)
  | PSet l => PSet (flat_map (fun v => if is_none v then [] else [exclude_none v]) l)
  | _ => v
  end.
(** What json.loads makes of a text, as a value. *)
Fixpoint back (j : jvalue) : pv :=
  match j with
  | JNull => PNone | JBool b => PBool b | JInt z => PInt z | JFloat t => PFloat t | JStr s => PStr s
  | JArr l => PList (map back l)
  | JObj l => PDict (map (fun e => (fst e, back (snd e))) l)
  end.
(** _encoders.py:338-392 [json_encode] with json.dumps and json.loads; [with_encoders] replaces the registered ones
    and then [exclude_none] is applied twice. *)
Definition json_text (types : list encoder) (with_encoders : option (list encoder)) (exclude : bool) (n : nat) (v : pv) : option str :=
  let v := if exclude then exclude_none v else v in
  match with_encoders with
  | None => match conv types n v with Some j => dumps j | None => None end
  | Some l => let v := if exclude then exclude_none v else v in match conv l n v with Some j => dumps j | None => None end
  end.
Definition json_encode (types : list encoder) (with_encoders : option (list encoder)) (exclude : bool) (n : nat) (v : pv) : option pv :=
  match json_text types with_encoders exclude n v with
  | Some t => option_map back (loads t)
  | None => None
  end.
(** _encoders.py:399-440 [apply_structure]. *)
Fixpoint apply_structure (types : list encoder) (t : pt) (v : pv) : option pv :=
  match types with
  | [] => Some v
  | e :: r =>
      match e_encode e, e_struct e with
      | Some enc, Some is_struct => if is_struct t then if e_is e v then Some v else enc t v else apply_structure r t v
      | _, _ => apply_structure r t v
      end
  end.

(** A process: encoders are registered and values encoded, some with encoders of their own. *)
Inductive act :=
  | Register (e : encoder)
  | Encode (with_encoders : option (list encoder)) (exclude : bool) (n : nat) (v : pv)
  | Apply (with_encoders : option (list encoder)) (t : pt) (v : pv).
(** _encoders.py:376-392, 432-440: the registered encoders are put back whatever happens. *)
Definition step (types : list encoder) (a : act) : list encoder * option pv :=
  match a with
  | Register e => (register_encoder e types, None)
  | Encode w x n v => (types, json_encode types w x n v)
  | Apply w t v => (types, apply_structure (match w with Some l => l | None => types end) t v)
  end.
Fixpoint run (types : list encoder) (acts : list act) : list encoder * list (option pv) :=
  match acts with
  | [] => (types, [])
  | a :: r => let (types, o) := step types a in let (types, os) := run types r in (types, o :: os)
  end.
