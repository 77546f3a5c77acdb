(** Model of [Envelope] and [MessageMeta] (lilya/contrib/cqrs/messages.py) over the encoders of EncModel.
    [None] is an exception.  Simplified: [int] of a float is a parameter; the registered encoders are the default ones;
    the name of a payload type is a parameter. *)
From Verif Require Import PyStr JsonModel EncModel.
Local Open Scope Z_scope.

(** messages.py:11-29 [MessageMeta], 32-46 [Envelope].  Names and versions read from data need not be texts and
    numbers, so they are values. *)
Record meta := { m_name : pv; m_version : pv; m_headers : pv }.
Record envelope := { e_payload : pv; e_meta : meta }.

(** [bool(v)]; a float literal is falsy when its digits before the exponent are zeros. *)
Definition zero_literal (t : str) : bool :=
  forallb (fun c => negb ((49 <=? c) && (c <=? 57))%N) (hd [] (split_char 101 (lower t))).
Definition truthy (v : pv) : bool :=
  match v with
  | PNone => false
  | PBool b => b
  | PInt z => negb (z =? 0)
  | PFloat t => negb (zero_literal t)
  | PStr s | PBytes s => match s with [] => false | _ => true end
  | PList l | PTuple l | PSet l => match l with [] => false | _ => true end
  | PDict l | PNamed _ l => match l with [] => false | _ => true end
  | _ => true
  end.
(** [a or b]. *)
Definition or_else (a : option pv) (b : pv) : pv := match a with Some v => if truthy v then v else b | None => b end.
(** [v.get(k)]; only dicts have the method. *)
Definition py_get (k : str) (v : pv) : option (option pv) := match v with PDict l => Some (dget k l) | _ => None end.
(** [int(v)]. *)
Definition py_int (int_of_float : str -> option Z) (v : pv) : option Z :=
  match v with
  | PBool b => Some (if b then 1 else 0)
  | PInt z => Some z
  | PFloat t => int_of_float t
  | PStr s => int_parse s
  | _ => None
  end.

(** messages.py:70-75 [_to_plain] and 48-68 [to_json]: the payload is encoded twice. *)
Definition to_plain (n : nat) (v : pv) : option pv := json_encode DEFAULT_ENCODER_TYPES None false n v.
Definition to_json (n : nat) (e : envelope) : option pv :=
  match to_plain n (e_payload e), json_encode DEFAULT_ENCODER_TYPES None false n (m_headers (e_meta e)) with
  | Some payload_obj, Some h =>
      match json_encode DEFAULT_ENCODER_TYPES None false n payload_obj with
      | Some p =>
          Some (PDict [(u "meta", PDict [(u "name", m_name (e_meta e)); (u "version", m_version (e_meta e)); (u "headers", h)]); (u "payload", p)])
      | None => None
      end
  | _, _ => None
  end.
(** messages.py:77-103 [from_json]; [type_name] is [payload_type.__name__]. *)
Definition from_json (int_of_float : str -> option Z) (type_name : str) (t : pt) (data : pv) : option envelope :=
  match py_get (u "meta") data, py_get (u "payload") data with
  | Some m, Some payload =>
      let meta_raw := or_else m (PDict []) in
      match py_get (u "name") meta_raw, py_get (u "version") meta_raw, py_get (u "headers") meta_raw with
      | Some n, Some v, Some h =>
          match py_int int_of_float (or_else v (PInt 1)) with
          | Some version =>
              match apply_structure DEFAULT_ENCODER_TYPES t (match payload with Some p => p | None => PNone end) with
              | Some p =>
                  Some {| e_payload := p;
                          e_meta := {| m_name := or_else n (PStr type_name); m_version := PInt version; m_headers := or_else h (PDict []) |} |}
              | None => None
              end
          | None => None
          end
      | _, _, _ => None
      end
  | _, _ => None
  end.
