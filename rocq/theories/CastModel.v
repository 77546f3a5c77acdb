(** Model of the casts of bound parameters (lilya/params.py [BaseParam.__cast__]). *)
From Verif Require Import PyStr.

Section Cast.
(** Classes, and values of other kinds. *)
Context {C O : Type}.
Inductive val := VStr (s : str) | VBool (b : bool) | VNone | VList (l : list val) | VTuple (l : list val) | VSet (l : list val) | VFrozen (l : list val) | VDict (l : list (val * val)) | VObj (o : O).
(** The types to cast to.  Bare [list], [tuple], [set], [frozenset] and [dict] are those of [Any]; an [Annotated] type is
    the type in it (params.py:11-14). *)
Inductive ty := TAny | TNone | TStr | TBool | TUnion (ts : list ty) | TList (t : ty) | TTuple (ts : list ty) | TTupleOf (t : ty) | TSet (t : ty) | TFrozen (t : ty) | TDict (k v : ty) | TClass (c : C).
(** A value, a TypeError or ValueError, or another exception. *)
Inductive res (A : Type) := Ok (a : A) | Bad | Raises.
Arguments Ok {A}. Arguments Bad {A}. Arguments Raises {A}.
(** Oracles: [str(value)], [bool(value)], a class called with a value, the elements of a set and the items of a dict built
    from a list ([None] if one is not hashable), and [_as_mapping] (params.py:29-41). *)
Context (show : val -> str) (truth : val -> bool) (call : C -> val -> res val) (dedup : list val -> option (list val)) (dedup_items : list (val * val) -> option (list (val * val)))
        (as_mapping : val -> res (list (val * val))).

(** params.py:21-26 [_as_list]. *)
Definition as_list (v : val) : list val := match v with VList l | VTuple l | VSet l | VFrozen l => l | _ => [v] end.
(** params.py:7-8. *)
Definition TRUE_VALUES : list str := [u "true"; u "1"; u "yes"; u "on"; u "t"].
Definition FALSE_VALUES : list str := [u "false"; u "0"; u "no"; u "off"; u "f"].
Fixpoint each {A B} (f : A -> res B) (l : list A) : res (list B) :=
  match l with
  | [] => Ok []
  | x :: r => match f x with Ok y => match each f r with Ok ys => Ok (y :: ys) | Bad => Bad | Raises => Raises end | Bad => Bad | Raises => Raises end
  end.
Definition rmap {A B} (f : A -> B) (r : res A) : res B := match r with Ok a => Ok (f a) | Bad => Bad | Raises => Raises end.
Definition is_str_ty (t : ty) : bool := match t with TStr => true | _ => false end.
Definition is_none_ty (t : ty) : bool := match t with TNone => true | _ => false end.
(** params.py:49-115 [__cast__]. *)
Fixpoint cast_to (t : ty) (v : val) : res val :=
  match t with
  | TAny => Ok v
  | TUnion ts =>
      let arms := filter (fun t => negb (is_none_ty t)) ts in
      if match v with VNone => existsb is_none_ty ts | _ => false end then Ok VNone
      else
        let str_last := match v with VStr _ => existsb is_str_ty arms && Nat.ltb 1 (length arms) | _ => false end in
        (fix go (ts : list ty) : res val :=
           match ts with
           | [] => if str_last then Ok (VStr (show v)) else Bad
           | t :: r => if is_none_ty t || str_last && is_str_ty t then go r
                       else match cast_to t v with Bad => go r | x => x end
           end) ts
  | TBool => match v with
             | VBool b => Ok v
             | VStr s => if smem (lower s) TRUE_VALUES then Ok (VBool true) else if smem (lower s) FALSE_VALUES then Ok (VBool false) else Bad
             | _ => Ok (VBool (truth v))
             end
  | TList t => rmap VList (each (cast_to t) (as_list v))
  | TTupleOf t => rmap VTuple (each (cast_to t) (as_list v))
  | TTuple ts => rmap VTuple ((fix zip (ts : list ty) (l : list val) : res (list val) :=
                                 match ts, l with
                                 | t :: ts, x :: l => match cast_to t x with Ok y => rmap (cons y) (zip ts l) | Bad => Bad | Raises => Raises end
                                 | _, _ => Ok []
                                 end) ts (as_list v))
  | TSet t => match each (cast_to t) (as_list v) with Ok l => match dedup l with Some l => Ok (VSet l) | None => Bad end | Bad => Bad | Raises => Raises end
  | TFrozen t => match each (cast_to t) (as_list v) with Ok l => match dedup l with Some l => Ok (VFrozen l) | None => Bad end | Bad => Bad | Raises => Raises end
  | TDict k w =>
      match as_mapping v with
      | Ok items => match each (fun p => match cast_to k (fst p) with Ok a => rmap (pair a) (cast_to w (snd p)) | Bad => Bad | Raises => Raises end) items with
                    | Ok l => match dedup_items l with Some l => Ok (VDict l) | None => Bad end
                    | Bad => Bad
                    | Raises => Raises
                    end
      | Bad => Bad
      | Raises => Raises
      end
  | TStr => Ok (VStr (show v))
  | TNone => Bad
  | TClass c => call c v
  end.
End Cast.
Arguments val : clear implicits.
Arguments ty : clear implicits.
Arguments Ok {A}. Arguments Bad {A}. Arguments Raises {A}.
