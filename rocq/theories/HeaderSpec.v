(** Independent specification of header containers: a map from lower-case names to values. *)
From Verif Require Import PyStr Asgi HeaderModel.

Definition amap := str -> list str.
Definition aput (m : amap) (n : str) (vs : list str) : amap := fun x => if seqb x n then vs else m x.
Definition astep (m : amap) (o : hop) : amap * hout :=
  match o with
  | HAdd k v => (aput m (lower k) (m (lower k) ++ [v]), HNone)
  | HSet k v => (aput m (lower k) [v], HNone)
  | HDel k => match m (lower k) with [] => (m, HKeyError) | _ => (aput m (lower k) [], HNone) end
  | HDefault k v => match m (lower k) with [] => (aput m (lower k) [v], HVal v) | x :: _ => (m, HVal x) end
  | HPop k => match m (lower k) with [] => (m, HKeyError) | x :: r => (aput m (lower k) r, HVal x) end
  end.
Fixpoint arun (m : amap) (ops : list hop) : amap * list hout :=
  match ops with
  | [] => (m, [])
  | o :: r => let '(m1, x) := astep m o in let '(m2, xs) := arun m1 r in (m2, x :: xs)
  end.
Definition empty : amap := fun _ => [].

(** The values a list of header lines holds for a lower-case name. *)
Definition values (n : str) (l : list (str * str)) : list str := map snd (filter (fun e => seqb (lower (fst e)) n) l).

(** An order for sets: the elements, each once. *)
Definition set_order (order : list str -> list str) : Prop :=
  forall l, NoDup (order l) /\ forall x, In x (order l) <-> In x l.

Definition op_key (o : hop) : str := match o with HAdd k _ | HSet k _ | HDel k | HDefault k _ | HPop k => k end.
(** The program writes the name [n] always in the same way. *)
Definition one_spelling (ops : list hop) (n : str) : Prop :=
  forall o o', In o ops -> In o' ops -> lower (op_key o) = n -> lower (op_key o') = n -> op_key o = op_key o'.

(** RFC 2616, 7.1: the entity headers. *)
Definition rfc_entity : list str :=
  [u "allow"; u "content-encoding"; u "content-language"; u "content-length"; u "content-location"; u "content-md5";
   u "content-range"; u "content-type"; u "expires"; u "last-modified"].
(** RFC 2616, 4.3: statuses whose responses may have a body. *)
Definition may_have_body (st : Z) : Prop := (200 <= st < 600)%Z /\ st <> 204%Z /\ st <> 304%Z.
