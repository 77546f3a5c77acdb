(** Specification for [DirsModel]. *)
From Coq Require Import Sorted.
From Verif Require Import PyStr.

(** Names of directives: module names, so without a dot; and none of the two keys that the dictionaries use themselves. *)
Definition plain_name (n : str) : Prop := ~ In 46%N n /\ n <> u "name" /\ n <> u "location" /\ n <> u "lilya.core".
(** The order of texts. *)
Fixpoint text_le (a b : str) : bool :=
  match a, b with
  | [], _ => true
  | _ :: _, [] => false
  | x :: a', y :: b' => ((x <? y) || ((x =? y) && text_le a' b'))%N
  end.
Definition by_location (ds : list (str * str)) : Prop := Sorted (fun a b => text_le (snd a) (snd b) = true) ds.
