(** What making a header container should give. *)
From Verif Require Import PyStr Utf8 Asgi HeaderModel HinModel.

(** Texts of Unicode characters, and the bytes that say such a text in UTF-8. *)
Definition characters (t : str) : Prop := forall c, In c t -> scalar c.
Definition says (b t : str) : Prop := characters t /\ b = utf8_enc t.
Definition utf8 (b : str) : Prop := exists t, says b t.

(** The names of headers as servers give them: ASCII without capitals. *)
Definition plain_name (n : str) : Prop := forall c, In c n -> (c < 128 /\ ~ (65 <= c <= 90))%N.

(** Two lists of header lines that have the same lines, under each name in the same order. *)
Definition lines_under (n : str) (l : list (str * str)) : list (str * str) := filter (fun e => seqb (fst e) n) l.
Definition same_lines (a b : list (str * str)) : Prop := forall n, lines_under n a = lines_under n b.

(** The headers of a request. *)
Definition request (ps : list (str * str)) : source := SPairs (map (fun p => (Bytes (fst p), Bytes (snd p))) ps).

(** What bytes or a str mean. *)
Definition reads (x : btext) (t : str) : Prop := match x with Bytes b => says b t | Text s => s = t end.
(** The lines that a dict asks for. *)
Inductive asks : list (btext * item) -> list (str * str) -> Prop :=
| asks_nil : asks [] []
| asks_one k key x v r h : reads k key -> reads x v -> asks r h -> asks ((k, One x) :: r) ((key, v) :: h)
| asks_many k key xs vs r h : reads k key -> Forall2 reads xs vs -> asks r h -> asks ((k, Many xs) :: r) (map (fun v => (key, v)) vs ++ h).
