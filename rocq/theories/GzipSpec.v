(** What C38 and C73 say. *)
From Verif Require Import PyStr Asgi HeaderModel HeaderSpec GzipModel.

(** The bytes a gzip file has after writing chunks and closing it. *)
Fixpoint feed {G} (z : gzip G) (g : G) (chunks : list str) : str :=
  match chunks with [] => gclose z g | c :: r => let '(g', o) := gwrite z g c in o ++ feed z g' r end.
(** A decoder gives back what was written, in whatever chunks. *)
Definition decodes {G} (z : gzip G) (gunzip : str -> option str) : Prop :=
  forall chunks, gunzip (feed z (gnew z) chunks) = Some (concat chunks).

(** The lines of a name are the same, up to their order. *)
Definition same_lines (n : str) (h h' : list (str * str)) : Prop := forall v, In v (values n h') <-> In v (values n h).
(** The response is passed on: the same status, headers and body messages. *)
Definition passed (ms out : list amsg) : Prop :=
  exists st h h' bodies, ms = AStart st h :: bodies /\ out = AStart st h' :: bodies /\ forall n, same_lines n h h'.
(** It is compressed: the body sent decodes to the original one, and the headers say so. *)
Definition vary_list (h : list (str * str)) : list str := flat_map (fun v => map strip (split_char 44 v)) (values (u "vary") h).
Definition compressed (gunzip : str -> option str) (ms out : list amsg) : Prop :=
  exists st h h' bodies bodies', ms = AStart st h :: bodies /\ out = AStart st h' :: bodies'
    /\ gunzip (abytes out) = Some (abytes ms)
    /\ values (u "content-encoding") h' = [u "gzip"]
    /\ (forall v, In v (values (u "content-length") h') -> v = dec (N.of_nat (length (abytes out))))
    /\ In (u "Accept-Encoding") (vary_list h')
    /\ (length (values (u "vary") h) <= 1 -> incl (vary_list h) (vary_list h'))
    /\ forall n, n <> u "content-encoding" -> n <> u "content-length" -> n <> u "vary" -> same_lines n h h'.
(** The response may be compressed: it has no encoding, and is not a single small body. *)
Definition eligible (min : nat) (ms : list amsg) : Prop :=
  exists st h bodies, ms = AStart st h :: bodies /\ values (u "content-encoding") h = [] /\ ~ exists b, bodies = [ABody b false] /\ length b < min.

(** RFC 9110, 12.5.3: the client accepts gzip: a listed coding of that name (or [*]) whose weight is not
    zero. *)
Definition weight_zero (params : list str) : Prop := exists q, In q (map strip params) /\ In q [u "q=0"; u "q=0.0"; u "q=0.00"; u "q=0.000"].
Definition accepts_gzip (req : headers) : Prop :=
  exists v item name params, In v (values (u "accept-encoding") req) /\ In item (split_char 44 v) /\ split_char 59 item = name :: params
    /\ In (lower (strip name)) [u "gzip"; u "x-gzip"; u "*"] /\ ~ weight_zero params.
(** The texts where the middleware looks. *)
Definition mentions_gzip (req : headers) : Prop := exists v r x y, values (u "accept-encoding") req = v :: r /\ v = x ++ u "gzip" ++ y.
