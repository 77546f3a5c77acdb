(** Model of header containers and of plain responses: lilya/datastructures.py (MultiMixin,
    MultiDict, Header), lilya/_internal/_helpers.py and the header part of lilya/responses.py. *)
From Verif Require Import PyStr Asgi.

(** multidict's CIMultiDict, which Header extends (datastructures.py:151): a list of entries; two
    names are the same when their lower-case forms are equal.  Simplified to ASCII case folding. *)
Definition headers := list (str * str).
Definition same_name (a b : str) : bool := seqb (lower a) (lower b).
(** [getall(key, default=[])]; datastructures.py:205-207 [Header.get_all]. *)
Definition hgetall (k : str) (h : headers) : list str := map snd (filter (fun e => same_name (fst e) k) h).
(** [get(key)]. *)
Definition hget (k : str) (h : headers) : option str := hd_error (hgetall k h).
(** [key in h]; datastructures.py:238-246, for a text. *)
Definition hcontains (k : str) (h : headers) : bool := existsb (fun e => same_name (fst e) k) h.
(** [add(key, value)]. *)
Definition hadd (k v : str) (h : headers) : headers := h ++ [(k, v)].
(** [h[key] = value]: the first entry is replaced, the others are removed. *)
Fixpoint hset (k v : str) (h : headers) : headers :=
  match h with
  | [] => [(k, v)]
  | e :: r => if same_name (fst e) k then (k, v) :: filter (fun e => negb (same_name (fst e) k)) r else e :: hset k v r
  end.
(** [del h[key]]: all entries go. *)
Definition hdel (k : str) (h : headers) : headers := filter (fun e => negb (same_name (fst e) k)) h.
(** [pop(key)]: the first entry goes. *)
Fixpoint hpop (k : str) (h : headers) : headers :=
  match h with
  | [] => []
  | e :: r => if same_name (fst e) k then r else e :: hpop k r
  end.

(** Operations on a header container and their results. *)
Inductive hop := HAdd (k v : str) | HSet (k v : str) | HDel (k : str) | HDefault (k v : str) | HPop (k : str).
Inductive hout := HNone | HVal (v : str) | HKeyError.
Definition hstep (h : headers) (o : hop) : headers * hout :=
  match o with
  | HAdd k v => (hadd k v h, HNone)
  | HSet k v => (hset k v h, HNone)
  | HDel k => if hcontains k h then (hdel k h, HNone) else (h, HKeyError)
  | HDefault k v => match hget k h with Some x => (h, HVal x) | None => (hadd k v h, HVal v) end
  | HPop k => match hget k h with Some x => (hpop k h, HVal x) | None => (h, HKeyError) end
  end.
Fixpoint hrun (h : headers) (ops : list hop) : headers * list hout :=
  match ops with
  | [] => (h, [])
  | o :: r => let '(h1, x) := hstep h o in let '(h2, xs) := hrun h1 r in (h2, x :: xs)
  end.

(** datastructures.py:55-59 [multi_items]: for each element of the set of keys, all its values.  A
    Python set of keys has no fixed order: [order] gives the order of its elements. *)
Definition multi_items (order : list str -> list str) (h : headers) : list (str * str) :=
  flat_map (fun k => map (pair k) (hgetall k h)) (order (map fst h)).
(** datastructures.py:227-236 [encoded_multi_items], [__iter__]: what the server reads; encoding to
    bytes is left out. *)
Definition wire := multi_items.
(** datastructures.py:80-81 [getlist]. *)
Definition getlist (order : list str -> list str) (k : str) (h : headers) : list str :=
  map snd (filter (fun e => seqb (fst e) k) (multi_items order h)).
(** datastructures.py:83-86 [poplist]; [None] is KeyError. *)
Definition poplist (order : list str -> list str) (k : str) (h : headers) : option (list str * headers) :=
  if hcontains k h then Some (getlist order k h, hpop k h) else None.

(** datastructures.py:221-225 [add_vary_header]. *)
Definition add_vary_header (vary : str) (h : headers) : headers :=
  hset (u "vary") (match hget (u "vary") h with Some x => join (u ", ") [x; vary] | None => vary end) h.

(** ** Responses *)
(** _helpers.py:10-22. *)
Definition entity_headers : list str :=
  [u "allow"; u "content-encoding"; u "content-language"; u "content-length"; u "content-location"; u "content-md5";
   u "content-range"; u "content-type"; u "expires"; u "last-modified"; u "extension-header"].
(** _helpers.py:24-32. *)
Definition is_entity_header (k : str) : bool := smem (lower k) entity_headers.
Definition has_entity_header_status (st : Z) : bool := Z.eqb st 304 || Z.eqb st 412.
(** _helpers.py:34-53, with the default allowed names. *)
Definition remove_entity_headers (d : dict str) : dict str :=
  filter (fun e => negb (is_entity_header (fst e)) || smem (lower (fst e)) [u "content-location"; u "expires"]) d.
(** _helpers.py:55-64. *)
Definition has_body_message (st : Z) : bool :=
  negb (Z.eqb st 204 || Z.eqb st 304) && negb ((100 <=? st) && (st <? 200))%Z.
(** _helpers.py:66-73. *)
Definition get_content_type (charset : str) (media : option str) : option str :=
  match media with
  | Some m => if prefixb (u "text/") m then Some (m ++ u "; charset=" ++ charset) else Some m
  | None => None
  end.
(** dict.setdefault. *)
Definition setdefault (k v : str) (d : dict str) : dict str := match dget k d with Some _ => d | None => dset k v d end.

(** responses.py:209-238 [make_headers] for a body known at construction and no media type
    detection.  [given] is the dict passed by the caller.  The result is the response's headers and
    what the caller's dict has become: it is the very dict the defaults are written to, unless
    entity headers were removed, which makes a copy. *)
Definition make_headers (st : Z) (body : str) (charset : str) (media : option str) (given : dict str) : headers * dict str :=
  let h := if has_entity_header_status st then remove_entity_headers given else given in
  let h := if has_body_message st then
             let h := setdefault (u "content-length") (dec (N.of_nat (length body))) h in
             match get_content_type charset media with Some t => setdefault (u "content-type") t h | None => h end
           else h in
  (h, if has_entity_header_status st then given else h).

(** responses.py:343-360 [__call__] on an http scope; the start message holds the Header, which the
    server iterates. *)
Definition respond (order : list str -> list str) (st : Z) (h : headers) (body : str) : list amsg :=
  [AStart st (wire order h); ABody body false].
