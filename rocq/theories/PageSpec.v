(** What a browser makes of a page: the parts of HTML that the page needs. *)
From Coq Require Import List NArith ZArith Bool.
From Verif Require Import PyStr.
Import ListNotations.

(** Where the reader is: in text, in a tag (with the word being read), in an attribute value (with its name and what has
    been read), in quotes or in apostrophes. *)
Inductive place := InText | InTag (word : str) | InQuotes (name value : str) | InApostrophes (name value : str).
(** What it finds: a character of a text, the start of a tag, a character of a tag, an attribute. *)
Inductive event := Char (c : N) | Tag | Mark (c : N) | Attr (name value : str).

Definition read (p : place) (c : N) : place * list event :=
  match p with
  | InText => if N.eqb c 60 then (InTag [], [Tag]) else (InText, [Char c])
  | InTag w =>
      if N.eqb c 62 then (InText, [Mark c])
      else if N.eqb c 34 then (InQuotes w [], [])
      else if N.eqb c 39 then (InApostrophes w [], [])
      else if N.eqb c 32 || N.eqb c 10 then (InTag [], [Mark c])
      else if N.eqb c 61 then (InTag w, [Mark c])
      else (InTag (w ++ [c]), [Mark c])
  | InQuotes n v => if N.eqb c 34 then (InTag [], [Attr n v]) else (InQuotes n (v ++ [c]), [])
  | InApostrophes n v => if N.eqb c 39 then (InTag [], [Attr n v]) else (InApostrophes n (v ++ [c]), [])
  end.
Fixpoint events (p : place) (s : str) : list event :=
  match s with [] => [] | c :: s' => snd (read p c) ++ events (fst (read p c)) s' end.

(** The tags and attributes, without the texts and the values of the attributes that hold data. *)
Definition structure (es : list event) : list event :=
  flat_map (fun e => match e with
                     | Char _ => []
                     | Tag => [Tag]
                     | Mark c => [Mark c]
                     | Attr n v => if seqb n (u "id") || seqb n (u "data-frame-id") then [Attr n []] else [Attr n v]
                     end) es.

(** The texts between tags. *)
Fixpoint runs (cur : str) (es : list event) : list str :=
  match es with
  | [] => [cur]
  | Char c :: es' => runs (cur ++ [c]) es'
  | Tag :: es' => cur :: runs [] es'
  | _ :: es' => runs cur es'
  end.
Definition texts (s : str) : list str := runs [] (events InText s).

(** The values of an attribute, in the order of the page. *)
Definition attribute (n : str) (s : str) : list str :=
  flat_map (fun e => match e with Attr m v => if seqb m n then [v] else [] | _ => [] end) (events InText s).

(** Character references: those that the page uses.  A reference to the no-break space needs no semicolon, and takes one if
    there is one. *)
Definition references : list (str * N) :=
  [(u "&amp;", 38%N); (u "&lt;", 60%N); (u "&gt;", 62%N); (u "&quot;", 34%N); (u "&#x27;", 39%N); (u "&#8210;", 8210%N); (u "&nbsp;", 160%N); (u "&nbsp", 160%N)].
Fixpoint refer (rs : list (str * N)) (s : str) : option (N * str) :=
  match rs with
  | [] => None
  | (r, c) :: rs' => if prefixb r s then Some (c, skipn (length r) s) else refer rs' s
  end.
Fixpoint decode_n (n : nat) (s : str) : str :=
  match n, s with
  | S n', c :: s' => match refer references s with Some (d, rest) => d :: decode_n n' rest | None => c :: decode_n n' s' end
  | _, _ => []
  end.
Definition decode (s : str) : str := decode_n (length s) s.
