(** How a browser reads the documentation pages: texts that are the same for all requests, and between them quoted values. *)
From Verif Require Import PyStr.

Inductive piece := Fixed (s : str) | Value.

(** A quoted text of a script, after the opening quote: its value and what follows the closing quote. A line end is an error,
    and [</] or [<!] may end the script. Of the escapes only those of the quotes, of the slash and of the backslash are read. *)
Definition put (c : N) (o : option (str * str)) : option (str * str) := match o with Some (v, t) => Some (c :: v, t) | None => None end.
Fixpoint js_text (s : str) : option (str * str) :=
  match s with
  | [] => None
  | c :: r =>
      if (c =? 39)%N then Some ([], r)
      else if (c =? 10)%N || (c =? 13)%N then None
      else if (c =? 60)%N && match r with d :: _ => (d =? 47)%N || (d =? 33)%N | [] => false end then None
      else if (c =? 92)%N then match r with d :: r' => if cmem d (u "'""\/") then put d (js_text r') else None | [] => None end
      else put c (js_text r)
  end.

(** The value of an attribute, after the opening quote. Of the character references those of the five special characters
    are read. *)
Fixpoint attr_text (s : str) : option (str * str) :=
  match s with
  | [] => None
  | c :: r =>
      if (c =? 34)%N then Some ([], r)
      else if (c =? 38)%N then
        match r with
        | c1 :: c2 :: c3 :: r3 =>
            if seqb [c1; c2; c3] (u "lt;") then put 60 (attr_text r3)
            else if seqb [c1; c2; c3] (u "gt;") then put 62 (attr_text r3)
            else match r3 with
                 | c4 :: r4 =>
                     if seqb [c1; c2; c3; c4] (u "amp;") then put 38 (attr_text r4)
                     else match r4 with
                          | c5 :: r5 =>
                              if seqb [c1; c2; c3; c4; c5] (u "quot;") then put 34 (attr_text r5)
                              else if seqb [c1; c2; c3; c4; c5] (u "#x27;") then put 39 (attr_text r5)
                              else put c (attr_text r)
                          | [] => put c (attr_text r)
                          end
                 | [] => put c (attr_text r)
                 end
        | _ => put c (attr_text r)
        end
      else put c (attr_text r)
  end.

(** The values of a page whose fixed texts are known; the whole page has to be read. *)
Fixpoint values (read : str -> option (str * str)) (ps : list piece) (t : str) : option (list str) :=
  match ps with
  | [] => match t with [] => Some [] | _ => None end
  | Fixed s :: ps' => if prefixb s t then values read ps' (skipn (length s) t) else None
  | Value :: ps' =>
      match read t with
      | Some (v, t') => match values read ps' t' with Some vs => Some (v :: vs) | None => None end
      | None => None
      end
  end.

(** Characters that mean nothing special inside quotes. *)
Definition harmless (s : str) : Prop := forall c, In c s -> ~ In c (u "'""\<&") /\ c <> 10%N /\ c <> 13%N.
