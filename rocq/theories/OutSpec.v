(** What a client makes of a response: the file name of a Content-Disposition header as RFC 6266 and RFC 5987 define
    it, and the elements of an XML text. *)
From Verif Require Import PyStr Utf8 OutModel.
Local Open Scope N_scope.

(** ** Content-Disposition *)
(** RFC 5987: ALPHA / DIGIT / one of !#$&+-.^_`|~ stands for itself, %XX for a byte. *)
Definition attr_char (c : N) : bool :=
  between 48 57 c || between 65 90 c || between 97 122 c || cmem c (u "!#$&+-.^_`|~").
(** The bytes of an extended value; [also] are further characters a client puts up with. *)
Fixpoint ext_value (also : str) (s : str) : option str :=
  match s with
  | [] => Some []
  | c :: r =>
      if c =? 37 then
        match r with
        | a :: (b :: r2) => match hexval a, hexval b, ext_value also r2 with
                            | Some x, Some y, Some t => Some ((x * 16 + y) :: t)
                            | _, _, _ => None
                            end
        | _ => None
        end
      else if attr_char c || cmem c also then match ext_value also r with Some t => Some (c :: t) | None => None end
      else None
  end.
(** RFC 7230: the text of a quoted string, up to its closing quote, which must end the header. *)
Fixpoint quoted_string (s : str) : option str :=
  match s with
  | [] => None
  | c :: r =>
      if c =? 34 then match r with [] => Some [] | _ => None end
      else if c =? 92 then match r with
                           | d :: r2 => match quoted_string r2 with Some t => Some (d :: t) | None => None end
                           | [] => None
                           end
      else if between 32 126 c then match quoted_string r with Some t => Some (c :: t) | None => None end
      else None
  end.
(** The disposition and the file name of a header with at most one parameter. *)
Definition cut (p s : str) : option str := if prefixb p s then Some (skipn (length p) s) else None.
Definition understand (also : str) (header : str) : option (str * option str) :=
  match cut (u "attachment; filename*=utf-8''") header with
  | Some v => match ext_value also v with Some b => Some (u "attachment", Some (utf8_dec b)) | None => None end
  | None =>
      match cut (u "attachment; filename=""") header with
      | Some v => match quoted_string v with Some n => Some (u "attachment", Some n) | None => None end
      | None => if seqb header (u "attachment") || seqb header (u "inline") then Some (header, None) else None
      end
  end.
(** Characters that cannot end the header or start another one, and that every client reads the same. *)
Definition header_text (s : str) : Prop := forall c, In c s -> 32 <= c <= 126.

(** ** XML *)
Inductive node := Elem (name : str) (children : list node) | Chars (s : str).
Definition name_start (c : N) : bool := between 65 90 c || between 97 122 c || (c =? 95) || (c =? 58).
Definition name_char (c : N) : bool := name_start c || between 48 57 c || (c =? 45) || (c =? 46).
Definition is_name (s : str) : bool := match s with c :: r => name_start c && forallb name_char r | [] => false end.
(** XML 1.0 production 2, without the carriage return (which a reader does not keep). *)
Definition xml_char (c : N) : bool := (c =? 9) || (c =? 10) || between 32 55295 c || between 57344 65533 c || between 65536 1114111 c.
Definition entity (s : str) : option N :=
  if seqb s (u "amp") then Some 38 else if seqb s (u "lt") then Some 60 else if seqb s (u "gt") then Some 62
  else if seqb s (u "quot") then Some 34 else if seqb s (u "apos") then Some 39 else None.

(** A reader of XML without declarations, comments, attributes and empty-element tags.  Texts and tags in progress
    and the children read so far are kept in reverse; [stack] has the open elements. *)
Inductive mode := InText (t : str) | InTag (t : str) | InRef (t r : str).
Definition flush (t : str) (kids : list node) : list node := match t with [] => kids | _ => Chars (rev t) :: kids end.
Fixpoint parse (s : str) (m : mode) (stack : list (str * list node)) (kids : list node) : option (list node) :=
  match s with
  | [] => match m, stack with
          | InText t, [] => Some (rev (flush t kids))
          | _, _ => None
          end
  | c :: s' =>
      match m with
      | InText t =>
          if c =? 60 then parse s' (InTag []) stack (flush t kids)
          else if c =? 38 then parse s' (InRef t []) stack kids
          else if (c =? 62) && prefixb (u "]]") t then None
          else if xml_char c then parse s' (InText (c :: t)) stack kids
          else None
      | InTag t =>
          if c =? 62 then
            match rev t with
            | [] => None
            | a :: name =>
                if a =? 47 then
                  match stack with
                  | (top, before) :: stack' => if seqb top name then parse s' (InText []) stack' (Elem name (rev kids) :: before) else None
                  | [] => None
                  end
                else if is_name (a :: name) then parse s' (InText []) ((a :: name, kids) :: stack) []
                else None
            end
          else parse s' (InTag (c :: t)) stack kids
      | InRef t r =>
          if c =? 59 then match entity (rev r) with Some x => parse s' (InText (x :: t)) stack kids | None => None end
          else parse s' (InRef t (c :: r)) stack kids
      end
  end.
Definition read_xml (s : str) : option (list node) := parse s (InText []) [] [].
(** A document is one element. *)
Definition read_document (s : str) : option node := match read_xml s with Some [Elem n kids] => Some (Elem n kids) | _ => None end.

(** What a value looks like under a name: a scalar or a dict is one element, a list one per item. *)
Fixpoint elements (name : str) (v : xval) : list node :=
  match v with
  | XText s => [Elem name (match s with [] => [] | _ => [Chars s] end)]
  | XList l => flat_map (elements name) l
  | XDict l => [Elem name (flat_map (fun e => elements (fst e) (snd e)) l)]
  end.
(** The keys are XML names, and the texts of XML characters, in [v]. *)
Fixpoint nameable (v : xval) : Prop :=
  match v with
  | XText s => forallb xml_char s = true
  | XList l => fold_right and True (map nameable l)
  | XDict l => fold_right and True (map (fun e => is_name (fst e) = true /\ nameable (snd e)) l)
  end.
(** The texts need no escapes. *)
Fixpoint plain (v : xval) : Prop :=
  match v with
  | XText s => ~ In 60 s /\ ~ In 38 s /\ (forall a b, s <> a ++ u "]]>" ++ b)
  | XList l => fold_right and True (map plain l)
  | XDict l => fold_right and True (map (fun e => plain (snd e)) l)
  end.
