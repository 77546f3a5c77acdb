(** Model of lilya/_internal/_path.py and lilya/_internal/_path_transformers.py. *)
From Verif Require Import PyStr.
From Verif Require FltModel.

Definition slash : N := 47%N.
Definition is_slash (c : N) : bool := N.eqb c slash.

(** [re.sub("//+", "/", s)]; [prev] tells whether the previous character was a slash. *)
Fixpoint collapse (prev : bool) (s : str) : str :=
  match s with
  | [] => []
  | c :: s' => if is_slash c then (if prev then collapse true s' else slash :: collapse true s')
               else c :: collapse false s'
  end.

(** _path.py:22-31 [clean_path]. *)
Definition clean_path (path : str) : str :=
  let path := rstrip_by is_slash path in
  let path := if prefixb [slash] path then path else slash :: path in
  collapse false path.

(** _path.py:42-43 [join_paths]. *)
Definition join_paths (paths : list str) : str := clean_path (join [slash] paths).

(** _path.py:46-55 [get_route_path] on the scope entries [root_path] and [path]. *)
Definition get_route_path (root_path path : str) : str :=
  match root_path with
  | [] => path
  | _ => if prefixb root_path path then skipn (length root_path) path else path
  end.

(** The built-in transformers, _path_transformers.py:98-105. *)
Inductive conv := CStr | CPath | CInt | CFloat | CUuid | CDatetime.

(** _path.py:157-159 [get_transformer]; [None] is the AssertionError. *)
Definition get_transformer (t : str) : option conv :=
  if seqb t (u "str") then Some CStr
  else if seqb t (u "path") then Some CPath
  else if seqb t (u "int") then Some CInt
  else if seqb t (u "float") then Some CFloat
  else if seqb t (u "uuid") then Some CUuid
  else if seqb t (u "datetime") then Some CDatetime
  else None.

(** ** Scanning a template: _path.py:119,
    the [re.finditer] over: an opening brace or angle, an identifier, optionally a colon and a
    second identifier, a closing brace or angle.  The word class of [re] is modelled on ASCII letters, digits and the underscore. *)
Definition is_open (c : N) : bool := (N.eqb c 123 || N.eqb c 60)%bool.
Definition is_close (c : N) : bool := (N.eqb c 125 || N.eqb c 62)%bool.

Fixpoint span (p : N -> bool) (s : str) : str * str :=
  match s with
  | c :: s' => if p c then let '(a, b) := span p s' in (c :: a, b) else ([], s)
  | [] => ([], [])
  end.

(** An identifier: a letter or underscore, then word characters. *)
Definition ident (s : str) : option (str * str) :=
  match s with
  | c :: r => if is_alpha_us c then let '(w, r') := span is_word r in Some (c :: w, r') else None
  | [] => None
  end.

(** A match at the beginning of [s]: name, converter type (default "str"), rest of the text. *)
Definition param_at (s : str) : option (str * str * str) :=
  match s with
  | c :: r =>
      if is_open c then
        match ident r with
        | Some (name, d :: r2) =>
            if is_close d then Some (name, u "str", r2)
            else if N.eqb d 58 then
              match ident r2 with
              | Some (ty, e :: r4) => if is_close e then Some (name, ty, r4) else None
              | _ => None
              end
            else None
        | _ => None
        end
      else None
  | [] => None
  end.

(** All matches, each with the text before it, and the text after the last one. *)
Fixpoint scan (fuel : nat) (lit : str) (s : str) : list (str * str * str) * str :=
  match fuel with
  | O => ([], lit ++ s)
  | S f =>
      match param_at s with
      | Some (name, ty, r) => let '(ms, tail) := scan f [] r in ((lit, name, ty) :: ms, tail)
      | None => match s with
                | [] => ([], lit)
                | c :: r => scan f (lit ++ [c]) r
                end
      end
  end.
Definition finditer (s : str) : list (str * str * str) * str := scan (S (length s)) [] s.

(** The emitted regular expression: escaped literals and named groups. *)
Inductive relem := RLit (s : str) | RCap (name : str) (c : conv).

Inductive compiled :=
| CompileError
| Compiled (regex : list relem) (format : str) (convertors : dict conv).

(** _path.py:113-187 the loop of [generate_regex_and_format] with
    [update_paths_and_convertors]; the Boolean records a duplicate parameter. *)
Fixpoint generate (ms : list (str * str * str)) (rx : list relem) (fmt : str) (cs : dict conv) (dup : bool)
  : option (list relem * str * dict conv * bool) :=
  match ms with
  | [] => Some (rx, fmt, cs, dup)
  | (lit, name, ty) :: ms' =>
      match get_transformer ty with
      | None => None
      | Some c =>
          generate ms' (rx ++ [RLit lit; RCap name c]) (fmt ++ lit ++ u "{" ++ name ++ u "}")
            (dset name c cs) (dup || dmem name cs)
      end
  end.

(** _path.py:93-154 [compile_path]. *)
Definition compile_path (path : str) : compiled :=
  let is_host := negb (prefixb [slash] path) in
  let '(ms, tail) := finditer path in
  match generate ms [] [] [] false with
  | None => CompileError
  | Some (rx, fmt, cs, dup) =>
      if dup then CompileError
      else
        let last := if is_host then match split_char 58 tail with w :: _ => w | [] => [] end else tail in
        Compiled (rx ++ [RLit last]) (fmt ++ tail) cs
  end.

(** ** [re.Pattern.match] on the emitted expressions: backtracking, greedy alternatives first. *)

(** Candidate lengths [n, n-1, ..., lo]. *)
Fixpoint down (n lo : nat) : list nat :=
  if n <? lo then [] else match n with O => [O] | S n' => n :: down n' lo end.

Definition run_len (p : N -> bool) (s : str) : nat := length (fst (span p s)).

Definition is_hex_lower (c : N) : bool := (is_digit c || ((97 <=? c) && (c <=? 102))%N)%bool.
Definition not_slash (c : N) : bool := negb (is_slash c).
Definition not_nl (c : N) : bool := negb (N.eqb c 10).

(** A fixed sequence of character classes. *)
Fixpoint classes_match (ps : list (N -> bool)) (s : str) : bool :=
  match ps, s with
  | [], _ => true
  | p :: ps', c :: s' => p c && classes_match ps' s'
  | _ :: _, [] => false
  end.
Definition hyphen : list (N -> bool) := [N.eqb 45].
(** [0-9a-f]{8}-[0-9a-f]{4}-[0-9a-f]{4}-[0-9a-f]{4}-[0-9a-f]{12} (_path_transformers.py:80). *)
Definition uuid_classes : list (N -> bool) :=
  repeat is_hex_lower 8 ++ hyphen ++ repeat is_hex_lower 4 ++ hyphen ++ repeat is_hex_lower 4 ++ hyphen
  ++ repeat is_hex_lower 4 ++ hyphen ++ repeat is_hex_lower 12.
(** [0-9]{4}-[0-9]{2}-[0-9]{2}T[0-9]{2}:[0-9]{2}:[0-9]{2} (_path_transformers.py:90). *)
Definition datetime_classes : list (N -> bool) :=
  repeat is_digit 4 ++ hyphen ++ repeat is_digit 2 ++ hyphen ++ repeat is_digit 2 ++ [N.eqb 84]
  ++ repeat is_digit 2 ++ [N.eqb 58] ++ repeat is_digit 2 ++ [N.eqb 58] ++ repeat is_digit 2.

(** Lengths of an optional [X[0-9]+] tail at offset [k] (longest first), then [k] itself. *)
Definition opt_frac (first : N -> bool) (s : str) (k : nat) : list nat :=
  match skipn k s with
  | c :: r => if first c then map (fun j => k + 1 + j) (down (run_len is_digit r) 1) ++ [k] else [k]
  | [] => [k]
  end.

(** The lengths the pattern of a transformer can match at the beginning of [s], in the order
    the regex engine tries them (_path_transformers.py:34, 48, 58, 69, 80, 90). *)
Definition prefs (c : conv) (s : str) : list nat :=
  match c with
  | CStr => down (run_len not_slash s) 1
  | CPath => down (run_len not_nl s) 0
  | CInt => down (run_len is_digit s) 1
  | CFloat => flat_map (opt_frac (N.eqb 46) s) (down (run_len is_digit s) 1)
  | CUuid => if classes_match uuid_classes s then [36] else []
  | CDatetime => if classes_match datetime_classes s then opt_frac not_nl s 19 else []
  end.

Fixpoint first_some {A B} (f : A -> option B) (l : list A) : option B :=
  match l with
  | [] => None
  | a :: l' => match f a with Some b => Some b | None => first_some f l' end
  end.

(** [regex.match(s)] for ["^" ++ elements ++ "$"], with the captured groups in order; ["$"]
    matches at the end and before a final newline. *)
Fixpoint rmatch (rx : list relem) (s : str) : option (list (str * str)) :=
  match rx with
  | [] => match s with
          | [] => Some []
          | [c] => if N.eqb c 10 then Some [] else None
          | _ => None
          end
  | RLit l :: rx' => if prefixb l s then rmatch rx' (skipn (length l) s) else None
  | RCap n c :: rx' =>
      first_some (fun k => option_map (cons (n, firstn k s)) (rmatch rx' (skipn k s))) (prefs c s)
  end.

(** ** Converters.  Values of parameters. *)
Inductive pvalue :=
| VText (s : str)
| VInt (z : Z)
| VFloat (v : FltModel.flt)
| VUuid (hex : str)                       (** the 32 hexadecimal digits of the UUID *)
| VDate (y mo d h mi s : N).

(** CPython's default limit on decimal integer conversions ([sys.get_int_max_str_digits]). *)
Definition int_max_digits : nat := N.to_nat 4300.
(** [int(s)] for a string of ASCII digits. *)
Definition int_of (s : str) : option Z :=
  if int_max_digits <? length s then None else int_parse s.
(** [str(z)]. *)
Definition str_of_int (z : Z) : option str :=
  let t := decz z in
  if int_max_digits <? length (dec (Z.to_N (Z.abs z))) then None else Some t.

Definition days_in_month (y mo : N) : N :=
  (if (mo =? 2) then (if ((y mod 4 =? 0) && (negb (y mod 100 =? 0) || (y mod 400 =? 0))) then 29 else 28)
   else if (mo =? 4) || (mo =? 6) || (mo =? 9) || (mo =? 11) then 30 else 31)%N%bool.
(** Field ranges of [datetime(...)]. *)
Definition date_ok (y mo d h mi s : N) : bool :=
  ((1 <=? y) && (y <=? 9999) && (1 <=? mo) && (mo <=? 12) && (1 <=? d) && (d <=? days_in_month y mo)
   && (h <=? 23) && (mi <=? 59) && (s <=? 59))%N%bool.

Definition sub_num (a n : nat) (t : str) : N := digits_val (firstn n (skipn a t)).

(** [datetime.strptime(t, "%Y-%m-%dT%H:%M:%S")] on text of the shape dddd-dd-ddTdd:dd:dd;
    anything left over is an error. *)
Definition strptime (t : str) : option pvalue :=
  if classes_match datetime_classes t && (length t =? 19) then
    let y := sub_num 0 4 t in let mo := sub_num 5 2 t in let d := sub_num 8 2 t in
    let h := sub_num 11 2 t in let mi := sub_num 14 2 t in let s := sub_num 17 2 t in
    if date_ok y mo d h mi s then Some (VDate y mo d h mi s) else None
  else None.

(** Zero-padded two- and four-digit numbers. *)
Definition dig (n : N) : N := (48 + n mod 10)%N.
Definition pad2 (n : N) : str := [dig (n / 10); dig n]%N.
Definition pad4 (n : N) : str := [dig (n / 1000); dig (n / 100); dig (n / 10); dig n]%N.

(** [value.strftime("%Y-%m-%dT%H:%M:%S")]: glibc does not pad the year. *)
Definition strftime (y mo d h mi s : N) : str :=
  (if (y <? 1000)%N then dec y else pad4 y) ++ u "-" ++ pad2 mo ++ u "-" ++ pad2 d ++ u "T"
  ++ pad2 h ++ u ":" ++ pad2 mi ++ u ":" ++ pad2 s.

(** [str(uuid)]. *)
Definition uuid_text (h : str) : str :=
  firstn 8 h ++ u "-" ++ firstn 4 (skipn 8 h) ++ u "-" ++ firstn 4 (skipn 12 h) ++ u "-"
  ++ firstn 4 (skipn 16 h) ++ u "-" ++ skipn 20 h.

(** [transform] of each transformer (_path_transformers.py:36-37, 50-51, 60-61, 71-72, 82-83, 92-93) on a
    string its pattern accepted; [None] is an exception. *)
Definition transform (c : conv) (t : str) : option pvalue :=
  match c with
  | CStr | CPath => Some (VText t)
  | CInt => option_map VInt (int_of t)
  | CFloat => Some (VFloat (FltModel.read t))
  | CUuid => Some (VUuid (filter (fun x => negb (N.eqb x 45)) t))
  | CDatetime => strptime t
  end.

(** [normalise] (_path_transformers.py:39-43, 53-54, 63-66, 74-79, 85-86, 95-96); [None] is an
    AssertionError or another exception. *)
Definition normalise (c : conv) (v : pvalue) : option str :=
  match c, v with
  | CStr, VText t => if cmem slash t then None else match t with [] => None | _ => Some t end
  | CPath, VText t => Some t
  | CInt, VInt z => if (z <? 0)%Z then None else str_of_int z
  | CFloat, VFloat v => FltModel.write v
  | CUuid, VUuid h => Some (uuid_text h)
  | CDatetime, VDate y mo d h mi s => Some (strftime y mo d h mi s)
  | _, _ => None
  end.

(** ** Reverse lookup. *)
Inductive rev_result :=
| RevError                                (** AssertionError / KeyError *)
| RevOk (path : str) (remaining : dict pvalue).

Definition placeholder (key : str) : str := u "{" ++ key ++ u "}".

(** _path.py:76-86, the loop of [replace_params] over the parameters. *)
Fixpoint replace_loop (updated : str) (convs : dict conv) (params : dict pvalue) (remaining : dict pvalue) : rev_result :=
  match params with
  | [] => RevOk updated remaining
  | (key, value) :: ps =>
      if containsb (placeholder key) updated then
        match dget key convs with
        | None => RevError
        | Some c => match normalise c value with
                    | None => RevError
                    | Some t => replace_loop (replace (placeholder key) t updated) convs ps remaining
                    end
        end
      else replace_loop updated convs ps (remaining ++ [(key, value)])
  end.

(** _path.py:58-90 [replace_params]. *)
Definition replace_params (path : str) (convs : dict conv) (params : dict pvalue) (is_host : bool) : rev_result :=
  match replace_loop path convs params [] with
  | RevError => RevError
  | RevOk p rem => RevOk (if is_host then p else clean_path p) rem
  end.

Inductive url_result :=
| NoMatchFound
| UrlError
| Url (path : str).

(** Sets of keys: [seen_params != expected_params] (routing/path.py:283-284). *)
Definition same_keys {A B} (a : dict A) (b : dict B) : bool :=
  forallb (fun k => smem k (dkeys b)) (dkeys a) && forallb (fun k => smem k (dkeys a)) (dkeys b).

(** routing/path.py:249-287 [Path.url_path_for] for a route called with its own name. *)
Definition url_path_for (fmt : str) (convs : dict conv) (params : dict pvalue) : url_result :=
  if same_keys params convs then
    match replace_params fmt convs params false with
    | RevError => UrlError
    | RevOk p [] => Url p
    | RevOk _ (_ :: _) => UrlError
    end
  else NoMatchFound.

(** The conversion of the captured groups (routing/path.py:339-342). *)
Fixpoint transform_all (convs : dict conv) (groups : list (str * str)) : option (dict pvalue) :=
  match groups with
  | [] => Some []
  | (n, t) :: gs =>
      match dget n convs with
      | None => None
      | Some c => match transform c t, transform_all convs gs with
                  | Some v, Some r => Some ((n, v) :: r)
                  | _, _ => None
                  end
      end
  end.

(** ** Mounting: routing/include.py. *)
(** include.py:164-166: the template compiled by an [Include] declared with [path]. *)
Definition include_template (path : str) : str := clean_path (clean_path path ++ u "/{path:path}").

Inductive include_result :=
| IncNone
| IncError
| IncFull (params : dict pvalue) (root_path : str).

(** [l[:-n]] for [n > 0]. *)
Definition drop_last (n : nat) (s : str) : str := firstn (length s - n) s.

(** include.py:199-250 [Include.search] and [handle_match], the entries of the child scope that
    depend on the path. *)
Definition include_search (rx : list relem) (convs : dict conv)
    (root_path path : str) (params : dict pvalue) : include_result :=
  let route_path := get_route_path root_path path in
  match rmatch rx route_path with
  | None => IncNone
  | Some groups =>
      match transform_all convs groups with
      | None => IncError
      | Some matched =>
          let rest := match dget (u "path") matched with Some (VText t) => t | _ => [] end in
          let remaining_path := slash :: rest in
          let matched_path := drop_last (length remaining_path) route_path in
          IncFull (dupdate params (ddel (u "path") matched)) (root_path ++ matched_path)
      end
  end.

(** Nested includes: each level calls its child with the scope it built (include.py:206-217 via
    routing/router.py:242-264, where the child's router searches with the updated scope); the
    first component of each level is its compiled pattern. *)
Fixpoint mount_chain (ms : list (list relem * dict conv)) (root path : str) (params : dict pvalue) : option (str * dict pvalue) :=
  match ms with
  | [] => Some (root, params)
  | (rx, convs) :: ms' =>
      match include_search rx convs root path params with
      | IncFull params' root' => mount_chain ms' root' path params'
      | _ => None
      end
  end.


(** ** Reverse lookup through mounts: a tree of routes. *)
Inductive rnode :=
| NPath (name : str) (format : str) (convs : dict conv)
| NInclude (name : option str) (format : str) (convs : dict conv) (children : list rnode).

(** The loop of include.py:357-362 and routing/router.py:202-208: the first route that does not
    raise NoMatchFound decides. *)
Definition first_url (f : rnode -> url_result) : list rnode -> url_result :=
  fix go (rs : list rnode) : url_result :=
    match rs with
    | [] => NoMatchFound
    | r :: rs' => match f r with NoMatchFound => go rs' | x => x end
    end.

(** [URLPath(path_prefix.rstrip("/") + str(url))]. *)
Definition with_prefix (prefix : str) (r : url_result) : url_result :=
  match r with Url p => Url (rstrip_by is_slash prefix ++ p) | x => x end.

(** include.py:329-364 [_path_for_without_name]: substitution of the prefix, and the remaining
    parameters. *)
Definition include_prefix (format : str) (convs : dict conv) (params : dict pvalue) : rev_result :=
  match replace_params format convs (dset (u "path") (VText []) params) false with
  | RevError => RevError
  | RevOk prefix rem =>
      RevOk prefix (match dget (u "path") params with Some v => dset (u "path") v rem | None => rem end)
  end.

(** routing/path.py:249-287 and routing/include.py:304-364 [url_path_for]. *)
Fixpoint node_url (r : rnode) (name : str) (params : dict pvalue) : url_result :=
  match r with
  | NPath n format convs => if seqb name n then url_path_for format convs params else NoMatchFound
  | NInclude own format convs children =>
      let inner (remaining_name : str) :=
        match include_prefix format convs params with
        | RevError => UrlError
        | RevOk prefix rem =>
            with_prefix prefix (first_url (fun c => node_url c remaining_name rem) children)
        end in
      match own with
      | None => inner name
      | Some n =>
          match (if seqb name n then dget (u "path") params else None) with
          | Some (VText t) =>
              match replace_params format convs (dset (u "path") (VText (lstrip_by is_slash t)) params) false with
              | RevError => UrlError
              | RevOk p [] => Url p
              | RevOk _ (_ :: _) => NoMatchFound
              end
          | Some _ => UrlError
          | None => if prefixb (n ++ u ":") name then inner (skipn (length n + 1) name) else NoMatchFound
          end
      end
  end.
