(** Model of [EnvironLoader] (lilya/environments.py).  Case folding is that of ASCII texts; [word] and
    [digit] say which characters the regular expressions count as word characters and digits. *)
From Verif Require Import PyStr.

(** A value: a mapping, a list, or anything else, given by its text under [str] (None apart). *)
Inductive value := Scalar (text : option str) | Mapping (m : list (str * value)) | Sequence (l : list value).
Definition none_text : str := u "None".
(** [str(v)]; the text of a mapping or list is left to [show]. *)
Definition text_of (show : value -> str) (v : value) : str :=
  match v with Scalar (Some s) => s | Scalar None => none_text | _ => show v end.

(** environments.py:119-134: keys are stored in capitals. *)
Definition fold_key (ic : bool) (k : str) : str := if ic then upper k else k.
Definition fold_keys {V} (ic : bool) (l : list (str * V)) : list (str * V) := map (fun p => (fold_key ic (fst p), snd p)) l.

Section Expand.
Context (word digit : N -> bool).
(** The class of environments.py:28 and 32. *)
Definition name_char (c : N) : bool := word c || N.eqb c 45 || N.eqb c 46.
Fixpoint take_while (p : N -> bool) (s : str) : str * str :=
  match s with [] => ([], []) | c :: r => if p c then let (a, b) := take_while p r in (c :: a, b) else ([], s) end.
Definition not_newline (c : N) : bool := negb (N.eqb c 10).
(** A match of environments.py:31-33 after the dollar sign: the name, the default and the rest. *)
Definition reference (s : str) : option (str * option str * str) :=
  match s with
  | 123%N :: r =>
      let (name, r) := take_while name_char r in
      match name, r with
      | [], _ => None
      | _, 125%N :: rest => Some (name, None, rest)
      | _, 124%N :: r =>
          match take_while (fun c => not_newline c && negb (N.eqb c 125)) r with
          | (d, 125%N :: rest) => Some (name, match d with [] => None | _ => Some d end, rest)
          | _ => None
          end
      | _, _ => None
      end
  | _ =>
      let (name, r) := take_while name_char s in
      match name, r with
      | [], _ => None
      | _, 124%N :: r => let (d, rest) := take_while not_newline r in Some (name, Some d, rest)
      | _, _ => Some (name, None, r)
      end
  end.
(** environments.py:180-213 [_expand_variable]. *)
Definition expand_variable (ic : bool) (context : str -> option str) (strict : bool) (name : str) (default : option str) : option str :=
  match context (fold_key ic name) with
  | Some v => Some v
  | None => match default with Some d => Some d | None => if strict then None else Some [] end
  end.
(** [RE_EXPAND.sub]. *)
Fixpoint expand_fuel (fuel : nat) (ic : bool) (context : str -> option str) (strict : bool) (s : str) : option str :=
  match fuel with
  | O => Some []
  | S fuel =>
      match s with
      | [] => Some []
      | c :: r =>
          match (if N.eqb c 36 then reference r else None) with
          | Some (name, default, rest) =>
              match expand_variable ic context strict name default, expand_fuel fuel ic context strict rest with
              | Some v, Some t => Some (v ++ t)
              | _, _ => None
              end
          | None => match expand_fuel fuel ic context strict r with Some t => Some (c :: t) | None => None end
          end
      end
  end.
Definition expand (ic : bool) (context : str -> option str) (strict : bool) (s : str) : option str :=
  expand_fuel (S (length s)) ic context strict s.

(** A match of environments.py:28 at the start of a line: the name, the value and the rest. *)
Definition assignment (s : str) : option (str * str * str) :=
  match take_while name_char s with
  | (c :: n, r) =>
      if digit c then None
      else match lstrip_by is_space r with
           | 61%N :: r => let (v, rest) := take_while not_newline (lstrip_by is_space r) in Some (c :: n, v, rest)
           | _ => None
           end
  | _ => None
  end.
(** [RE_ENV.finditer]; [start]: the position is the start of a line. *)
Fixpoint assignments_fuel (fuel : nat) (start : bool) (s : str) : list (str * str) :=
  match fuel with
  | O => []
  | S fuel =>
      match (if start then assignment s else None) with
      | Some (n, v, rest) => (n, v) :: assignments_fuel fuel false rest
      | None => match s with [] => [] | c :: r => assignments_fuel fuel (N.eqb c 10) r end
      end
  end.
Definition assignments (s : str) : list (str * str) := assignments_fuel (S (length s)) true s.
(** environments.py:237-262 [_read_env_file], given the text of the file. *)
Fixpoint read_env (ic strict : bool) (os env_vars : dict str) (l : list (str * str)) : option (dict str) :=
  match l with
  | [] => Some env_vars
  | (n, v) :: r =>
      let key := fold_key ic n in
      let v := strip_by (fun c => N.eqb c 34 || N.eqb c 39) (strip v) in
      match expand ic (fun n => match dget n env_vars with Some x => Some x | None => dget n os end) strict v with
      | None => None
      | Some v => if dmem key env_vars && strict then None else read_env ic strict os (dset key v env_vars) r
      end
  end.
Definition read_env_file (ic strict : bool) (os : dict str) (content : str) : option (dict str) :=
  read_env ic strict os [] (assignments content).

(** environments.py:311-344 [_flatten_dict]. *)
Definition child (ic : bool) (parent k : str) : str := fold_key ic (match parent with [] => k | _ => parent ++ u "." ++ k end).
Fixpoint flatten_value (ic : bool) (key : str) (v : value) : dict value :=
  match v with
  | Scalar _ => [(key, v)]
  | Mapping m => (fix go (items : dict value) (m : list (str * value)) : dict value :=
                    match m with [] => items | (k, x) :: r => go (dupdate items (flatten_value ic (child ic key k) x)) r end) [] m
  | Sequence l => (fix go (i : N) (items : dict value) (l : list value) : dict value :=
                     match l with
                     | [] => items
                     | x :: r => go (i + 1)%N (match x with
                                               | Scalar _ => dset (key ++ u "." ++ dec i) x items
                                               | _ => dupdate items (flatten_value ic (child ic key (dec i)) x)
                                               end) r
                     end) 0%N [] l
  end.
Definition flatten_dict (ic : bool) (data : list (str * value)) : dict value := flatten_value ic [] (Mapping data).

(** environments.py:294-309 [_read_yaml_file], given the text of the file; [yaml] is the library's parser, which
    gives a mapping or fails. *)
Definition sentinel : str := u "__ESCAPED_DOLLAR_SIGN__".
Definition read_yaml (yaml : str -> option (list (str * value))) (ic strict : bool) (context : str -> option str) (content : str)
  : option (list (str * value)) :=
  match expand ic context strict (replace (u "$$") sentinel content) with
  | None => None
  | Some t => yaml (replace sentinel (u "$") t)
  end.
End Expand.

(** ** The loader *)
(** The multidict (pairs in order), environments.py:136; keys that were read; the settings. *)
Record loader := { pairs : list (str * value); read_keys : list str; prefix : str; ignore_case : bool }.
Definition with_pairs (p : list (str * value)) (l : loader) : loader :=
  {| pairs := p; read_keys := read_keys l; prefix := prefix l; ignore_case := ignore_case l |}.
Definition mark (k : str) (l : loader) : loader :=
  {| pairs := pairs l; read_keys := k :: read_keys l; prefix := prefix l; ignore_case := ignore_case l |}.
(** environments.py:94-136. *)
Definition new_loader (environ : list (str * value)) (pre : str) (ic : bool) : loader :=
  {| pairs := if ic then dupdate [] (fold_keys ic environ) else environ; read_keys := []; prefix := fold_key ic pre; ignore_case := ic |}.
(** multidict: assignment replaces the first pair of the key and drops the others. *)
Fixpoint mset {V} (k : str) (v : V) (l : list (str * V)) : list (str * V) :=
  match l with
  | [] => [(k, v)]
  | p :: r => if seqb (fst p) k then (k, v) :: filter (fun q => negb (seqb (fst q) k)) r else p :: mset k v r
  end.
Definition mdel {V} (k : str) (l : list (str * V)) : list (str * V) := filter (fun q => negb (seqb (fst q) k)) l.

(** The sources of a load; [None]: not given. *)
Record sources := { os_env : dict str; include_os : bool; env_file : option str; yaml_file : option str;
                    overrides : list (str * value); strict : bool; flatten : bool }.
Section Load.
Context (word digit : N -> bool) (show : value -> str) (yaml : str -> option (list (str * value))).
Definition texts (l : dict str) : list (str * value) := map (fun p => (fst p, Scalar (Some (snd p)))) l.
(** environments.py:378-418: the merged values. *)
Definition merged (l : loader) (s : sources) : option (dict value) :=
  let ic := ignore_case l in
  let final := dupdate [] (fold_keys ic (dupdate [] (pairs l))) in
  let final := if include_os s then dupdate final (fold_keys ic (texts (os_env s))) else final in
  match (match env_file s with
         | None => Some final
         | Some content => match read_env_file word digit ic (strict s) (os_env s) content with
                           | None => None
                           | Some vars => Some (dupdate final (texts vars))
                           end
         end) with
  | None => None
  | Some final =>
      match (match yaml_file s with
             | None => Some final
             | Some content =>
                 let over := if ic then map (fun p => (upper (fst p), Scalar (Some (text_of show (snd p))))) (overrides s) else overrides s in
                 let known := dupdate final over in
                 let context n := match dget n known with
                                  | Some (Scalar None) => None
                                  | Some v => Some (text_of show v)
                                  | None => dget n (os_env s)
                                  end in
                 match read_yaml word yaml ic (strict s) context content with
                 | None => None
                 | Some data => Some (dupdate final (if flatten s then flatten_dict ic data else data))
                 end
             end) with
      | None => None
      | Some final => Some (dupdate final (fold_keys ic (overrides s)))
      end
  end.
(** environments.py:425-428. *)
Definition stored (flat : bool) (v : value) : value :=
  match v with Scalar _ => Scalar (Some (text_of show v)) | _ => if flat then Scalar (Some (text_of show v)) else v end.
(** environments.py:346-428 [load_from_files]; [None]: EnvError, and nothing has changed. *)
Definition load_from_files (l : loader) (s : sources) : option loader :=
  match merged l s with
  | None => None
  | Some final => Some {| pairs := map (fun p => (fst p, stored (flatten s) (snd p))) final; read_keys := []; prefix := prefix l; ignore_case := ignore_case l |}
  end.
End Load.

(** environments.py:458-557 and what is inherited from multidict. *)
Inductive op :=
  | Env (os : dict str) (key : str) (default : option value) | GetItem (key : str)
  | SetItem (key : str) (v : value) | DelItem (key : str)
  | Pop (key : str) | Add (key : str) (v : value) | Clear.
Inductive result := Value (v : value) | NoKey | EnvError | Done.
Definition full_key (l : loader) (key : str) : str := fold_key (ignore_case l) (prefix l ++ key).
Fixpoint drop_first {V} (k : str) (l : list (str * V)) : list (str * V) :=
  match l with [] => [] | p :: r => if seqb (fst p) k then r else p :: drop_first k r end.
Definition env_step (l : loader) (o : op) : loader * result :=
  match o with
  | Env os key default =>
      let k := full_key l key in
      let l := mark k l in
      (l, match dget k (pairs l) with
          | Some v => Value v
          | None => match dget k os with
                    | Some t => Value (Scalar (Some t))
                    | None => match default with Some v => Value v | None => NoKey end
                    end
          end)
  | GetItem key =>
      let k := full_key l key in
      match dget k (pairs l) with None => (l, NoKey) | Some v => (mark k l, Value v) end
  | SetItem key v =>
      let k := full_key l key in
      if smem k (read_keys l) then (l, EnvError) else (with_pairs (mset k v (pairs l)) l, Done)
  | DelItem key =>
      let k := full_key l key in
      if smem k (read_keys l) then (l, EnvError)
      else match dget k (pairs l) with None => (l, EnvError) | Some _ => (with_pairs (mdel k (pairs l)) l, Done) end
  | Pop key => match dget key (pairs l) with None => (l, NoKey) | Some v => (with_pairs (drop_first key (pairs l)) l, Value v) end
  | Add key v => (with_pairs (pairs l ++ [(key, v)]) l, Done)
  | Clear => (with_pairs [] l, Done)
  end.
Definition env_run (l : loader) (os : list op) : loader := fold_left (fun l o => fst (env_step l o)) os l.
