(** Model of the scaffolding commands: lilya/cli/templates.py [TemplateDirective] (19-240) and the loops of
    createproject.py, createapp.py and createdeployment.py.

    A path is the list of its components, from the root.  There are no symbolic links and no other process
    writes; permissions of files are left out. *)
From Verif Require Import PyStr.

Definition path := list str.
Fixpoint peqb (p q : path) : bool :=
  match p, q with
  | [], [] => true
  | a :: p', b :: q' => seqb a b && peqb p' q'
  | _, _ => false
  end.

(** ** The file system *)
Record fs := mkFs { files : list (path * str); dirs : list path }.
Definition fget (p : path) (s : fs) : option str :=
  option_map snd (List.find (fun e => peqb (fst e) p) (files s)).
Definition is_dir (p : path) (s : fs) : bool := existsb (peqb p) (dirs s).
(** [os.path.exists]; the root is always there. *)
Definition there (p : path) (s : fs) : bool :=
  match p with [] => true | _ => is_dir p s || match fget p s with Some _ => true | None => false end end.
Definition fdel (p : path) (s : fs) : fs := mkFs (filter (fun e => negb (peqb (fst e) p)) (files s)) (dirs s).
Definition fput (p : path) (c : str) (s : fs) : fs := mkFs ((p, c) :: files (fdel p s)) (dirs s).
Fixpoint prefixes (p : path) : list path :=
  match p with [] => [] | a :: r => [a] :: map (cons a) (prefixes r) end.
(** [os.makedirs(p, exist_ok=True)]; [None]: a file stands in the way. *)
Definition makedirs (p : path) (s : fs) : option fs :=
  if existsb (fun q => match fget q s with Some _ => true | None => false end) (prefixes p) then None
  else Some (mkFs (files s) (prefixes p ++ dirs s)).
(** [os.path.join(base, text)], with "", "." and ".." taken as the file system does. *)
Definition resolve (base : path) (text : str) : path :=
  fold_left (fun p c => if seqb c [] then p else if seqb c (u ".") then p else if seqb c (u "..") then removelast p else p ++ [c])
    (split_char 47 text) (if prefixb (u "/") text then [] else base).

(** ** Templates *)
(** A template directory: files with their content, then directories, in the order of [os.walk]. *)
Inductive tree := Node (fls : list (str * str)) (subs : list (str * tree)).
Definition hidden (d : str) : bool := prefixb (u ".") d || seqb d (u "__pycache__").
Definition sub_text (parent d : str) : str := match parent with [] => d | _ => parent ++ u "/" ++ d end.
(** templates.py:124-138: the directories visited, by [root[prefix_length:]], with their files. *)
Fixpoint walk (at_ : str) (t : tree) : list (str * list (str * str)) :=
  match t with
  | Node fls subs =>
      (at_, fls) :: (fix go (l : list (str * tree)) : list (str * list (str * str)) :=
        match l with
        | [] => []
        | (d, t') :: r => if hidden d then go r else walk (sub_text at_ d) t' ++ go r
        end) subs
  end.

Inductive kind := Project | App | Deployment.
(** The options of a command.  [c_render]: the text Jinja makes of a template, [None] when it is not a
    template; [c_importable]: a module of that name can be imported; [c_version]: the text of the version. *)
Record cfg := mkCfg {
  c_kind : kind; c_location : path; c_name : str; c_version : str; c_folder : str; c_with_deployment : bool;
  c_importable : bool; c_render : str -> option str }.
(** templates.py:55-58. *)
Definition base_name (c : cfg) : str := match c_kind c with App => u "app_name" | _ => u "project_name" end.
(** templates.py:127-131.  Simplified: of Jinja only the placeholder for the version is modelled, which is
    the only one in the names of the bundled directories. *)
Definition relative (c : cfg) (deployment : bool) (rest : str) : str :=
  let r := replace (u "{{ api_version }}") (c_version c) (replace (base_name c) (c_name c) rest) in
  if deployment then c_folder c ++ u "/" ++ r else r.
(** templates.py:25-28, 150-155 [rewrite_template_suffixes]: the suffix to cut off and the one to put. *)
Definition suffix_of (f : str) : str * str :=
  if suffixb (u ".py-tpl") f then (u ".py-tpl", u ".py") else if suffixb (u ".e-tpl") f then (u ".e-tpl", []) else ([], []).
Definition cut (n : nat) (s : str) : str := firstn (length s - n) s.
Definition compiled (f : str) : bool := suffixb (u ".pyo") f || suffixb (u ".pyc") f || suffixb (u ".py.class") f.

(** [Done]; [Reported]: DirectiveError, which the commands print; [Raised]: any other exception. *)
Inductive outcome := Done | Reported | Raised.
(** The states of the file system a command goes through, the last one, and how it ended. *)
Definition result := (list fs * fs * outcome)%type.
Definition andthen (r : result) (k : fs -> result) : result :=
  match r with
  | (tr, s, Done) => let '(tr', s', o) := k s in (tr ++ tr', s', o)
  | _ => r
  end.

(** templates.py:140-176, 178-197 [manage_template_variables]: one file.  The template is read from the target directory
    under the name in the template directory; one that is not found is an OSError, which is printed
    (jinja2.TemplateNotFound).  Names of files hold no slash. *)
Definition put_file (c : cfg) (dir : path) (f : str * str) (s : fs) : result :=
  let '(fname, content) := f in
  if compiled fname then ([], s, Done)
  else
    let new := replace (base_name c) (c_name c) fname in
    let '(old_suffix, new_suffix) := suffix_of new in
    let p := dir ++ [cut (length old_suffix) new ++ new_suffix] in
    let template := dir ++ [cut (length old_suffix) fname ++ new_suffix] in
    if there p s then ([], s, Reported)
    else
      let s1 := fput p content s in
      match fget template s1 with
      | None => ([s1], s1, Done)
      | Some raw =>
          match c_render c raw with
          | None => ([s1], s1, Raised)
          | Some text =>
              let s2 := fdel p s1 in
              let s3 := fput p [] s2 in
              let s4 := fput p text s3 in
              ([s1; s2; s3; s4], s4, Done)
          end
      end.
Fixpoint put_files (c : cfg) (dir : path) (fl : list (str * str)) (s : fs) : result :=
  match fl with
  | [] => ([], s, Done)
  | f :: r => andthen (put_file c dir f s) (put_files c dir r)
  end.
(** templates.py:108-176 [iterate_templates]. *)
Fixpoint put_dirs (c : cfg) (deployment : bool) (top : path) (ds : list (str * list (str * str))) (s : fs) : result :=
  match ds with
  | [] => ([], s, Done)
  | (rest, fl) :: r =>
      let rel := relative c deployment rest in
      let made := match rel with [] => Some s | _ => makedirs (resolve top rel) s end in
      match made with
      | None => ([], s, Raised)
      | Some s1 => andthen (let '(tr, s', o) := put_files c (resolve top rel) fl s1 in (s1 :: tr, s', o))
                     (put_dirs c deployment top r)
      end
  end.

(** templates.py:199-219 [validate_name].  Simplified to ASCII identifiers. *)
Definition identifier (s : str) : bool :=
  match s with [] => false | a :: r => is_alpha_us a && forallb is_word r end.
(** templates.py:42-46. *)
Definition top_dir (c : cfg) : path :=
  match c_kind c with
  | Deployment => resolve (c_location c) (match c_folder c with [] => u "deployment" | f => f end)
  | _ => resolve (c_location c) (c_name c)
  end.
(** templates.py:30-106 [handle]; [main] and [extra] are the template directories chosen at 60-65 and 67. *)
Definition handle (c : cfg) (main extra : tree) (s : fs) : result :=
  let named := match c_kind c with Deployment => true | _ => identifier (c_name c) && negb (c_importable c) end in
  if negb named then ([], s, Reported)
  else if there (top_dir c) s then ([], s, Reported)
  else match makedirs (top_dir c) s with
  | None => ([], s, Reported)
  | Some s1 =>
      andthen (let '(tr, s', o) := put_dirs c false (top_dir c) (walk [] main) s1 in (s1 :: tr, s', o))
        (fun s2 => if c_with_deployment c then put_dirs c true (top_dir c) (walk [] extra) s2 else ([], s2, Done))
  end.
(** createproject.py:83-88, createapp.py:48-53: the names one after the other; a DirectiveError is printed. *)
Fixpoint create (mk : str -> cfg) (main extra : tree) (names : list str) (s : fs) : result :=
  match names with
  | [] => ([], s, Done)
  | n :: r =>
      let '(tr, s', o) := handle (mk n) main extra s in
      match o with
      | Raised => (tr, s', Raised)
      | _ => let '(tr', s'', o') := create mk main extra r s' in (tr ++ tr', s'', o')
      end
  end.
