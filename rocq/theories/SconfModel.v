(** Model of how static files are configured and checked (lilya/staticfiles.py). *)
From Verif Require Import PyStr.

(** What a path is when it is looked at. *)
Inductive kind := Missing | Directory | Other.
Inductive problem := NotExisting (d : str) | NotDirectory (d : str) | NoPackage (p : str).
(** A package as it is given: its name and the directory in it. *)
Inductive package := Named (p : str) | Within (p d : str).

(** staticfiles.py:78-112 [get_directories]; [locate p d] is the directory [d] of the package [p], if the package is
    found and that is a directory. *)
Fixpoint package_directories (locate : str -> str -> option str) (ps : list package) : list str + problem :=
  match ps with
  | [] => inl []
  | p :: r =>
      let (name, d) := match p with Named name => (name, u "statics") | Within name d => (name, d) end in
      match locate name d with
      | None => inr (NoPackage name)
      | Some dir => match package_directories locate r with inl l => inl (dir :: l) | inr e => inr e end
      end
  end.
Record files := { given : option (list str); all_directories : list str; checked : bool }.
(** staticfiles.py:60-76 [__init__]; an empty list of directories is none. *)
Definition make (look : str -> kind) (locate : str -> str -> option str) (directory : list str) (packages : list package) (check_dir : bool) : files + problem :=
  match package_directories locate packages with
  | inr e => inr e
  | inl ps =>
      let f := {| given := match directory with [] => None | _ => Some directory end; all_directories := directory ++ ps; checked := false |} in
      if check_dir then
        match List.find (fun d => match look d with Directory => false | _ => true end) directory with
        | Some d => inr (NotExisting d)
        | None => inl f
        end
      else inl f
  end.
(** staticfiles.py:276-286 [_check_dirs]; [os.stat] follows links. *)
Fixpoint check_dirs (look : str -> kind) (ds : list str) : option problem :=
  match ds with
  | [] => None
  | d :: r => match look d with Missing => Some (NotExisting d) | Other => Some (NotDirectory d) | Directory => check_dirs look r end
  end.
(** staticfiles.py:114-131 [__call__] up to the answer, and 288-296 [check_config]: [None] if it goes on to the answer. *)
Definition request (f : files) (look : str -> kind) : files * option problem :=
  if checked f then (f, None)
  else
    match (match given f with None => None | Some ds => check_dirs look ds end) with
    | Some e => (f, Some e)
    | None => ({| given := given f; all_directories := all_directories f; checked := true |}, None)
    end.
(** Requests one after another, each with what the paths are then. *)
Fixpoint requests (f : files) (looks : list (str -> kind)) : list (option problem) :=
  match looks with [] => [] | look :: r => let (f', e) := request f look in e :: requests f' r end.
