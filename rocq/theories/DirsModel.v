(** Model of the listing of directives (lilya/cli/directives/operations/list.py), of the custom directives that become commands
    (lilya/cli/utils.py:197-281, lilya/cli/cli.py:79-88), of lilya/_internal/_urls.py:35-53 and of
    lilya/contrib/schedulers/asyncz/config.py:62-81. *)
From Verif Require Import PyStr PathModel.

(** *** The listing *)
(** utils.py:97-104 [get_directives]: the dictionary of a directive that comes with the framework; [location] is None. *)
Definition native (name : str) : dict (option str) := dset (u "location") None [(name, Some (u "lilya.core"))].
(** utils.py:107-119 [get_application_directives]: of one of the application, found in [location]. *)
Definition custom (d : str * str) : dict (option str) :=
  dset (u "name") (Some (fst d)) (dset (u "location") (Some (snd d)) [(fst d, Some (u "application"))]).
(** [value.rpartition(".")[-1]]. *)
Definition after_dot (s : str) : str := last (split_char 46 s) [].
(** list.py:38-46, one item of a dictionary: the section and the name that it gives. *)
Definition item (kv : str * option str) : list (str * str) :=
  if seqb (fst kv) (u "location") then []
  else match snd kv with
       | Some app => [(if seqb app (u "lilya.core") then u "lilya" else after_dot app, fst kv)]
       | None => []
       end.
Definition entries (ds : list (dict (option str))) : list (str * str) := concat (map (fun d => concat (map item d)) ds).
(** list.py:28-46 with [--app]: the list of [get_directives] is kept by [functools.cache], and extended in place.  The sorting of
    the sections and of the names is left out. *)
Definition listing (cache : list (dict (option str))) (customs : list (str * str)) : list (dict (option str)) * list (str * str) :=
  let ds := cache ++ map custom customs in (ds, entries ds).

(** *** Custom directives as commands *)
(** utils.py:204-245 [fetch_custom_directive_by_location] on a file: the command marked with [@directive], and whether it is to be
    displayed; a file without one; an exception of the file, which becomes a DirectiveError; a TypeError or a SystemExit of it. *)
Inductive loaded := Command (id : nat) (display : bool) | Nothing | Fails | Kills.
(** utils.py:248-281 [get_custom_directives_to_cli]; None is an exception, which ends the command line tool. *)
Fixpoint to_cli (file : str * str -> loaded) (found : list (str * str)) (acc : dict nat) : option (dict nat) :=
  match found with
  | [] => Some acc
  | d :: ds =>
      match file d with
      | Command id true => to_cli file ds (dset (fst d) id acc)
      | Command _ false | Nothing | Fails => to_cli file ds acc
      | Kills => None
      end
  end.

(** *** _urls.py:35-53 [reverse] *)
(** [given] is the dictionary that the caller passes as [path_params], if any.  The result is the URL and what is in that
    dictionary afterwards. *)
Definition reverse (lookup : dict pvalue -> url_result) (given : option (dict pvalue)) (kwargs : dict pvalue) : url_result * option (dict pvalue) :=
  let params := dupdate (match given with Some d => d | None => [] end) kwargs in
  (lookup params, match given with Some _ => Some params | None => None end).
(** Calls one after the other with the same dictionary. *)
Fixpoint reverses (given : option (dict pvalue)) (calls : list ((dict pvalue -> url_result) * dict pvalue)) : list url_result :=
  match calls with
  | [] => []
  | (lookup, kwargs) :: calls' => let (r, given') := reverse lookup given kwargs in r :: reverses given' calls'
  end.

(** *** asyncz/config.py:62-81 [register_tasks] *)
(** A task: its number and whether it is enabled.  [add] is the scheduler's [add_task]: None is an exception. *)
Fixpoint register (add : nat -> list nat -> option (list nat)) (tasks : list (nat * bool)) (scheduler : list nat) : list nat * bool :=
  match tasks with
  | [] => (scheduler, true)
  | (t, enabled) :: ts =>
      if negb enabled then register add ts scheduler
      else match add t scheduler with
           | None => (scheduler, false)                             (* ImproperlyConfigured *)
           | Some s => register add ts s
           end
  end.
