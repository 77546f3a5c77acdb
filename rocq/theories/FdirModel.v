(** Model of how [lilya run] finds a custom directive: [find_application_directives],
    [get_application_directives] and [fetch_custom_directive] (lilya/cli/utils.py:38-54, 108-167). *)
From Verif Require Import PyStr CollModel.

(** One step of [os.walk]: the directory, its folders, and what [pkgutil.iter_modules] lists in its folder
    [operations], with whether it is a package. *)
Record visit := { root : str; folders : list str; modules : list (str * bool) }.
(** utils.py:38-54 [find_application_directives]: names and locations. *)
Definition find_application_directives (walk : list visit) : list (str * str) :=
  flat_map (fun v =>
    if negb (smem (u "operations") (folders v)) then []
    else flat_map (fun m => if negb (snd m) && negb (prefixb (u "_") (fst m)) then [(fst m, root v ++ u "/operations")] else []) (modules v)) walk.
(** utils.py:108-119 [get_application_directives]: the keys of each dict, and its location. *)
Definition get_application_directives (walk : list visit) : list (list str * str) :=
  map (fun d => ([fst d; u "location"; u "name"], snd d)) (find_application_directives walk).
(** utils.py:130: [sorted] by location, a stable sort. *)
Fixpoint insert_directive (e : list str * str) (l : list (list str * str)) : list (list str * str) :=
  match l with
  | [] => [e]
  | x :: r => if str_leb (snd e) (snd x) then e :: l else x :: insert_directive e r
  end.
Definition by_location (l : list (list str * str)) : list (list str * str) := fold_right insert_directive [] l.
(** What is found: the file that is loaded, nothing, or UnboundLocalError. *)
Inductive found := File (path : str) | Missing | Unbound.
(** utils.py:130-136: the loop; what [location] is when it ends, if [app_name] was set.  The KeyError of
    137-148 is never raised. *)
Definition search (name : str) (l : list (list str * str)) : option str :=
  fold_left (fun acc d => if smem name (fst d) then Some (snd d) else acc) l None.
(** utils.py:122-167 [fetch_custom_directive] up to the load of the file; the hint of 150-156 is left out,
    but not that it reads [directive], which the loop has not set when there are no directives. *)
Definition fetch_custom_directive (walk : list visit) (name : str) : found :=
  let ds := get_application_directives walk in
  match search name (by_location ds) with
  | Some loc => File (loc ++ u "/" ++ name ++ u ".py")
  | None => match ds with [] => Unbound | _ => Missing end
  end.
