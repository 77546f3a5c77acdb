(** Model of [StaticFiles] (lilya/staticfiles.py) over posixpath. *)
From Verif Require Import PyStr HeaderModel.

(** ** posixpath (library behaviour) *)
Definition dot : str := u ".".
Definition dotdot : str := u "..".
(** The number of initial slashes [normpath] keeps. *)
Definition slashes (p : str) : nat :=
  if prefixb (u "/") p then if prefixb (u "//") p && negb (prefixb (u "///") p) then 2%nat else 1%nat else 0%nat.
(** The loop of [normpath]; [stack] is the new list of components, the last one first. *)
Fixpoint norm_go (rooted : bool) (stack : list str) (comps : list str) : list str :=
  match comps with
  | [] => stack
  | c :: r =>
      if seqb c [] || seqb c dot then norm_go rooted stack r
      else if negb (seqb c dotdot)
              || (negb rooted && match stack with [] => true | _ => false end)
              || match stack with t :: _ => seqb t dotdot | [] => false end
           then norm_go rooted (c :: stack) r
           else norm_go rooted (match stack with [] => [] | _ :: s => s end) r
  end.
Definition normpath (p : str) : str :=
  match p with
  | [] => dot
  | _ =>
      let k := slashes p in
      match repeat 47%N k ++ join (u "/") (rev (norm_go (negb (Nat.eqb k 0)) [] (split_char 47 p))) with
      | [] => dot
      | q => q
      end
  end.
(** [os.path.join(a, b)], and with more arguments. *)
Definition path_join (a b : str) : str :=
  if prefixb (u "/") b then b
  else match a with [] => b | _ => if suffixb (u "/") a then a ++ b else a ++ u "/" ++ b end.
Definition path_joins (l : list str) : str := match l with [] => [] | a :: r => fold_left path_join r a end.
(** [os.path.abspath] in a working directory. *)
Definition abspath (cwd p : str) : str := normpath (if prefixb (u "/") p then p else path_join cwd p).

(** ** staticfiles.py *)
(** _internal/_path.py:46-55 [get_route_path]. *)
Definition static_route_path (root path : str) : str :=
  match root with [] => path | _ => if prefixb root path then skipn (length root) path else path end.
(** staticfiles.py:133-146 [get_path]. *)
Definition get_path (root path : str) : str :=
  let p := normpath (static_route_path root path) in
  let p := lstrip_by (fun c => N.eqb c 46 || N.eqb c 47) p in
  normpath (path_joins (split_char 47 p)).

(** What os.stat finds under a path. *)
Inductive found := Regular | Directory | OtherKind | Missing | Denied | Broken.
Record world := { cwd : str; stat : str -> found; realpath : str -> str }.
Record static := { directories : list str; html : bool; follow_symlink : bool; fall_through : bool }.
(** staticfiles.py:218-232 [get_full_path]. *)
Definition get_full_path (w : world) (s : static) (directory path : str) : str :=
  let p := path_join directory path in if follow_symlink s then abspath (cwd w) p else realpath w p.
(** staticfiles.py:201-216 [lookup_path]; the error is PermissionError or another OSError. *)
Inductive looked := Hit (full : str) (k : found) | Miss | LookFails (k : found).
Fixpoint lookup_path (w : world) (s : static) (dirs : list str) (path : str) : looked :=
  match dirs with
  | [] => Miss
  | d :: r => let f := get_full_path w s d path in
              match stat w f with
              | Missing => lookup_path w s r path
              | Denied => LookFails Denied
              | Broken => LookFails Broken
              | k => Hit f k
              end
  end.
(** The answer: a file with a status, a redirect to the path with a slash, an exception with a status,
    ContinueRouting, or another exception. *)
Inductive answer := FileAnswer (full : str) (status : N) | SlashRedirect | StatusError (status : N) | Continue | Error.
(** staticfiles.py:160-199 [get_response].  Errors of the second and third lookup are not caught. *)
Definition not_found (w : world) (s : static) : answer :=
  if fall_through s then Continue
  else if html s then
    match lookup_path w s (directories s) (u "404.html") with
    | Hit f Regular => FileAnswer f 404
    | LookFails _ => Error
    | _ => StatusError 404
    end
  else StatusError 404.
Definition get_response (w : world) (s : static) (meth root path : str) : answer :=
  if negb (seqb meth (u "GET") || seqb meth (u "HEAD")) then StatusError 405
  else
    let p := get_path root path in
    match lookup_path w s (directories s) p with
    | LookFails Denied => StatusError 401
    | LookFails _ => Error
    | Hit f Regular => FileAnswer f 200
    | Hit _ Directory =>
        if html s then
          match lookup_path w s (directories s) (path_join p (u "index.html")) with
          | Hit f Regular => if suffixb (u "/") path then FileAnswer f 200 else SlashRedirect
          | LookFails _ => Error
          | _ => not_found w s
          end
        else not_found w s
    | _ => not_found w s
    end.

(** staticfiles.py:298-330 [is_not_modified]; [date] is email.utils.parsedate with a total order on its
    results as numbers. *)
Definition is_not_modified (date : str -> option Z) (etag last_modified : str) (request : headers) : bool :=
  match hget (u "if-none-match") request with
  | Some t => smem etag (map (strip_by (fun c => N.eqb c 32 || N.eqb c 87 || N.eqb c 47)) (split_char 44 t))
  | None => false
  end
  || match hget (u "if-modified-since") request with
     | Some t => match date t, date last_modified with Some a, Some b => (b <=? a)%Z | _, _ => false end
     | None => false
     end.
