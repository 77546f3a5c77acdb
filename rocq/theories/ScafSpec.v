(** What a user expects of the scaffolding commands. *)
From Verif Require Import PyStr ScafModel.

(** A file of a template directory: the directories above it, none of them hidden, its name, its content. *)
Inductive located : tree -> list str -> str -> str -> Prop :=
| LHere fls subs f x : In (f, x) fls -> located (Node fls subs) [] f x
| LBelow fls subs d t ds f x : In (d, t) subs -> (forall r, d <> u "." ++ r) -> d <> u "__pycache__" ->
    located t ds f x -> located (Node fls subs) (d :: ds) f x.
Definition dir_text (ds : list str) : str :=
  fold_left (fun a d => match a with [] => d | _ => a ++ u "/" ++ d end) ds [].

(** The name of the generated file. *)
Inductive written_as : str -> str -> Prop :=
| WPy x : written_as (x ++ u ".py-tpl") (x ++ u ".py")
| WOther x : written_as (x ++ u ".e-tpl") x
| WPlain f : (forall x, f <> x ++ u ".py-tpl") -> (forall x, f <> x ++ u ".e-tpl") -> written_as f f.
Definition left_out (f : str) : Prop := exists x, f = x ++ u ".pyo" \/ f = x ++ u ".pyc" \/ f = x ++ u ".py.class".

(** The file [p] with the text [t] comes from the template directory [tr]. *)
Definition comes_from (c : cfg) (deployment : bool) (tr : tree) (p : path) (t : str) : Prop :=
  exists ds f g x, located tr ds f x /\ ~ left_out f /\ written_as f g /\ c_render c x = Some t /\
    p = resolve (top_dir c) (relative c deployment (dir_text ds)) ++ [g].
(** The name of the project does not occur in the names of the template files. *)
Definition plain_files (c : cfg) (tr : tree) : Prop :=
  forall ds f x, located tr ds f x -> replace (base_name c) (c_name c) f = f.

(** A relative path that does not lead upwards. *)
Definition downwards (text : str) : Prop := (forall r, text <> u "/" ++ r) /\ ~ In (u "..") (split_char 47 text).
Definition under (top p : path) : Prop := exists q, p = top ++ q.
Definition above (top p : path) : Prop := exists q, top = p ++ q.
