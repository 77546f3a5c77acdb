(** Model of the form of the OAuth2 password flow (lilya/contrib/security/oauth2/oauth.py:18-282).

    pydantic is external: it is taken to check that the declared fields are there and of their types, in the order of
    the class, to keep what is not declared (the class says [extra = allow]), and to dump declared fields first.
    Values are texts or lists of texts. *)
From Verif Require Import PyStr.

Inductive value := Text (s : str) | Texts (l : list str).
Definition form := dict value.
(** A model object: its declared fields (an absent client id or secret is None) and the others. *)
Record obj := mkObj { declared : dict (option value); extra : dict value }.
Inductive outcome := Made (o : obj) | Invalid (fields : list str) | TypeError.

(** oauth.py:133-140 [validate_scope], run before the type check, and on the default too. *)
Definition validate_scope (v : value) : value :=
  match v with
  | Text s => if seqb s [] then Texts [] else Texts (split_char 32 s)
  | Texts l => Texts l
  end.
Definition is_text (v : option value) : bool := match v with Some (Text _) => true | _ => false end.
Definition is_text_or_none (v : option value) : bool := match v with Some (Texts _) => false | _ => true end.
Definition names : list str :=
  [u "grant_type"; u "username"; u "password"; u "scope"; u "client_id"; u "client_secret"].
(** The fields of oauth.py:38-127 that do not validate.  A value for "scope" always does. *)
Definition errors (f : form) : list str :=
  (match dget (u "grant_type") f with Some (Text s) => if seqb s (u "password") then [] else [u "grant_type"] | _ => [u "grant_type"] end)
  ++ (if is_text (dget (u "username") f) then [] else [u "username"])
  ++ (if is_text (dget (u "password") f) then [] else [u "password"])
  ++ (if is_text_or_none (dget (u "client_id") f) then [] else [u "client_id"])
  ++ (if is_text_or_none (dget (u "client_secret") f) then [] else [u "client_secret"]).
Definition scope_of (f : form) : value :=
  validate_scope match dget (u "scope") f with Some v => v | None => Texts [] end.
(** oauth.py:129-131 [__init__]: a field called "self" collides with the argument; [scopes] is set last. *)
Definition make (f : form) : outcome :=
  if dmem (u "self") f then TypeError
  else match errors f with
       | [] => Made (mkObj
                 [(u "grant_type", dget (u "grant_type") f); (u "username", dget (u "username") f);
                  (u "password", dget (u "password") f); (u "scope", Some (scope_of f));
                  (u "client_id", dget (u "client_id") f); (u "client_secret", dget (u "client_secret") f)]
                 (dset (u "scopes") (scope_of f) (filter (fun kv => negb (smem (fst kv) names)) f)))
       | es => Invalid es
       end.
(** oauth.py:188-282 [OAuth2PasswordRequestFormStrict] adds only [__init_subclass__], which pydantic calls for
    subclasses of it and never for objects. *)
Definition make_strict (f : form) : outcome := make f.
(** [form.scopes]: the attribute of the object. *)
Definition scopes (o : obj) : option value := dget (u "scopes") (extra o).
(** oauth.py:142-150 [model_dump]: the caller's [exclude] is replaced. *)
Definition dump (exclude : list str) (o : obj) : dict (option value) :=
  let exclude := [u "scope"] in
  filter (fun kv => negb (smem (fst kv) exclude)) (declared o ++ map (fun kv => (fst kv, Some (snd kv))) (extra o)).
