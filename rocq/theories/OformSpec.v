(** What C277 - C281 say. *)
From Verif Require Import PyStr.
From Verif Require Import OformModel.

(** A correct form of the password flow. *)
Definition text_or_absent (k : str) (f : form) : Prop := dget k f = None \/ exists s, dget k f = Some (Text s).
Record correct (f : form) : Prop := {
  co_grant : dget (u "grant_type") f = Some (Text (u "password"));
  co_user : exists s, dget (u "username") f = Some (Text s);
  co_pass : exists s, dget (u "password") f = Some (Text s);
  co_id : text_or_absent (u "client_id") f;
  co_secret : text_or_absent (u "client_secret") f }.
(** The scopes that a text asks for: the words of which it is made, one space between them. *)
Definition asks (text : str) (ws : list str) : Prop :=
  join (u " ") ws = text /\ (forall w, In w ws -> ~ In 32%N w) /\ (text = [] -> ws = []) /\ (text <> [] -> ws <> []).
