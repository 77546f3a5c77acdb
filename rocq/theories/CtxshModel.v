(** Model of context dicts across the responses made of them (lilya/templating/jinja.py:48-87, base.py:26-47): the dict a
    handler gives is changed in place, and may be given again (a dict of the module, or of a controller).
    Simplified: the template is rendered when the response is made, as an environment that is not async does. *)
From Verif Require Import PyStr TplModel.

Section Shared.
Context {V : Type}.
(** A call of [get_template_response]: which dict it is given (none: jinja.py:83 makes a new one), its request, the
    processors of the template object, and whether there is such a template. *)
Record call := { w_dict : option nat; w_request : V; w_processors : list (V -> dict V); w_found : bool }.
(** The dicts of the program. *)
Definition dicts := nat -> dict V.
(** jinja.py:48-66, base.py:37-38: the dicts afterwards, and what the template sees; [None] is TemplateNotFound, raised
    when the dict is changed already. *)
Definition respond (h : dicts) (c : call) : dicts * option (dict V) :=
  let given := match w_dict c with Some i => h i | None => [] end in
  let context := template_context (w_request c) (w_processors c) given in
  (match w_dict c with Some i => fun j => if Nat.eqb j i then context else h j | None => h end,
   if w_found c then Some context else None).
Definition after (h : dicts) (l : list call) : dicts := fold_left (fun h c => fst (respond h c)) l h.
End Shared.
Arguments call V : clear implicits.
Arguments dicts V : clear implicits.
