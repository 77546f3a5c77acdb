(** Model of the template controllers (lilya/templating/controllers.py), of the template context
    (lilya/templating/jinja.py, base.py) and of their CSRF tokens (lilya/contrib/security/csrf.py). *)
From Verif Require Import PyStr Asgi HeaderModel CookieModel RequestModel CsrfModel.

(** ** Hooks: [form_valid] and [form_invalid] *)
Section Hooks.
Context {R : Type}.
(** A class's own definition of the hook: what its body returns ([None] for no result) and whether the metaclass has
    wrapped it (controllers.py:50-52), which it does for all classes made by it but not for plain mixins.
    Simplified: bodies that call [super()] themselves, and bodies that raise, are left out. *)
Record hook := { h_wrapped : bool; h_result : option R }.
(** [cls.mro()], and the definitions in each class. *)
Context (mro : nat -> list nat) (own : nat -> option hook).
(** [getattr(cls, name)]: the class that defines it. *)
Definition provider (c : nat) : option (nat * hook) :=
  match List.find (fun d => match own d with Some _ => true | None => false end) (mro c) with
  | Some d => match own d with Some h => Some (d, h) | None => None end
  | None => None
  end.
(** controllers.py:44: the first class after that of the instance that has the attribute. *)
Definition parent (self : nat) : option nat :=
  List.find (fun b => match provider b with Some _ => true | None => false end) (tl (mro self)).
(** What a call does: the classes whose bodies ran, and the result; [n] bounds the depth of calls, as Python does. *)
Inductive done := Result (ran : list nat) (r : option R) | RecursionError (ran : list nat) | NoAttribute.
Definition after_run (d : nat) (o : done) : done :=
  match o with Result l r => Result (d :: l) r | RecursionError l => RecursionError (d :: l) | NoAttribute => NoAttribute end.
(** controllers.py:32-48, the wrapper. *)
Fixpoint call_hook (n : nat) (self c : nat) : done :=
  match n with
  | O => RecursionError []
  | S n =>
      match provider c with
      | None => NoAttribute
      | Some (d, h) =>
          if h_wrapped h then
            match h_result h with
            | Some r => Result [d] (Some r)
            | None =>
                match parent self with
                | Some b => after_run d (call_hook n self b)
                | None => Result [d] None
                end
            end
          else Result [d] (h_result h)
      end
  end.
End Hooks.
Arguments hook R : clear implicits.
Arguments done R : clear implicits.

(** ** The token on the page *)
(** controllers.py:140-148 [get_csrf_token] and 168-169; security/csrf.py:117-152 [get_or_set_csrf_token] without a
    response: the cookie's value if there is one that is not empty, else a new token, which is not sent. *)
Definition page_token (e : env) (secret cookie_name : str) (order : list str -> list str) (enabled : bool) (method : str) (req : headers) (random : str) : option str :=
  if enabled && smem (upper method) [u "GET"; u "HEAD"; u "QUERY"] then
    Some (match dget cookie_name (request_cookies order req) with
          | Some (x :: r) => x :: r
          | _ => generate e secret random
          end)
  else None.

(** ** Contexts *)
Section Contexts.
Context {V : Type}.
(** A context processor: its parameters, each with or without a default, and the dict it returns; [None] when it
    raises or returns something else.  controllers.py:175-210. *)
Record processor := { p_params : list (str * bool); p_run : dict V -> option (dict V) }.
Fixpoint arguments (params : list (str * bool)) (available : dict V) : option (dict V) :=
  match params with
  | [] => Some []
  | (n, optional) :: r =>
      match dget n available, arguments r available with
      | Some v, Some a => Some ((n, v) :: a)
      | None, Some a => if optional then Some a else None
      | _, None => None
      end
  end.
Fixpoint process (available : dict V) (ps : list processor) (context : dict V) : option (dict V) :=
  match ps with
  | [] => Some context
  | p :: r =>
      match arguments (p_params p) available with
      | None => None
      | Some a => match p_run p a with Some data => process available r (dupdate context data) | None => None end
      end
  end.
(** What a controller is made of. [c_more]: what a subclass's [get_context_data] does with the context. *)
Record controller := {
  c_self : V; c_csrf : option V;                (* the token, if there is to be one *)
  c_csrf_name : str; c_processors : list processor; c_more : dict V -> dict V }.
(** controllers.py:150-212 [get_context_data].  A keyword named [self] is a TypeError. *)
Definition get_context_data (c : controller) (request : V) (kwargs : dict V) : option (dict V) :=
  if dmem (u "self") kwargs || dmem (u "request") kwargs then None
  else
    let context := [(u "request", request)] in
    let context := match c_csrf c with Some t => dset (c_csrf_name c) t context | None => context end in
    let context := dupdate context kwargs in
    match process (dupdate [(u "request", request); (u "controller", c_self c)] kwargs) (c_processors c) context with
    | Some context => Some (c_more c context)
    | None => None
    end.
(** controllers.py:214-257 [render_template] up to the template. *)
Definition render_context (c : controller) (request : V) (context : dict V) : option (dict V) :=
  let data := ddel (u "request") context in
  match get_context_data c request data with
  | Some merged => Some (dupdate merged data)
  | None => None
  end.
(** jinja.py:60-62: the processors of the template object, each called with the request. *)
Definition template_context (request : V) (processors : list (V -> dict V)) (context : dict V) : dict V :=
  let context := fold_left (fun c p => dupdate c (p request)) processors context in
  match dget (u "request") context with Some _ => context | None => dset (u "request") request context end.   (* base.py:37 *)

(** controllers.py:308-325: the list controller. *)
Definition list_more (name : str) (objects : V) (context : dict V) : dict V := dset name objects context.
(** controllers.py:396-416: the form controller; [form] is [get_initial()]. *)
Definition form_more (initial no_errors : V) (context : dict V) : dict V :=
  let context := dset (u "form") initial context in
  match dget (u "errors") context with Some _ => context | None => dset (u "errors") no_errors context end.
(** A form controller without its own part, for [super().get_context_data]. *)
Definition plainly_more (c : controller) : controller :=
  {| c_self := c_self c; c_csrf := c_csrf c; c_csrf_name := c_csrf_name c; c_processors := c_processors c; c_more := fun x => x |}.
(** controllers.py:418-431 [get]. *)
Definition form_get (c : controller) (request : V) (kwargs : dict V) : option (dict V) :=
  match get_context_data c request kwargs with Some context => render_context c request context | None => None end.
(** controllers.py:509-531 [form_invalid]. *)
Definition form_invalid (c : controller) (request errors data : V) (kwargs : dict V) : option (dict V) :=
  match get_context_data (plainly_more c) request kwargs with
  | Some context => render_context c request (dset (u "errors") errors (dset (u "form") data context))
  | None => None
  end.
(** controllers.py:433-455 [post]: [valid] is the instance or the message of the exception that validation raised. *)
Inductive posted := ShowsForm (context : option (dict V)) | IsValid (instance : V).
Definition form_post (c : controller) (request : V) (submitted : V) (valid : V -> V + V) (kwargs : dict V) : posted :=
  match valid submitted with
  | inl instance => IsValid instance
  | inr errors => ShowsForm (form_invalid c request errors submitted kwargs)
  end.
End Contexts.
Arguments controller V : clear implicits.
Arguments processor V : clear implicits.
