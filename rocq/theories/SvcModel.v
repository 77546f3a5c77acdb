(** Model of the services attached to an application: lilya/contrib/mail/startup.py:9-52 [setup_mail],
    lilya/contrib/ai/startup.py:8-32 [setup_ai] and the dependencies that look them up,
    lilya/contrib/mail/dependencies.py:10-65 and lilya/contrib/ai/dependencies.py:10-27. *)
From Verif Require Import PyStr LifeModel.
Open Scope nat_scope.

(** What the state of an application holds: a mailer (known by its backend), an AI client, anything else. *)
Inductive obj := OMailer (b : nat) | OClient (c : nat) | OOther (n : nat).

(** An application: [app.state] (lilya/apps.py:1202) and the hooks of its router. *)
Record application := { state : dict obj; life : router }.
Definition world := nat -> application.

(** The hooks [Mailer.open], [Mailer.close], [AIClient.startup] and [AIClient.shutdown], numbered for LifeModel. *)
Definition opens (b : nat) : nat := 4 * b.
Definition closes (b : nat) : nat := 4 * b + 1.
Definition starts_up (c : nat) : nat := 4 * c + 2.
Definition shuts_down (c : nat) : nat := 4 * c + 3.

Inductive op :=
| SetupMail (a : nat) (backend : option nat) (attach : bool)
| SetupAI (a : nat) (client : option nat) (attribute : str) (attach : bool)
| Assign (a : nat) (attribute : str) (o : obj).      (** app.state.x = o, in the user's own code *)

Definition update (w : world) (a : nat) (x : application) : world := fun b => if b =? a then x else w b.

(** mail/startup.py:37-52 and ai/startup.py:23-32; without a backend or client an error is raised before anything is
    done.  Applications are Lilya objects, so they have [add_event_handler] (lilya/apps.py:411-412). *)
Definition attach_hooks (attach : bool) (up_hook down_hook : nat) (r : router) : router :=
  if attach then on_shutdown down_hook (on_startup up_hook r) else r.
Definition step (w : world) (o : op) : world :=
  match o with
  | SetupMail _ None _ | SetupAI _ None _ _ => w
  | SetupMail a (Some b) attach =>
      update w a {| state := dset (u "mailer") (OMailer b) (state (w a)); life := attach_hooks attach (opens b) (closes b) (life (w a)) |}
  | SetupAI a (Some c) attribute attach =>
      update w a {| state := dset attribute (OClient c) (state (w a)); life := attach_hooks attach (starts_up c) (shuts_down c) (life (w a)) |}
  | Assign a attribute o => update w a {| state := dset attribute o (state (w a)); life := life (w a) |}
  end.
Definition run (ops : list op) (w : world) : world := fold_left step ops w.

(** lilya/apps.py:504: every application on the way to the handler puts itself into its scope; the last one stays.
    lilya/_internal/_connection.py:76-77 [request.app]. *)
Definition request_app (outer : nat) (inner : list nat) : nat := last inner outer.

(** mail/dependencies.py:58-64 and ai/dependencies.py:20-27: what is injected, or RuntimeError. *)
Definition resolve_mailer (w : world) (outer : nat) (inner : list nat) : option nat :=
  match dget (u "mailer") (state (w (request_app outer inner))) with Some (OMailer b) => Some b | _ => None end.
Definition resolve_client (w : world) (outer : nat) (inner : list nat) : option nat :=
  match dget (u "ai") (state (w (request_app outer inner))) with Some (OClient c) => Some c | _ => None end.
