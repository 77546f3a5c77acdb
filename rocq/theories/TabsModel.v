(** Model of overlapping requests of one browser to an application behind [SessionMiddleware]
    (lilya/middleware/sessions.py): the pages of several tabs, or the requests of one page.  Loading a
    session and writing a Set-Cookie line are those of SessionModel. *)
From Verif Require Import PyStr Asgi HeaderModel CookieModel CookieSpec SessionModel SessionSpec.

Section Tabs.
Context {V : Type}.

(** A request on its way: what the application has still to do, the session in its scope
    (sessions.py:107-116, one mapping for each scope), the flag [initial_session_was_empty] of
    sessions.py:74, what was sent and whether the browser has taken the answer. *)
Record tab := { t_left : list (act V); t_session : dict V; t_empty : bool; t_out : list amsg; t_came : bool }.
(** What can happen: the browser makes a request (with what populate_session gives for it, and the
    application); an application does the next thing; the head of an answer reaches the browser. *)
Inductive event := Goes (pop : option (dict V)) (app : dict V -> list (act V)) | Acts (i : nat) | Comes (i : nat).
(** The cookies of the browser and all requests made so far. *)
Record world := { jar : dict str; tabs : list tab }.
(** What can be seen from outside: the session with which the application of request [i] is called, the
    start of its response and the arrival of that start. *)
Inductive note := Found (now : N) (i : nat) (s : dict V) | Started (now : N) (i : nat) | Came (i : nat).

Fixpoint put_tab (i : nat) (x : tab) (l : list tab) : list tab :=
  match l, i with [], _ => [] | _ :: r, O => x :: r | y :: r, S i' => y :: put_tab i' x r end.
(** Has the response started? *)
Definition begun (ms : list amsg) : bool := existsb (fun m => match m with AStart _ _ => true | _ => false end) ms.

(** sessions.py:66-82: the request arrives, the session is loaded and populated, and the application is
    called.  A request whose session cannot be loaded ends with the exception. *)
Definition goes (order : list str -> list str) (e : senv V) (c : sconfig) (now : N) (pop : option (dict V)) (app : dict V -> list (act V))
    (w : world) : world * list note :=
  match load_session order e c now (client_send (jar w)) with
  | None => ({| jar := jar w; tabs := tabs w ++ [{| t_left := []; t_session := []; t_empty := true; t_out := []; t_came := false |}] |}, [])
  | Some (s, was_empty) =>
      let s := match pop with Some d => if was_empty then dupdate s d else s | None => s end in
      ({| jar := jar w; tabs := tabs w ++ [{| t_left := app s; t_session := s; t_empty := was_empty; t_out := []; t_came := false |}] |},
       [Found now (length (tabs w)) s])
  end.
(** sessions.py:84-88 and 119-160: the application of request [i] changes its session or sends a message. *)
Definition acts (order : list str -> list str) (e : senv V) (c : sconfig) (now : N) (i : nat) (w : world) : world * list note :=
  match nth_error (tabs w) i with
  | None => (w, [])
  | Some t =>
      let with_ left session out :=
        {| jar := jar w; tabs := put_tab i {| t_left := left; t_session := session; t_empty := t_empty t; t_out := out; t_came := t_came t |} (tabs w) |} in
      match t_left t with
      | [] => (w, [])
      | Sets s :: r => (with_ r s (t_out t), [])
      | Emits (AStart st h) :: r =>
          match process_start e c now (t_empty t) (t_session t) h with
          | None => (with_ [] (t_session t) (t_out t), [])
          | Some h' => (with_ r (t_session t) (t_out t ++ [AStart st (wire order h')]), [Started now i])
          end
      | Emits m :: r => (with_ r (t_session t) (t_out t ++ [m]), [])
      end
  end.
(** The browser takes the Set-Cookie lines of an answer once. *)
Definition comes (i : nat) (w : world) : world * list note :=
  match nth_error (tabs w) i with
  | None => (w, [])
  | Some t =>
      if begun (t_out t) && negb (t_came t) then
        ({| jar := browser_after (jar w) (t_out t);
            tabs := put_tab i {| t_left := t_left t; t_session := t_session t; t_empty := t_empty t; t_out := t_out t; t_came := true |} (tabs w) |},
         [Came i])
      else (w, [])
  end.
Definition step (order : list str -> list str) (e : senv V) (c : sconfig) (w : world) (x : N * event) : world * list note :=
  match snd x with
  | Goes pop app => goes order e c (fst x) pop app w
  | Acts i => acts order e c (fst x) i w
  | Comes i => comes i w
  end.
(** A history, each event with its time; the result is what can be seen. *)
Fixpoint run (order : list str -> list str) (e : senv V) (c : sconfig) (w : world) (h : list (N * event)) : list note :=
  match h with [] => [] | x :: r => let '(w', l) := step order e c w x in l ++ run order e c w' r end.
End Tabs.
Arguments tab : clear implicits.
Arguments event : clear implicits.
Arguments world : clear implicits.
Arguments note : clear implicits.
