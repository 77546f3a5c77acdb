(** Model of the middleware for WSGI applications (lilya/middleware/wsgi.py).

    What the WSGI application does with a request is a run: the messages a2wsgi makes of its answer, and the
    exception it raised, if any.  a2wsgi itself, its queue and its threads are external; it is taken to hand on the
    messages in order and to raise what the application raised.  Only http requests are modelled. *)
From Verif Require Import PyStr Asgi ExcModel.
Open Scope Z_scope.

(** wsgi.py:101-104: the first start message of the buffer. *)
Fixpoint first_start (ms : list amsg) : option Z :=
  match ms with [] => None | AStart z _ :: _ => Some z | ABody _ _ :: r => first_start r end.

(** wsgi.py:83-134 [BufferedWSGIResponder.__call__].  [make status body] is the exception of line 114, with the
    detail decoded from the body; [app] is [scope["app"]], by its [exception_handlers].  An exception of the run
    leaves the call of line 98, so that the buffer is never sent.  The handler is awaited whatever it is (128): the
    response of a plain function is no awaitable. *)
Definition buffered (en : env) (make : Z -> str -> exc) (app : option table) (r : run) : run :=
  match r with
  | (_, Some e) => ([], Some e)
  | (ms, None) =>
      match first_start ms with
      | Some z =>
          if z >=? 400 then
            match app with
            | None => ([], Some (py_error en))
            | Some t =>
                let e := make z (abytes ms) in
                match aget key_eqb (KClass (e_class e)) t with
                | Some n =>
                    match acts en n e with
                    | Raises e' => ([], Some e')
                    | Gives ms' o => if coroutine en n then (ms', o) else ([], Some (py_error en))
                    end
                | None => (ms, None)
                end
            end
          else (ms, None)
      | None => (ms, None)
      end
  end.

(** wsgi.py:182-219 [WSGIMiddleware.__call__]. *)
Definition wsgi (en : env) (redirect : bool) (make : Z -> str -> exc) (app : option table) (r : run) : run :=
  if redirect then buffered en make app r else r.
