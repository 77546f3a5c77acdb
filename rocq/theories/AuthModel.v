(** Model of the authentication middleware (lilya/middleware/authentication.py) and of the [requires]
    decorator (lilya/authentication.py), with the calls of handlers that _internal/_responses.py and
    controllers.py make. *)
From Verif Require Import PyStr UrlModel.

(** ** Authentication *)
Section Auth.
(** Credentials, users and exceptions. *)
Context {C U E : Type}.
(** What a backend does: None, a result, an AuthenticationError, or another exception. *)
Inductive answer := Unknown | Knows (c : C) (user : U) | Refuses (e : E) | Fails (e : E).
Inductive kind := Http | WebSocket | Lifespan.
(** What happens, in order: a backend is asked, the application is called with what its scope then holds
    ([None]: as it was), on_error is called, its response is sent, the websocket is closed, an exception
    leaves the middleware. *)
Inductive event := Ask (i : nat) | Call (auth : option (C * U)) | OnError (e : E) | SendError (e : E) | CloseWs (code : N) | Raise (e : E).

(** authentication.py:124-132 [authenticate], the backends from number [i]. *)
Fixpoint authenticate (i : nat) (answers : list answer) : list event * answer :=
  match answers with
  | [] => ([], Unknown)
  | Unknown :: r => let '(t, a) := authenticate (S i) r in (Ask i :: t, a)
  | a :: _ => ([Ask i], a)
  end.
(** authentication.py:77-97 [_process_exception]. *)
Definition process_exception (k : kind) (e : E) : list event :=
  OnError e :: match k with WebSocket => [CloseWs 1000] | _ => [SendError e] end.
(** authentication.py:50-71 [__call__]. *)
Definition auth_call (k : kind) (anonymous : C * U) (answers : list answer) : list event :=
  match k with
  | Lifespan => [Call None]
  | _ => let '(t, a) := authenticate 0 answers in
         t ++ match a with
              | Refuses e => process_exception k e
              | Fails e => [Raise e]
              | Unknown => [Call (Some anonymous)]
              | Knows c x => [Call (Some (c, x))]
              end
  end.
End Auth.
Arguments answer : clear implicits.
Arguments event : clear implicits.

(** ** The [requires] decorator *)
(** [scope["auth"]]: missing, None, or credentials with scopes. *)
Inductive auth := NoAuth | AuthNone | Scopes (l : list str).
(** A value among the arguments: a request (with its URL), a websocket, or another one. *)
Inductive value := VRequest (a : auth) (url : str) | VSocket (a : auth) | VOther (n : N).
(** authentication.py:57-74: the settings, and the parameter the connection is read from; [None]: the
    decorator raises. *)
Record setting := { scopes_list : list str; status_code : Z; redirect : option str; must_find : bool; conn_param : option str }.
Definition connection_param (s : setting) (params : list str) : option (option str) :=
  let wanted n := seqb n (u "request") || seqb n (u "websocket") || match conn_param s with Some p => seqb n p | None => false end in
  match List.find wanted params with
  | Some n => Some (Some n)
  | None => match conn_param s with
            | Some p => Some (Some p)
            | None => if must_find s then None else Some None
            end
  end.
(** authentication.py:21-33 [has_required_scope] on scopes. *)
Definition has_required_scope (have required : list str) : bool := forallb (fun x => smem x have) required.

(** What a call of the wrapped handler comes to: the handler runs, HTTPException with a status, a redirect,
    the websocket is closed, nothing, or another exception. *)
Inductive outcome := Runs | Denied (st : Z) | Redirected (url : str) | SocketClosed (code : N) | Nothing | Crashes.
(** authentication.py:85-103; [route] is [url_path_for] (None: RuntimeError). *)
Definition handle_redirect_or_error (route : str -> option str) (s : setting) (url : str) : outcome :=
  match redirect s with
  | None => Denied (status_code s)
  | Some r => Redirected (match route r with Some p => p | None => r end ++ u "?" ++ urlencode [(u "next", url)])
  end.
(** authentication.py:108-127 [async_wrapper] and 134-169 [sync_wrapper]; positional arguments are not
    looked at.  In [sync_wrapper] the coroutine of [close] is made but not awaited. *)
Definition wrapper (route : str -> option str) (is_async : bool) (s : setting) (param : option str) (args : list value) (kwargs : dict value) : outcome :=
  match match param with Some p => dget p kwargs | None => None end with
  | Some (VRequest a url) =>
      match a with
      | NoAuth => Crashes
      | AuthNone => if is_async then handle_redirect_or_error route s url else Crashes
      | Scopes l => if has_required_scope l (scopes_list s) then Runs else handle_redirect_or_error route s url
      end
  | Some (VSocket a) =>
      match a with
      | NoAuth => Crashes
      | AuthNone => if is_async then SocketClosed 1000 else Crashes
      | Scopes l => if has_required_scope l (scopes_list s) then Runs else if is_async then SocketClosed 1000 else Nothing
      end
  | _ => Runs
  end.

(** _responses.py:520-524, 545-548 and controllers.py:172-179: the keyword arguments of a http handler;
    [others] are those found elsewhere. *)
Definition http_kwargs (params : list str) (req : value) (others : dict value) : dict value :=
  if smem (u "request") params then dset (u "request") req others else others.
(** The decorated handlers, called by the framework; [None]: the decorator raised.  A websocket handler
    gets the websocket as its first positional argument (_responses.py:1135-1188); [others] are its
    resolved dependencies. *)
Definition http_handler (route : str -> option str) (is_async : bool) (s : setting) (params : list str) (req : value) (others : dict value) : option outcome :=
  match connection_param s params with None => None | Some p => Some (wrapper route is_async s p [] (http_kwargs params req others)) end.
Definition socket_handler (route : str -> option str) (is_async : bool) (s : setting) (params : list str) (socket : value) (others : dict value) : option outcome :=
  match connection_param s params with None => None | Some p => Some (wrapper route is_async s p [socket] others) end.
