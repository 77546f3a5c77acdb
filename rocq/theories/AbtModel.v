(** Model of http exceptions (lilya/exceptions.py:48-69, 100-143), of the answer [ExceptionMiddleware] gives to them
    (lilya/middleware/exceptions.py:145-169), and of the shortcuts [abort], [json_error], [send_json], [unauthorized],
    [forbidden], [not_found] (lilya/contrib/responses/shortcuts.py), [jsonify] (contrib/responses/json.py) and
    [send_file] (contrib/responses/files.py, with [SimpleFileResponse], lilya/responses.py:1247-1324).
    Simplified: Python values are JSON values (None is [JNull]); no encoders; the charset is utf-8. *)
From Coq Require Import ZArith.
From Verif Require Import PyStr Utf8 Asgi HeaderModel CookieModel JsonModel OutModel ExcModel.

(** Python 3.12, http/__init__.py:6-172 [HTTPStatus]: values and phrases. *)
Definition phrases : list (Z * str) :=
  [(100, u "Continue"); (101, u "Switching Protocols"); (102, u "Processing"); (103, u "Early Hints");
   (200, u "OK"); (201, u "Created"); (202, u "Accepted"); (203, u "Non-Authoritative Information");
   (204, u "No Content"); (205, u "Reset Content"); (206, u "Partial Content"); (207, u "Multi-Status");
   (208, u "Already Reported"); (226, u "IM Used"); (300, u "Multiple Choices"); (301, u "Moved Permanently");
   (302, u "Found"); (303, u "See Other"); (304, u "Not Modified"); (305, u "Use Proxy");
   (307, u "Temporary Redirect"); (308, u "Permanent Redirect"); (400, u "Bad Request"); (401, u "Unauthorized");
   (402, u "Payment Required"); (403, u "Forbidden"); (404, u "Not Found"); (405, u "Method Not Allowed");
   (406, u "Not Acceptable"); (407, u "Proxy Authentication Required"); (408, u "Request Timeout"); (409, u "Conflict");
   (410, u "Gone"); (411, u "Length Required"); (412, u "Precondition Failed"); (413, u "Request Entity Too Large");
   (414, u "Request-URI Too Long"); (415, u "Unsupported Media Type"); (416, u "Requested Range Not Satisfiable"); (417, u "Expectation Failed");
   (418, u "I'm a Teapot"); (421, u "Misdirected Request"); (422, u "Unprocessable Entity"); (423, u "Locked");
   (424, u "Failed Dependency"); (425, u "Too Early"); (426, u "Upgrade Required"); (428, u "Precondition Required");
   (429, u "Too Many Requests"); (431, u "Request Header Fields Too Large"); (451, u "Unavailable For Legal Reasons"); (500, u "Internal Server Error");
   (501, u "Not Implemented"); (502, u "Bad Gateway"); (503, u "Service Unavailable"); (504, u "Gateway Timeout");
   (505, u "HTTP Version Not Supported"); (506, u "Variant Also Negotiates"); (507, u "Insufficient Storage"); (508, u "Loop Detected");
   (510, u "Not Extended"); (511, u "Network Authentication Required")]%Z.
(** [http.HTTPStatus(st).phrase]; [None] is the ValueError of a number that is not a member. *)
Definition phrase (st : Z) : option str := option_map snd (List.find (fun e => Z.eqb (fst e) st) phrases).

(** ** Exceptions *)
(** An exception class: the classes it inherits from (numbers, as in ExcModel), and its class attributes. *)
Record cls := { k_mro : list nat; k_status : option Z; k_detail : option str }.
(** exceptions.py:48-143: the classes of lilya; 3 is [LilyaException], 4 [ValueError], from 10 on the classes themselves. *)
Definition HTTPException : cls := {| k_mro := [cHTTP; 3; cException]; k_status := None; k_detail := None |}.
Definition ImproperlyConfigured : cls := {| k_mro := [10; cHTTP; 3; 4; cException]; k_status := Some 500%Z; k_detail := None |}.
Definition NotAuthorized : cls := {| k_mro := [11; cHTTP; 3; cException]; k_status := Some 401%Z; k_detail := Some (u "Not Authorized.") |}.
Definition NotFound : cls := {| k_mro := [12; cHTTP; 3; 4; cException]; k_status := Some 404%Z; k_detail := Some (u "The resource cannot be found.") |}.
Definition MethodNotAllowed : cls := {| k_mro := [13; cHTTP; 3; cException]; k_status := Some 405%Z; k_detail := None |}.
Definition PermissionDenied : cls :=
  {| k_mro := [14; cHTTP; 3; cException]; k_status := Some 403%Z; k_detail := Some (u "You do not have permission to perform this action.") |}.
Definition UnprocessableEntity : cls := {| k_mro := [15; cHTTP; 3; cException]; k_status := Some 422%Z; k_detail := None |}.

(** An http exception object; [x_response] is the messages its response sends when called. *)
Record raised := { x_mro : list nat; x_status : Z; x_detail : jvalue; x_headers : option (dict str); x_response : option (list amsg) }.
(** exceptions.py:60-61: [status_code or self.status_code or 500]. *)
Definition or_status (a b : option Z) : Z :=
  match a with
  | Some z => if Z.eqb z 0 then match b with Some w => if Z.eqb w 0 then 500%Z else w | None => 500%Z end else z
  | None => match b with Some w => if Z.eqb w 0 then 500%Z else w | None => 500%Z end
  end.
(** exceptions.py:51-70 [HTTPException.__init__]; [None] is the ValueError of [http.HTTPStatus]. *)
Definition construct (c : cls) (args : list jvalue) (status : option Z) (detail : jvalue) (headers : option (dict str))
  (response : option (list amsg)) : option raised :=
  let d := if falsy detail then match k_detail c with Some t => JStr t | None => JNull end else detail in
  let st := or_status status (k_status c) in
  let made d := Some {| x_mro := k_mro c; x_status := st; x_detail := d; x_headers := headers; x_response := response |} in
  if falsy d then
    match args with
    | a :: _ => made a
    | [] => match phrase st with Some p => made (JStr p) | None => None end
    end
  else made d.

(** [headers or {}] as the constructor of a response takes them. *)
Definition given (headers : option (dict str)) : dict str := match headers with Some h => h | None => [] end.
(** A response and what the caller's dict has become ([make_headers] writes into it). *)
Definition response (order : list str -> list str) (st : Z) (body : str) (media : option str) (headers : option (dict str)) : list amsg * option (dict str) :=
  let '(h, after) := make_headers st body (u "utf-8") media (given headers) in
  (HeaderModel.respond order st h body, match headers with Some _ => Some after | None => None end).
(** middleware/exceptions.py:145-169 [http_exception]; [None] when making the response fails. *)
Definition default_response (order : list str -> list str) (x : raised) : option (list amsg) :=
  match x_response x with
  | Some ms => Some ms
  | None =>
      if Z.eqb (x_status x) 204 || Z.eqb (x_status x) 304 then Some (fst (response order (x_status x) [] None (x_headers x)))
      else match body_of false (CValue (x_detail x)) with
           | Some b => Some (fst (response order (x_status x) b (Some (u "text/plain")) (x_headers x)))
           | None => None
           end
  end.
(** The exception as the handlers of ExcModel see it: its response is the one the default handler gives. *)
Definition exc_of (order : list str -> list str) (x : raised) : option exc :=
  match default_response order x with
  | Some ms => Some {| e_id := 0; e_mro := x_mro x; e_status := Has (x_status x); e_text := []; e_response := Some ms |}
  | None => None
  end.

(** ** Shortcuts *)
(** shortcuts.py:17-73 [abort]: it raises an http exception, or another one ([None]). *)
Definition abort (order : list str -> list str) (st : Z) (detail : jvalue) (headers : option (dict str)) : option raised :=
  match detail with
  | JObj _ | JArr _ =>
      match json_body detail with
      | Some b => let '(ms, after) := response order st b (Some (u "application/json")) headers in
                  construct HTTPException [] (Some st) JNull after (Some ms)
      | None => None
      end
  | JNull => construct HTTPException [] (Some st) JNull headers None
  | _ =>
      match body_of false (CValue detail) with
      | Some b => let '(ms, after) := response order st b None headers in construct HTTPException [] (Some st) detail after (Some ms)
      | None => None
      end
  end.
(** shortcuts.py:76-103 [send_json], and the [JSONResponse] of the others; [None] is an exception. *)
Definition send_json (order : list str -> list str) (v : jvalue) (st : Z) (headers : option (dict str)) : option (list amsg) :=
  match json_body v with Some b => Some (fst (response order st b (Some (u "application/json")) headers)) | None => None end.
(** shortcuts.py:106-135 [json_error], 246-331 [unauthorized], [forbidden], [not_found]. *)
Definition json_error (order : list str -> list str) (message : jvalue) (st : Z) (headers : option (dict str)) : option (list amsg) :=
  send_json order (match message with JStr _ => JObj [(u "error", message)] | _ => message end) st headers.
Definition unauthorized order (m : str) headers := send_json order (JObj [(u "error", JStr m)]) 401 headers.
Definition forbidden order (m : str) headers := send_json order (JObj [(u "error", JStr m)]) 403 headers.
Definition not_found order (m : str) headers := send_json order (JObj [(u "error", JStr m)]) 404 headers.

(** responses.py:240-252: the defaults of [set_cookie]. *)
Definition plain_cookie (kv : str * str) : cookie :=
  {| c_key := fst kv; c_value := snd kv; c_path := Some (u "/"); c_domain := None; c_secure := false; c_max_age := None;
     c_expires := None; c_httponly := false; c_samesite := Some (u "lax") |}.
Definition add_cookie (h : option headers) (kv : str * str) : option headers := match h with Some h => set_cookie (plain_cookie kv) h | None => None end.
(** contrib/responses/json.py:12-50 [jsonify]; [None] is an exception. *)
Definition jsonify (order : list str -> list str) (args : list jvalue) (kwargs : dict jvalue) (st : Z) (headers : option (dict str))
  (cookies : dict str) : option (list amsg) :=
  match args, kwargs with
  | _ :: _, _ :: _ => None
  | _, _ =>
      let payload := match args with [a] => a | _ :: _ :: _ => JArr args | [] => JObj kwargs end in
      match dumps payload with
      | Some t =>
          match body_of false (CValue (JStr t)) with
          | Some b =>
              match fold_left add_cookie cookies (Some (fst (make_headers st b (u "utf-8") (Some (u "application/json")) (given headers)))) with
              | Some h => Some (HeaderModel.respond order st h b)
              | None => None
              end
          | None => None
          end
      | None => None
      end
  end.

(** ** Files *)
(** What is sent: a path, an object with a name ([open(...)]), bytes, or another file object. *)
Inductive source := Path (p : str) | Named | Bytes (b : str) | Anonymous.
(** pathlib: [PurePosixPath(p).name], the last component, without those that are empty or one dot. *)
Definition path_name (p : str) : str :=
  last (filter (fun c => negb (seqb c []) && negb (seqb c (u "."))) (split_char 47%N p)) [].
Inductive made := FileResponse | DispositionResponse | StreamingResponse.
(** responses.py:1266-1324 [SimpleFileResponse.__new__]: which response is made. *)
Definition simple_file (s : source) : made :=
  match s with Path _ | Named => FileResponse | Bytes _ => DispositionResponse | Anonymous => StreamingResponse end.
Definition text_or (a : option str) (b : str) : str := match a with Some (c :: r) => c :: r | _ => b end.
(** files.py:9-47 [send_file]: the response and the headers that do not depend on the content.  (A [FileResponse] and a
    [DispositionResponse] add the disposition in [make_headers], a [StreamingResponse] gets it in its headers.) *)
Definition send_file (s : source) (as_attachment : bool) (attachment_filename : option str) (max_age : option Z) : made * dict str :=
  let headers := match max_age with Some n => [(u "Cache-Control", u "public, max-age=" ++ decz n)] | None => [] end in
  let filename := text_or attachment_filename (match s with Path p => path_name p | _ => u "download" end) in
  (simple_file s, add_disposition (Some (if as_attachment then u "attachment" else u "inline")) (Some filename) headers).
