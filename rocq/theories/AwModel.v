(** Model of responses whose content is still to be awaited and of media types found from the body
    (lilya/responses.py:100-158, 211-238, 343-360), over HeaderModel. *)
From Coq Require Import List NArith ZArith Bool.
From Verif Require Import PyStr Asgi HeaderModel.
Import ListNotations.

(** [deduce_media_type_from_body]: False, True or "force". *)
Inductive deduce := Never | IfNone | Force.
(** responses.py:122-123, 145-146: whether the media type is to be found from the body. *)
Definition finds (w : deduce) (media : option str) : bool :=
  match w, media with Never, _ => false | IfNone, Some _ => false | _, _ => true end.

(** A response: its status, media type, headers, and its body, [None] while the content is still to be awaited.  The
    status is a number (it is None only if a subclass says so). *)
Record resp := { r_status : Z; r_media : option str; r_headers : headers; r_body : option str }.

Section Aw.
  (** libmagic's answer for the first bytes, maybe empty. *)
  Variable magic : str -> str.
  Variable charset : str.
  (** The option. *)
  Variable w : deduce.

  (** responses.py:151-153 [find_media_type]. *)
  Definition find_media (body : str) (media : option str) : str :=
    match magic (firstn 2048 body) with
    | [] => match media with Some (c :: r) => c :: r | _ => u "application/octet-stream" end
    | t => t
    end.

  (** responses.py:211-238 [make_headers] with a body that may not be there yet. *)
  Definition first_headers (st : Z) (body : option str) (media : option str) (given : dict str) : headers :=
    let h := if has_entity_header_status st then remove_entity_headers given else given in
    if has_body_message st then
      let h := match body with Some b => setdefault (u "content-length") (dec (N.of_nat (length b))) h | None => h end in
      match w, body with
      | Force, None => h
      | _, _ => match get_content_type charset media with Some t => setdefault (u "content-type") t h | None => h end
      end
    else h.

  (** responses.py:102-125 [__init__]; [content] is the body, if it is not to be awaited. *)
  Definition make (st : Z) (media : option str) (given : dict str) (content : option str) : resp :=
    let media' := match content with
                  | Some b => if finds w media then Some (find_media b media) else media
                  | None => media
                  end in
    {| r_status := st; r_media := media'; r_headers := first_headers st content media' given; r_body := content |}.

  (** responses.py:134-149 [resolve_async_content], when the content is to be awaited; [b] is the body made of it. *)
  Definition resolve (r : resp) (b : str) : resp :=
    let h := if has_body_message (r_status r) && negb (hcontains (u "content-length") (r_headers r))
             then hset (u "content-length") (dec (N.of_nat (length b))) (r_headers r) else r_headers r in
    if finds w (r_media r) then
      let m := find_media b (r_media r) in
      {| r_status := r_status r; r_media := Some m; r_body := Some b;
         r_headers := match get_content_type charset (Some m) with Some t => hset (u "content-type") t h | None => h end |}
    else {| r_status := r_status r; r_media := r_media r; r_headers := h; r_body := Some b |}.

  (** responses.py:343-360 [__call__]: the response afterwards and what was sent; [awaited] is the body made of the
      awaited content, [None] if awaiting it or making a body of it fails.  The cleanup handler and the background task
      are left out. *)
  Definition call (order : list str -> list str) (r : resp) (awaited : option str) : resp * list amsg :=
    match r_body r with
    | Some b => (r, respond order (r_status r) (r_headers r) b)
    | None =>
      match awaited with
      | Some b => let r' := resolve r b in (r', respond order (r_status r') (r_headers r') b)
      | None => (r, [])
      end
    end.
  (** A response that is called again and again. *)
  Fixpoint calls (order : list str -> list str) (r : resp) (l : list (option str)) : list (list amsg) :=
    match l with
    | [] => []
    | a :: t => let '(r', out) := call order r a in out :: calls order r' t
    end.
End Aw.
