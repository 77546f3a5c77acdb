(** Model of the answer [LilyaExceptionMiddleware] makes of an exception nobody handles
    (lilya/middleware/lilya_exception.py:15-34, 106-129); when it does is in ExcModel. *)
From Coq Require Import ZArith.
From Verif Require Import PyStr Asgi HeaderModel JsonModel OutModel AbtModel.

(** What it looks at: an HTTPException, and [str(exc)] of any other. *)
Inductive failure := Http (status : Z) (detail : jvalue) (extra : dict jvalue) (headers : option (dict str)) | Unforeseen (words : str).
(** lilya_exception.py:15-34 [Content.dict(exclude_none=True)]; the values are JSON already. *)
Definition content (status : Z) (detail : jvalue) (extra : option (dict jvalue)) : dict jvalue :=
  filter (fun e => match snd e with JNull => false | _ => true end)
    [(u "status_code", JInt status); (u "detail", detail); (u "extra", match extra with Some x => JObj x | None => JNull end)].
(** lilya_exception.py:106-129 [create_exception_response]; [None] is an exception. *)
Definition create_exception_response (order : list str -> list str) (f : failure) : option (list amsg) :=
  let '(c, status, headers) :=
    match f with
    | Http st d x h => (content st d (match x with [] => None | _ => Some x end), if (st =? 0)%Z then 500%Z else st, match h with Some h => h | None => [] end)
    | Unforeseen w => (content 500 (JStr w) None, 500%Z, [])
    end in
  match dumps (JObj c) with
  | Some t => match body_of false (CValue (JStr t)) with
              | Some b => Some (fst (response order status b (Some (u "application/json")) (Some headers)))
              | None => None
              end
  | None => None
  end.
