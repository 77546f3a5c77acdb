(** Model of how responses render what they are given: lilya/responses.py, [Response.make_response],
    [DispositionResponse.make_content_disposition_header] and [XMLResponse.make_response].
    Simplified: the charset is utf-8; [passthrough_body_types] is [(bytes,)]; no encoders; the values inside an XML
    response are dicts, lists and scalars given by their [str()]. *)
From Verif Require Import PyStr Utf8 JsonModel.
Local Open Scope N_scope.

(** ** Content-Disposition *)
(** urllib.parse.quote with its default [safe='/']. *)
Definition quote_char (b : N) : str := if b =? 47 then [b] else quote_byte b.
Definition quote (s : str) : str := flat_map quote_char (utf8_enc s).

(** responses.py:398-423 [make_content_disposition_header]. *)
Definition attachment (filename : str) : str :=
  let quoted := quote filename in
  if seqb quoted filename then u "attachment; filename=""" ++ filename ++ u """"
  else u "attachment; filename*=utf-8''" ++ quoted.
Definition disposition (type : option str) (filename : option str) : option str :=
  match type with
  | Some t =>
      if seqb t (u "inline") then Some (u "inline")
      else if seqb t (u "attachment") then
        match filename with Some f => Some (attachment f) | None => Some (u "attachment") end
      else None
  | None => match filename with Some f => Some (attachment f) | None => None end
  end.
(** responses.py:425-434 [make_headers]: [setdefault] on the headers made so far, whose names are in lower case. *)
Definition add_disposition (type filename : option str) (headers : dict str) : dict str :=
  match disposition type filename with
  | Some v => match dget (u "content-disposition") headers with
              | Some _ => headers
              | None => dset (u "content-disposition") v headers
              end
  | None => headers
  end.

(** ** XML *)
Inductive xval := XText (s : str) | XList (l : list xval) | XDict (l : list (str * xval)).
(** responses.py:1456-1467 [to_xml]. *)
Definition open_tag (tag : str) : str := u "<" ++ tag ++ u ">".
Definition close_tag (tag : str) : str := u "</" ++ tag ++ u ">".
Fixpoint to_xml (v : xval) (tag : str) : str :=
  match v with
  | XDict l => open_tag tag ++ flat_map (fun e => to_xml (snd e) (fst e)) l ++ close_tag tag
  | XList l => flat_map (fun i => to_xml i tag) l
  | XText s => open_tag tag ++ s ++ close_tag tag
  end.
(** responses.py:1469-1480: the text before it is encoded. *)
Definition xml_text (v : xval) : str :=
  match v with
  | XDict l => open_tag (u "root") ++ flat_map (fun e => to_xml (snd e) (fst e)) l ++ close_tag (u "root")
  | XList l => flat_map (fun i => to_xml i (u "root")) l
  | XText s => open_tag (u "root") ++ s ++ close_tag (u "root")
  end.
(** responses.py:1441-1480 [XMLResponse.make_response]; [None] is a UnicodeEncodeError. *)
Inductive xml_content := XNone | XBytes (b : str) | XStr (s : str) | XVal (v : xval).
Definition xml_body (c : xml_content) : option str :=
  match c with
  | XNone => Some []
  | XBytes b => Some b
  | XStr s => encode s
  | XVal v => encode (xml_text v)
  end.

(** ** Plain responses *)
Inductive content := CNothing | CBytes (b : str) | CValue (v : jvalue).
(** Python's [not content]. *)
Definition falsy (v : jvalue) : bool :=
  match v with
  | JNull => true | JBool b => negb b | JInt z => Z.eqb z 0
  | JFloat t => smem t [u "0.0"; u "-0.0"]
  | JStr s => match s with [] => true | _ => false end
  | JArr l => match l with [] => true | _ => false end
  | JObj l => match l with [] => true | _ => false end
  end.
(** responses.py:171-209 [Response.make_response]; [transform] is whether [RESPONSE_TRANSFORM_KWARGS] is set (as it is
    while [make_response], responses.py:1575-1599, builds the response); [None] is an exception. *)
Definition body_of (transform : bool) (c : content) : option str :=
  match c with
  | CNothing => Some []
  | CBytes b => Some b
  | CValue JNull => Some []
  | CValue v =>
      if transform then
        match dumps v with
        | Some t => match strip_by (fun c => c =? 34) t with [] => Some [] | t' => encode t' end
        | None => None
        end
      else if falsy v then Some []
      else match v with JStr s => encode s | _ => None end
  end.
