(** Model of [Host] routes (lilya/routing/host.py), on top of the templates of [PathModel]. *)
From Verif Require Import PyStr Asgi HeaderModel PathModel.

(** The parts of a [Host] that routing uses (host.py:51-58): its name, what [compile_path] made of the
    host, and the routes of the application below it (host.py:103-108). *)
Record host_route := { hr_name : option str; hr_regex : list relem; hr_format : str; hr_convs : dict conv; hr_routes : list rnode }.

(** host.py:51-58 [__init__]: a host that starts with a slash is refused ([None]), as is one that
    [compile_path] refuses. *)
Definition host_init (host : str) (name : option str) (routes : list rnode) : option host_route :=
  if prefixb [slash] host then None
  else match compile_path host with
       | CompileError => None
       | Compiled rx fmt convs => Some {| hr_name := name; hr_regex := rx; hr_format := fmt; hr_convs := convs; hr_routes := routes |}
       end.

Inductive host_match :=
| HostNone                                 (** [Match.NONE] *)
| HostError                                (** a conversion raises *)
| HostFull (params : dict pvalue).         (** [Match.FULL] with the [path_params] of the child scope *)

(** host.py:111-152 [search] and [handle_match]: the scope type, the headers and the path parameters of
    the request.  The child scope also names the handler; nothing else of the scope changes. *)
Definition host_search (hr : host_route) (ty : str) (hs : headers) (params : dict pvalue) : host_match :=
  if seqb ty (u "http") || seqb ty (u "websocket") then
    let header := match hget (u "host") hs with Some v => v | None => [] end in
    let host := match split_char 58 header with w :: _ => w | [] => [] end in
    match rmatch (hr_regex hr) host with
    | None => HostNone
    | Some groups =>
        match transform_all (hr_convs hr) groups with
        | None => HostError
        | Some matched => HostFull (dupdate params matched)
        end
    end
  else HostNone.

Inductive host_url_result := HNoMatch | HFail | HUrl (host path : str).

(** host.py:226-244 [url_path_for_with_name]: the value given for "path" is the path.  Values other
    than texts, which Python would turn into texts, are not modelled. *)
Definition host_url_named (hr : host_route) (path : pvalue) (params : dict pvalue) : host_url_result :=
  match replace_params (hr_format hr) (hr_convs hr) (ddel (u "path") params) true with
  | RevError => HFail
  | RevOk host [] => match path with VText t => HUrl host t | _ => HFail end
  | RevOk _ (_ :: _) => HNoMatch
  end.
(** host.py:262-305 [url_path_for_without_name]. *)
Definition host_url_child (hr : host_route) (name : str) (params : dict pvalue) : host_url_result :=
  let remaining_name := match hr_name hr with None => name | Some n => skipn (length n + 1) name end in
  match replace_params (hr_format hr) (hr_convs hr) params true with
  | RevError => HFail
  | RevOk host rem =>
      match first_url (fun c => node_url c remaining_name rem) (hr_routes hr) with
      | Url p => HUrl host p
      | NoMatchFound => HNoMatch
      | UrlError => HFail
      end
  end.
(** host.py:196-216 [url_path_for]. *)
Definition host_url (hr : host_route) (name : str) (params : dict pvalue) : host_url_result :=
  match hr_name hr with
  | None => host_url_child hr name params
  | Some n =>
      match (if seqb name n then dget (u "path") params else None) with
      | Some path => host_url_named hr path params
      | None => if prefixb (n ++ u ":") name then host_url_child hr name params else HNoMatch
      end
  end.
