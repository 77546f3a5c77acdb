(** Model of [SignedURLGenerator] (lilya/contrib/security/signed_urls.py) over urllib.parse. *)
From Verif Require Import PyStr Utf8 UrlModel.

(** ** urllib.parse (library behaviour) *)
Definition uses_params : list str :=
  [u ""; u "ftp"; u "hdl"; u "prospero"; u "http"; u "imap"; u "https"; u "shttp"; u "rtsp"; u "rtsps"; u "rtspu"; u "sip"; u "sips";
   u "mms"; u "sftp"; u "tel"].
(** [_splitparams]. *)
Definition split_params (path : str) : str * str :=
  match rsplit1 47 path with
  | Some (a, b) => match split1 59 b with Some (x, y) => (a ++ u "/" ++ x, y) | None => (path, []) end
  | None => match split1 59 path with Some (x, y) => (x, y) | None => (path, []) end
  end.
(** [urlparse]: the parts and the parameters of the last segment. *)
Definition urlparse (ip_ok : str -> bool) (s : str) : option (parts * str) :=
  match urlsplit ip_ok s with
  | None => None
  | Some p =>
      let (path, params) := if smem (p_scheme p) uses_params then split_params (p_path p) else (p_path p, []) in
      Some ({| p_scheme := p_scheme p; p_netloc := p_netloc p; p_path := path; p_query := p_query p; p_fragment := p_fragment p |}, params)
  end.
(** [urlunparse] with a new query. *)
Definition urlunparse (p : parts) (params query : str) : str :=
  urlunsplit {| p_scheme := p_scheme p; p_netloc := p_netloc p;
                p_path := if empty params then p_path p else p_path p ++ u ";" ++ params;
                p_query := query; p_fragment := p_fragment p |}.
(** [parse_qsl(query)]: pairs without a value are left out. *)
Definition read_query (query : str) : list (str * str) :=
  map qsl_pair (filter (fun p => negb (empty (snd (partition 61 p)))) (filter (fun p => negb (empty p)) (split_char 38 query))).

(** ** signed_urls.py *)
(** What is signed, signed_urls.py:74 and 129. *)
Definition to_sign (path : str) (params : dict str) : str := utf8_enc (path ++ u "?" ++ urlencode params).
(** signed_urls.py:44-85 [sign].  [mac] is the HMAC of bytes under the secret key as unpadded base64 text;
    [now] counts millionths of a second. *)
Definition sign (ip_ok : str -> bool) (mac : str -> str) (now lifetime : Z) (s : str) : option str :=
  match urlparse ip_ok s with
  | None => None
  | Some (p, segment) =>
      let params := dupdate [] (read_query (p_query p)) in
      let params := dset (u "expires") (decz (now / 1000000 + lifetime)) params in
      let query := urlencode params in
      Some (urlunparse p segment (query ++ u "&sig=" ++ mac (to_sign (p_path p) params)))
  end.
Inductive verdict := Yes | No | Fails.
(** signed_urls.py:87-136 [verify].  [compare_digest] refuses texts that are not ASCII. *)
Definition verify (ip_ok : str -> bool) (mac : str -> str) (now : Z) (s : str) : verdict :=
  match urlparse ip_ok s with
  | None => Fails
  | Some (p, _) =>
      let params := dupdate [] (read_query (p_query p)) in
      match dget (u "sig") params with
      | None | Some [] => No
      | Some sig =>
          let params := ddel (u "sig") params in
          match int_parse (match dget (u "expires") params with Some e => e | None => u "0" end) with
          | None => No
          | Some expires =>
              if (now >? expires * 1000000)%Z then No
              else if negb (forallb (fun c => c <? 128)%N sig) then Fails
              else if seqb (mac (to_sign (p_path p) params)) sig then Yes else No
          end
      end
  end.
