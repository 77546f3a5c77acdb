(** What C37, C71 and C72 say. *)
From Verif Require Import PyStr Utf8 Asgi HeaderModel HeaderSpec CorsSpec CookieModel CookieSpec Base64 SessionModel.

(** A client: it keeps a cookie until a line for its name comes with Max-Age at most 0 or an Expires
    date in the past. *)
Definition expires_past (attribute : str) : bool :=
  seqb (lower (strip attribute)) (u "expires=thu, 01 jan 1970 00:00:00 gmt").
Definition browser_store (jar : dict str) (line : str) : dict str :=
  match split_char 59 line with
  | nv :: attributes =>
      match split1 61 nv with
      | Some (n, v) => if existsb (fun a => ends_now a || expires_past a) attributes then ddel (strip n) jar
                       else dset (strip n) (strip v) jar
      | None => jar
      end
  | [] => jar
  end.
(** The name a Set-Cookie line is for. *)
Definition line_name (line : str) : option str :=
  match split_char 59 line with
  | nv :: _ => match split1 61 nv with Some (n, _) => Some (strip n) | None => None end
  | [] => None
  end.
Definition browser_after (jar : dict str) (ms : list amsg) : dict str := fold_left browser_store (lines (u "set-cookie") ms) jar.

Section Spec.
Context {V : Type}.

(** The library behaves: signatures and serialized sessions are bytes. *)
Record good_senv (e : senv V) : Prop := {
  ge_mac : forall s, bytes (mac e s);
  ge_dumps : forall s j, dumps e s = Some j -> bytes j }.
(** Settings that make sense. *)
Record good_sconfig (c : sconfig) : Prop := {
  gc_name : usable_name (s_cookie c);
  gc_path : ~ In 59%N (s_path c);
  gc_same : In (s_same_site c) [u "lax"; u "strict"; u "none"];
  gc_domain : forall d, s_domain c = Some d -> ~ In 59%N d }.
(** A content the serializer can store. *)
Definition storable (e : senv V) (s : dict V) : Prop := exists j, dumps e s = Some j /\ loads e j = Some s.

(** An application that leaves the session with content [f s] when it starts its response, and neither
    touches it later nor sets the session cookie itself. *)
Definition serves (e : senv V) (c : sconfig) (app : dict V -> list (act V)) (f : dict V -> dict V) : Prop :=
  forall s, exists edits st h bodies,
    app s = map Sets edits ++ Emits (AStart st h) :: map (fun b => Emits (ABody (fst b) (snd b))) bodies
    /\ last edits s = f s /\ (f s <> [] -> storable e (f s))
    /\ (forall k, In k (map fst h) -> lower k = u "set-cookie" -> k = u "set-cookie")
    /\ (forall l, In l (values (u "set-cookie") h) -> line_name l <> Some (s_cookie c)).

(** A request: when it comes, what populate_session gives for it, and the application with its effect. *)
Record visit := { v_now : N; v_pop : option (dict V); v_app : dict V -> list (act V); v_effect : dict V -> dict V }.
(** The reference: a session kept on the server with the time it was saved. *)
Definition memory := option (dict V * N).
Definition alive (max : option N) (now : N) (m : memory) : option (dict V) :=
  match m with
  | None => None
  | Some (s, t) => match max with Some a => if (now <=? t + a)%N then Some s else None | None => Some s end
  end.
Definition finds (c : sconfig) (m : memory) (v : visit) : dict V :=
  match alive (s_max_age c) (v_now v) m with
  | Some s => s
  | None => match v_pop v with Some d => dupdate [] d | None => [] end
  end.
Definition keeps (c : sconfig) (m : memory) (v : visit) : memory :=
  match v_effect v (finds c m v) with [] => None | s => Some (s, v_now v) end.
Fixpoint expected (c : sconfig) (m : memory) (vs : list visit) : list (dict V) :=
  match vs with [] => [] | v :: r => finds c m v :: expected c (keeps c m v) r end.

(** The sessions the applications find when a browser makes the requests. *)
Fixpoint browse (order : list str -> list str) (e : senv V) (c : sconfig) (jar : dict str) (vs : list visit) : option (list (dict V)) :=
  match vs with
  | [] => Some []
  | v :: r =>
      match serve order e c (v_now v) (v_pop v) (client_send jar) (v_app v) with
      | None => None
      | Some (s, (out, _, ok)) =>
          match browse order e c (browser_after jar out) r with None => None | Some l => Some (s :: l) end
      end
  end.
(** Times do not go back. *)
Fixpoint in_order (now : N) (vs : list visit) : Prop :=
  match vs with [] => True | v :: r => (now <= v_now v)%N /\ in_order (v_now v) r end.
End Spec.
Arguments visit : clear implicits.
Arguments memory : clear implicits.

(** The global session without one key. *)
Definition rest_same {A} (sub : str) (g g' : dict (sval A)) : Prop := forall k, k <> sub -> dget k g' = dget k g.
(** What the application left in its part before the first message. *)
Fixpoint part_left {A} (acts : list (sact A)) (d : dict A) : dict A :=
  match acts with [] => d | Fill d' :: r => part_left r d' | Sent _ :: _ => d end.
