(** What a user expects of a response object that answers several requests: each client gets what a new
    object with the same content would have given it. *)
From Verif Require Import PyStr HeaderModel FileModel ReuseModel.

(** Each request answered by its own copy of the object. *)
Definition separate (ls : list layer) (r : resp) (qs : list req) : list ans :=
  map (fun q => snd (call ls r q)) qs.
Definition file_separate (chunk : Z) (fr : file_resp) (vs : list visit) : list file_out :=
  map (fun v => file_call (v_now v) chunk (look fr v) (v_req v)) vs.

(** The middleware has nothing of this client's to put into the headers. *)
Inductive idle (r : resp) (q : req) : layer -> Prop :=
| IdleSession c : q_session q = None -> idle r q (LSession c)
| IdleCsrf : q_csrf q = true -> idle r q LCsrf
| IdleFrame v : idle r q (LFrame v)
| IdleGzip m z : q_gzip q = false \/ (N.of_nat (length (r_body r)) < m)%N -> idle r q (LGzip m z)
| IdleCors os s : q_origin q = None -> idle r q (LCors os s).

(** The file is the same one at every request. *)
Definition same_file (v w : visit) : Prop :=
  v_size v = v_size w /\ v_etag v = v_etag w /\ v_modified v = v_modified w /\ v_content v = v_content w.
(** The answer is not 206 Partial Content. *)
Definition whole (o : file_out) : Prop := forall h ms, o <> FOk (MStart 206 h :: ms).
