(** Model of [GZipMiddleware] (lilya/middleware/compression.py). *)
From Verif Require Import PyStr Asgi HeaderModel.

Section Gzip.
Context {G : Type}.
(** gzip.GzipFile over a buffer: its first state, what a write adds to the buffer, and what closing adds
    (the header of the file counts to the first write). *)
Record gzip := { gnew : G; gwrite : G -> str -> G * str; gclose : G -> str }.

(** compression.py:66-86: the state of a responder; the file is made at its first use. *)
Inductive gfile := Unmade | Open (g : G) | Closed.
Record gstate := { initial : option (Z * headers); started : bool; encoded : bool; file : gfile; buffer : str }.
Definition fresh : gstate := {| initial := None; started := false; encoded := false; file := Unmade; buffer := [] |}.

(** [self.gzip_file.write(body)]; [None]: ValueError, the file is closed. *)
Definition fwrite (z : gzip) (f : gfile) (buf body : str) : option (G * str) :=
  match f with
  | Closed => None
  | Unmade => let '(g, o) := gwrite z (gnew z) body in Some (g, buf ++ o)
  | Open g => let '(g', o) := gwrite z g body in Some (g', buf ++ o)
  end.
(** compression.py:165-184 [handle_standard_gzip_response] on the headers. *)
Definition standard_headers (len : N) (h : headers) : headers :=
  add_vary_header (u "Accept-Encoding") (hset (u "Content-Length") (dec len) (hset (u "Content-Encoding") (u "gzip") h)).
(** compression.py:194-198. *)
Definition streaming_headers (h : headers) : headers :=
  hpop (u "Content-Length") (add_vary_header (u "Accept-Encoding") (hset (u "Content-Encoding") (u "gzip") h)).

(** compression.py:105-226 [send_with_gzip] and the functions it calls.  [None]: an exception.  A body
    before any start sends an empty message, which no server takes; it counts as an exception. *)
Definition gstep (order : list str -> list str) (z : gzip) (min : nat) (s : gstate) (m : amsg) : option (gstate * list amsg) :=
  match m with
  | AStart st h =>
      Some ({| initial := Some (st, h); started := started s; encoded := hcontains (u "content-encoding") h; file := file s; buffer := buffer s |}, [])
  | ABody b more =>
      match initial s with
      | None => None
      | Some (st, h) =>
          if encoded s then
            Some ({| initial := initial s; started := true; encoded := true; file := file s; buffer := buffer s |},
                  (if started s then [] else [AStart st (wire order h)]) ++ [ABody b more])
          else if negb (started s) then
            if (length b <? min) && negb more then
              Some ({| initial := initial s; started := true; encoded := false; file := file s; buffer := buffer s |},
                    [AStart st (wire order h); ABody b more])
            else match fwrite z (file s) (buffer s) b with
                 | None => None
                 | Some (g, buf) =>
                     if more then
                       Some ({| initial := Some (st, streaming_headers h); started := true; encoded := false; file := Open g; buffer := [] |},
                             [AStart st (wire order (streaming_headers h)); ABody buf true])
                     else
                       let body := buf ++ gclose z g in
                       let h' := standard_headers (N.of_nat (length body)) h in
                       Some ({| initial := Some (st, h'); started := true; encoded := false; file := Closed; buffer := body |},
                             [AStart st (wire order h'); ABody body false])
                 end
          else match fwrite z (file s) (buffer s) b with
               | None => None
               | Some (g, buf) =>
                   Some ({| initial := initial s; started := true; encoded := false; file := if more then Open g else Closed; buffer := [] |},
                         [ABody (if more then buf else buf ++ gclose z g) more])
               end
      end
  end.
(** The messages of an application through [send_with_gzip]: what is sent, and whether there was no exception. *)
Fixpoint gsend (order : list str -> list str) (z : gzip) (min : nat) (s : gstate) (ms : list amsg) : list amsg * bool :=
  match ms with
  | [] => ([], true)
  | m :: r => match gstep order z min s m with
              | None => ([], false)
              | Some (s', o) => let '(out, ok) := gsend order z min s' r in (o ++ out, ok)
              end
  end.
(** compression.py:36-53 [__call__] for a http request with the headers [req] and an application that
    sends [ms]. *)
Definition gzipped (order : list str -> list str) (z : gzip) (min : nat) (req : headers) (ms : list amsg) : list amsg * bool :=
  if containsb (u "gzip") (match hget (u "Accept-Encoding") req with Some v => v | None => [] end)
  then gsend order z min fresh ms else (ms, true).
End Gzip.
Arguments gzip : clear implicits.
Arguments gstate : clear implicits.
