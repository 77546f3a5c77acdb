(** Model of the mail backends that keep messages for people and tests to look at: [FileBackend]
    (lilya/contrib/mail/backends/file.py) and [InMemoryBackend] (lilya/contrib/mail/backends/inmemory.py). *)
From Verif Require Import PyStr Utf8 EncModel.

(** ** file.py *)
(** A time of datetime.now(timezone.utc). *)
Record moment := { year : N; month : N; day : N; hour : N; minute : N; second : N; micro : N }.
(** file.py:54: strftime with %Y%m%d-%H%M%S-%f. *)
Definition stamp (t : moment) : str :=
  pad 4 (year t) ++ pad 2 (month t) ++ pad 2 (day t) ++ u "-" ++ pad 2 (hour t) ++ pad 2 (minute t) ++ pad 2 (second t) ++ u "-" ++ pad 6 (micro t).
(** file.py:55-57; [alnum] is str.isalnum of one character. *)
Definition safe_subject (alnum : N -> bool) (subject : str) : str :=
  firstn 60 (filter (fun ch => alnum ch || cmem ch (u "-_")) (match subject with [] => u "no-subject" | s => s end)).
(** file.py:59: pathlib's [/]: an absolute name takes the place of the directory. *)
Definition joined (dir name : str) : str := if prefixb (u "/") name then name else dir ++ u "/" ++ name.
Definition file_path (alnum : N -> bool) (dir : str) (now : moment) (subject : str) : str * str :=
  let name := stamp now ++ u "-" ++ safe_subject alnum subject ++ u ".eml" in (name, joined dir name).

(** The disk: whether the directory exists, and all files by their paths. *)
Record disk := { there : bool; files : dict str }.
Inductive eml_op :=
  | Opens
  (** A message with its subject, and what build_email_message and the generator make of it ([None]: they
      raise), at a time. *)
  | Sends (now : moment) (subject : str) (bytes : option str).
Inductive fault := NoDirectory | NameTooLong | NotBuilt.
(** file.py:37-42 [open] and 44-62 [send].  A name has at most 255 bytes, as on Linux. *)
Definition eml_step (alnum : N -> bool) (dir : str) (create : bool) (s : disk) (o : eml_op) : disk * option fault :=
  match o with
  | Opens => ({| there := there s || create; files := files s |}, None)
  | Sends now subject bytes =>
      match bytes with
      | None => (s, Some NotBuilt)
      | Some b =>
          let (name, path) := file_path alnum dir now subject in
          if negb (there s) then (s, Some NoDirectory)
          else if 255 <? length (utf8_enc name) then (s, Some NameTooLong)
          else ({| there := there s; files := dset path b (files s) |}, None)
      end
  end%nat.
Fixpoint eml_run (alnum : N -> bool) (dir : str) (create : bool) (s : disk) (l : list eml_op) : disk * list (option fault) :=
  match l with
  | [] => (s, [])
  | o :: r => let (s', x) := eml_step alnum dir create s o in let (s'', xs) := eml_run alnum dir create s' r in (s'', x :: xs)
  end.

(** ** inmemory.py *)
Section Memory.
Context {M : Type}.
(** The messages of a program, and the outbox: it holds the same objects. *)
Record box := { objects : list M; outbox : list nat }.
Inductive box_op := Makes (m : M) | Posts (n : nat) | PostsAll (l : list nat) | Alters (n : nat) (f : M -> M).
Fixpoint alter (n : nat) (f : M -> M) (l : list M) : list M :=
  match l, n with [], _ => [] | x :: r, O => f x :: r | x :: r, S n' => x :: alter n' f r end.
(** inmemory.py:34-41 [send] and 43-50 [send_many]; the other two are what the program around does (the
    mailer also fills in a default sender). *)
Definition box_step (b : box) (o : box_op) : box :=
  match o with
  | Makes m => {| objects := objects b ++ [m]; outbox := outbox b |}
  | Posts n => {| objects := objects b; outbox := outbox b ++ [n] |}
  | PostsAll l => {| objects := objects b; outbox := outbox b ++ l |}
  | Alters n f => {| objects := alter n f (objects b); outbox := outbox b |}
  end.
(** What a test sees in the outbox. *)
Definition seen (b : box) : list (option M) := map (nth_error (objects b)) (outbox b).
End Memory.
Arguments box : clear implicits.
Arguments box_op : clear implicits.
