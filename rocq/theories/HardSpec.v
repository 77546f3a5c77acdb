(** What a browser makes of a Content-Security-Policy header, after "Content Security Policy Level
    3", 2.2.1 ("parse a serialized CSP"): the text is split at semicolons; a directive is a name and
    values, separated by ASCII whitespace; names do not depend on case; of several directives of one
    name only the first counts. *)
From Verif Require Import PyStr HeaderModel HardModel.

Definition ascii_space (c : N) : bool := ((c =? 9) || (c =? 10) || (c =? 12) || (c =? 13) || (c =? 32))%N.
(** [spaced s ws]: the words of the text are [ws]. *)
Inductive spaced (sp : N -> bool) : str -> list str -> Prop :=
  | spaced_end a : (forall c, In c a -> sp c = true) -> spaced sp a []
  | spaced_word a w r ws : (forall c, In c a -> sp c = true) -> w <> [] -> (forall c, In c w -> sp c = false) ->
      match r with [] => True | c :: _ => sp c = true end -> spaced sp r ws -> spaced sp (a ++ w ++ r) (w :: ws).

Definition directive := (str * list str)%type.
Fixpoint first_only (seen : list str) (l : list directive) : list directive :=
  match l with
  | [] => []
  | e :: r => if smem (fst e) seen then first_only seen r else e :: first_only (fst e :: seen) r
  end.
Definition listed (s : str) : list directive :=
  flat_map (fun part => match words ascii_space part with [] => [] | k :: ws => [(lower k, ws)] end) (split_char 59 s).
Definition enforced (s : str) : list directive := first_only [] (listed s).

(** A word that can stand in a policy. *)
Definition token (w : str) : Prop := w <> [] /\ forall c, In c w -> is_space c = false /\ c <> 59%N.
(** Python's whitespace has more characters than ASCII's. *)
Definition plain_spaces (s : str) : Prop := forall c, In c s -> is_space c = true -> ascii_space c = true.

(** The headers that the middleware promises. *)
Definition promised (c : config) : list (str * str) :=
  [ (u "Content-Security-Policy", parse_content_policy (csp c)); (u "Cross-Origin-Opener-Policy", coop c); (u "Referrer-Policy", referrer c);
    (u "Strict-Transport-Security", hsts c); (u "X-Content-Type-Options", nosniff c); (u "X-Frame-Options", frame c); (u "X-XSS-Protection", xss c) ].
