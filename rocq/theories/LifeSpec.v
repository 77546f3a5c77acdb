(** Vocabulary for C98 and C99. *)
From Verif Require Import PyStr LifeModel.

(** A lifespan in which nothing fails: the hooks [u] before startup is reported, the hooks [d] after the
    message to stop. *)
Definition orderly (u d : list nat) : list ev :=
  [Received] ++ map Hook u ++ [Sent StartupComplete; Received] ++ map Hook d ++ [Sent ShutdownComplete].
(** A server that plays its part, and hooks of which none raises. *)
Definition willing (s : server) : Prop := starts s = true /\ stops s = true /\ forall m, takes s m = true.
Definition all_fine (fine : nat -> bool) (hs : list nat) : Prop := forall h, In h hs -> fine h = true.
(** Handlers added one by one after the application was made. *)
Definition later (u d : list nat) (r : router) : router := fold_left (fun r n => on_shutdown n r) d (fold_left (fun r n => on_startup n r) u r).
(** The messages of a trace. *)
Definition sent (t : list ev) : list msg := flat_map (fun e => match e with Sent m => [m] | _ => [] end) t.
(** [hs'] is what runs of [hs]: all of them if none raises, else up to the first that does. *)
Definition runs_of (fine : nat -> bool) (hs hs' : list nat) : Prop :=
  (all_fine fine hs /\ hs' = hs) \/ (exists a h b, hs = a ++ h :: b /\ all_fine fine a /\ fine h = false /\ hs' = a ++ [h]).
