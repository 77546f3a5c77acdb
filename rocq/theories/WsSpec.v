(** What C41, C75 and C76 say. *)
From Verif Require Import PyStr WsModel.

(** What an application may send: nothing, a refusal, or an acceptance, data and perhaps a close. *)
Definition is_data (m : smsg) : Prop := exists t b, m = SData t b.
Definition is_close (m : smsg) : Prop := exists c r, m = SClose c r.
Definition legal (l : list smsg) : Prop :=
  l = [] \/ (exists c, l = [c] /\ is_close c)
  \/ exists ds, Forall is_data ds /\ (l = SAccept :: ds \/ exists c, is_close c /\ l = SAccept :: ds ++ [c]).
(** What an endpoint may get: a connect, data, and perhaps a disconnect. *)
Definition is_receive (m : wsmsg) : Prop := exists t b, m = MReceive t b.
Definition is_disconnect (m : wsmsg) : Prop := exists c r, m = MDisconnect c r.
Definition legal_input (l : list wsmsg) : Prop :=
  l = [] \/ exists ds, Forall is_receive ds /\ (l = MConnect :: ds \/ exists d, is_disconnect d /\ l = MConnect :: ds ++ [d]).
