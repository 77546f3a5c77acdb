(** What reading a request body should give. *)
From Verif Require Import PyStr RequestModel.

(** A delivery: chunks announced as incomplete, then the last chunk ([None]: the client left). *)
Definition delivery (chunks : list str) (last : option str) : list rmsg :=
  map (fun b => MReq b true) chunks ++ match last with Some b => [MReq b false] | None => [] end.

(** The body that was sent, if all of it was. *)
Definition sent_body (chunks : list str) (last : option str) : option str :=
  option_map (fun b => concat chunks ++ b) last.

Definition is_sniff (o : rop) : bool := match o with OSniff => true | _ => false end.
Definition first_read (os : list rop) : option rop := List.find (fun o => negb (is_sniff o)) os.

(** Sniffing a body that is one non-empty message keeps it. *)
Definition sniff_keeps (chunks : list str) (last : option str) (os : list rop) : Prop :=
  chunks = [] /\ (exists b bs, last = Some (b :: bs)) /\ exists os', os = OSniff :: os'.

(** The body is gone: it was streamed, and nothing had kept it. *)
Definition streamed_away (chunks : list str) (last : option str) (os : list rop) : Prop :=
  last <> None /\ first_read os = Some OStream /\ ~ sniff_keeps chunks last os.
