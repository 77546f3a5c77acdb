(** C372: what a client reads of an exception that nobody handles, with global interception on. *)
From Coq Require Import ZArith Lia.
From Verif Require Import PyStr PyStrFacts Utf8 Asgi HeaderModel HeaderSpec HeaderProofs HeaderProps JsonModel JsonSpec JsonProofs JsonProps OutModel OutSpec OutProps AbtModel AbtProps LexcModel.

(** ** Specification *)
(** A value that has a JSON text. *)
Definition sayable (v : jvalue) : Prop := proper v /\ presentable v.
(** The object the client reads. *)
Inductive reports : failure -> Z -> dict jvalue -> Prop :=
| rep_plain st h : reports (Http st JNull [] h) st [(u "status_code", JInt st)]
| rep_detail st d h : d <> JNull -> reports (Http st d [] h) st [(u "status_code", JInt st); (u "detail", d)]
| rep_extra st e x h : reports (Http st JNull (e :: x) h) st [(u "status_code", JInt st); (u "extra", JObj (e :: x))]
| rep_both st d e x h : d <> JNull -> reports (Http st d (e :: x) h) st [(u "status_code", JInt st); (u "detail", d); (u "extra", JObj (e :: x))]
| rep_other w : reports (Unforeseen w) 500 [(u "status_code", JInt 500); (u "detail", JStr w)].
Definition parts_sayable (f : failure) : Prop :=
  match f with Http _ d x _ => sayable d /\ sayable (JObj x) | Unforeseen w => Forall scalar w end.
Definition headers_of (f : failure) : dict str := match f with Http _ _ _ (Some h) => h | _ => [] end.

(** ** Proofs *)
Lemma reads_back c : sayable (JObj c) -> exists t b, dumps (JObj c) = Some t /\ body_of false (CValue (JStr t)) = Some b /\ request_json b = Some (JObj c).
Proof. intros (P & Q). exact (dumps_body _ P Q). Qed.
Lemma name_unicode s : forallb (fun c => (c <? 128)%N) s = true -> unicode s.
Proof. intros F c I. rewrite forallb_forall in F. specialize (F c I). apply N.ltb_lt in F. lia. Qed.
Lemma sayable_obj (l : dict jvalue) : NoDup (map fst l) -> Forall (fun e => forallb (fun c => (c <? 128)%N) (fst e) = true /\ sayable (snd e)) l -> sayable (JObj l).
Proof.
  intros N F. split; cbn [proper presentable].
  - split; [exact N|]. clear N. induction F as [|e l (A & B & C) F IH]; cbn [map fold_right]; [exact Logic.I|]. split; [|exact IH].
    split; [|exact B]. intros c I. rewrite forallb_forall in A. specialize (A c I). apply N.ltb_lt in A. lia.
  - clear N. induction F as [|e l (A & B & C) F IH]; cbn [map fold_right]; [exact Logic.I|]. split; [|exact IH]. split; [apply name_unicode; exact A | exact C].
Qed.
Lemma reported f z o : reports f z o -> parts_sayable f ->
  sayable (JObj o) /\ forall order, create_exception_response order f =
    match dumps (JObj o) with
    | Some t => match body_of false (CValue (JStr t)) with
                | Some b => Some (fst (response order (if (z =? 0)%Z then 500%Z else z) b (Some (u "application/json")) (Some (headers_of f))))
                | None => None end
    | None => None end.
Proof.
  assert (SI : forall z, sayable (JInt z)) by (intros; split; exact Logic.I).
  assert (SS : forall w, Forall scalar w -> sayable (JStr w)).
  { intros w S. rewrite Forall_forall in S. split; intros c I; destruct (S c I); lia. }
  intros R P. destruct R; cbn [parts_sayable headers_of] in P; (split; [|intros order]).
  all: try (unfold create_exception_response, content; cbn [filter snd headers_of]; try (destruct d; [congruence|..]); cbn [filter snd]; destruct h; reflexivity).
  - apply sayable_obj; [repeat constructor; cbn; intuition discriminate|]. repeat constructor; apply SI.
  - destruct P as (P1 & P2). apply sayable_obj; [repeat constructor; cbn [map fst In]; intuition discriminate|]. constructor; [split; [reflexivity | apply SI]|]. constructor; [split; [reflexivity | exact P1] | constructor].
  - destruct P as (P1 & P2). apply sayable_obj; [repeat constructor; cbn [map fst In]; intuition discriminate|]. constructor; [split; [reflexivity | apply SI]|]. constructor; [split; [reflexivity | exact P2] | constructor].
  - destruct P as (P1 & P2). apply sayable_obj; [repeat constructor; cbn [map fst In]; intuition discriminate|]. constructor; [split; [reflexivity | apply SI]|]. constructor; [split; [reflexivity | exact P1]|]. constructor; [split; [reflexivity | exact P2] | constructor].
  - apply sayable_obj; [repeat constructor; cbn [map fst In]; intuition discriminate|]. constructor; [split; [reflexivity | apply SI]|]. constructor; [split; [reflexivity | exact (SS w P)] | constructor].
  - reflexivity.
Qed.

(** C372: the client gets the exception's status (500 for none and for other exceptions) and a JSON object with the
    status, the detail and the extra data there are; the exception's headers are sent along. *)
Theorem C372_answer : forall order f z o, set_order order -> reports f z o -> parts_sayable f ->
  let st := if (z =? 0)%Z then 500%Z else z in
  exists h b, create_exception_response order f = Some [AStart st h; ABody b false] /\ request_json b = Some (JObj o) /\
    (st <> 304%Z -> st <> 412%Z -> forall k v, In (k, v) (headers_of f) -> In (k, v) h) /\
    ((st = 200%Z \/ 400 <= st)%Z -> st <> 412%Z -> (forall k, In k (map fst (headers_of f)) -> lower k <> u "content-type") -> values (u "content-type") h = [u "application/json"]).
Proof.
  intros order f z o O R P st. destruct (reported f z o R P) as (S & E). rewrite E. clear E. destruct (reads_back o S) as (t & b & D & B & RJ). rewrite D, B. fold st.
  unfold response. cbn [AbtModel.given]. set (g := headers_of f).
  rewrite (surjective_pairing (make_headers st b (u "utf-8") (Some (u "application/json")) g)). cbn [fst]. unfold HeaderModel.respond.
  eexists _, b. split; [reflexivity|]. split; [exact RJ|]. split.
  - intros A C k v I. apply wire_has; [exact O|]. apply made_has; assumption.
  - intros A C NC.
    assert (M : fst (make_headers st b (u "utf-8") (Some (u "application/json")) g) = setdefault (u "content-type") (u "application/json") (setdefault (u "content-length") (dec (N.of_nat (length b))) g)).
    { unfold make_headers. cbn [fst]. assert (E : has_entity_header_status st = false) by (unfold has_entity_header_status; apply Bool.orb_false_iff; split; apply Z.eqb_neq; lia). rewrite E.
      assert (HB : has_body_message st = true) by (unfold has_body_message; destruct A as [-> | A]; [reflexivity|]; repeat match goal with |- context [(?x <=? ?y)%Z] => destruct (Z.leb_spec x y) | |- context [(?x <? ?y)%Z] => destruct (Z.ltb_spec x y) | |- context [(?x =? ?y)%Z] => destruct (Z.eqb_spec x y) end; try lia; reflexivity). rewrite HB. reflexivity. }
    rewrite M. set (g1 := setdefault (u "content-length") _ g).
    assert (N1 : forall k, In k (map fst g1) -> lower k <> u "content-type").
    { intros k I. unfold g1 in I. destruct (setdefault_app (u "content-length") (dec (N.of_nat (length b))) g) as [(_ & Q)|(_ & Q)]; rewrite Q in I; [|exact (NC k I)].
      rewrite map_app, in_app_iff in I. destruct I as [I|[<-|[]]]; [exact (NC k I) | vm_compute; discriminate]. }
    destruct (setdefault_app (u "content-type") (u "application/json") g1) as [(_ & Q)|(X & _)].
    + rewrite Q, wire_values; [rewrite values_app, (values_nil _ g1 N1); reflexivity | exact O|].
      intros k k' I I' J J'. rewrite map_app, in_app_iff in I, I'. destruct I as [I|[<-|[]]]; [destruct (N1 k I J)|]. destruct I' as [I'|[<-|[]]]; [destruct (N1 k' I' J')|]. reflexivity.
    + exfalso. apply X. clear X M. revert N1. generalize g1 as l. clear. intros l N1. induction l as [|(k, v) l IH]; [reflexivity|]. cbn [dget]. destruct (seqb_spec (u "content-type") k) as [<-|_];
        [exfalso; apply (N1 (u "content-type")); [left; reflexivity | reflexivity] | apply IH; intros k' I; apply N1; right; exact I].
Qed.
Print Assumptions C372_answer.
Example C372_case : reports (Http 404 (JStr (u "no")) [(u "id", JInt 7)] (Some [(u "x-a", u "1")])) 404 [(u "status_code", JInt 404); (u "detail", JStr (u "no")); (u "extra", JObj [(u "id", JInt 7)])] /\
  parts_sayable (Http 404 (JStr (u "no")) [(u "id", JInt 7)] (Some [(u "x-a", u "1")])) /\
  create_exception_response dedup (Http 404 (JStr (u "no")) [(u "id", JInt 7)] (Some [(u "x-a", u "1")])) =
    Some [AStart 404 [(u "x-a", u "1"); (u "content-length", u "50"); (u "content-type", u "application/json")];
          ABody (u "{""status_code"":404,""detail"":""no"",""extra"":{""id"":7}}") false].
Proof.
  split; [constructor; discriminate|]. split; [|vm_compute; reflexivity]. split.
  - split; intros c I; vm_compute in I; lia.
  - apply sayable_obj; [repeat constructor; intros [] | repeat constructor].
Qed.
