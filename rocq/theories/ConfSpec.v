(** What the settings are expected to be, without the code's loops. *)
From Coq Require Import List NArith ZArith Bool.
From Verif Require Import PyStr ConfModel.
Import ListNotations.

(** The options of the constructor of an application that the documentation says fall back on a setting, and those
    of them that are flags. *)
Definition documented : list str :=
  [u "debug"; u "exception_handlers"; u "middleware"; u "permissions"; u "before_request"; u "after_request";
   u "dependencies"; u "logging_config"; u "serializer_config"; u "enable_openapi"; u "openapi_config";
   u "enable_intercept_global_exceptions"; u "root_path"; u "redirect_slashes"; u "include_in_schema"; u "lifespan";
   u "on_startup"; u "on_shutdown"].
Definition flags : list str := [u "debug"; u "enable_openapi"; u "redirect_slashes"; u "include_in_schema"].

(** The setting that applies to an application: its own settings' unless that is None, else the current one. *)
Inductive setting : option inst -> inst -> str -> value -> Prop :=
| set_own l g k : getattr l k <> VNone -> setting (Some l) g k (getattr l k)
| set_unset l g k : getattr l k = VNone -> setting (Some l) g k (getattr g k)
| set_global g k : setting None g k (getattr g k).

(** What the text of an environment variable means for a field of a type. *)
Inductive means (construct : nat -> str -> option value) : ty -> str -> value -> Prop :=
| m_true s : In (lower s) [u "true"; u "1"; u "yes"; u "on"; u "y"] -> means construct TBool s (VBool true)
| m_false s : ~ In (lower s) [u "true"; u "1"; u "yes"; u "on"; u "y"] -> means construct TBool s (VBool false)
| m_int s z : int_parse s = Some z -> means construct TInt s (VInt z)
| m_str s : means construct TStr s (VStr s)
| m_list s : means construct TList s (VList (map (fun c => VStr [c]) s))
| m_class n s v : construct n s = Some v -> means construct (TClass n) s v
| m_optional a b t s v : (forall t', In t' (a ++ b) -> t' = TNoneType) -> t <> TNoneType ->
    (forall ts, t <> TUnion ts) -> means construct t s v ->
    means construct (TUnion (a ++ t :: b)) s v.

(** The value a field of a new settings object is expected to have: the environment's, else the caller's, else the
    class's. *)
Inductive initial (construct : nat -> str -> option value) (env : dict str) (c : cls) (kw : dict value) :
    str -> ty -> value -> Prop :=
| i_env k t s v : dget (upper k) env = Some s -> means construct t s v -> initial construct env c kw k t v
| i_kw k t v : dget (upper k) env = None -> dget k kw = Some v -> initial construct env c kw k t v
| i_default k t v : dget (upper k) env = None -> dget k kw = None -> dget k (defaults c) = Some v ->
    initial construct env c kw k t v
| i_none k t : dget (upper k) env = None -> dget k kw = None -> dget k (defaults c) = None ->
    initial construct env c kw k t VNone.

(** Whether a program uses an [override_settings] object, and whether it never uses one inside itself. *)
Fixpoint uses (o : nat) (p : prog) : Prop :=
  match p with
  | PSeq p q => uses o p \/ uses o q
  | PTry p | PApp _ p => uses o p
  | POver o' _ p => o' = o \/ uses o p
  | _ => False
  end.
Fixpoint separate (p : prog) : Prop :=
  match p with
  | PSeq p q => separate p /\ separate q
  | PTry p | PApp _ p => separate p
  | POver o _ p => ~ uses o p /\ separate p
  | _ => True
  end.

(** No part of the program brings in the settings of some application. *)
Fixpoint appless (p : prog) : Prop :=
  match p with
  | PSeq p q => appless p /\ appless q
  | PTry p => appless p
  | POver _ _ p => appless p
  | PApp sm p => sm = None /\ appless p
  | PNew sm _ => sm = None
  | _ => True
  end.

(** The last of several sets of options that has a name. *)
Fixpoint innermost (k : str) (ovs : list (nat * list (str * value))) (v : value) : value :=
  match ovs with
  | [] => v
  | (_, opts) :: ovs' => innermost k ovs' (match dget k opts with Some v' => v' | None => v end)
  end.
Fixpoint overrides (ovs : list (nat * list (str * value))) (p : prog) : prog :=
  match ovs with [] => p | (o, opts) :: ovs' => POver o opts (overrides ovs' p) end.

(** The settings of the innermost application that has some. *)
Fixpoint nearest (sms : list (option nat)) (n : nat) : nat :=
  match sms with [] => n | sm :: sms' => nearest sms' (match sm with Some m => m | None => n end) end.
Fixpoint apps (sms : list (option nat)) (p : prog) : prog :=
  match sms with [] => p | sm :: sms' => PApp sm (apps sms' p) end.
