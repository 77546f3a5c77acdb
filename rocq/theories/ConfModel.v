(** Model of the settings system: lilya/conf/global_settings.py ([BaseSettings]), lilya/conf/__init__.py,
    the settings lookup of lilya/apps.py and lilya/testclient/utils.py ([override_settings]).

    The library monkay, which holds the current settings, is not in the repository.  What is used of it is that
    [_monkay.settings] is the value of a context variable, and that [with_settings] is a generator based context
    manager that sets the variable on entry and resets it to what it was on exit, once.  One task is modelled: a
    context variable is private to its task. *)
From Coq Require Import List NArith ZArith Bool Lia.
From Verif Require Import PyStr.
Import ListNotations.

(** Values of settings.  [VObj] is an object whose truth value is true. *)
Inductive value :=
| VNone
| VBool (b : bool)
| VInt (z : Z)
| VStr (s : str)
| VList (l : list value)
| VObj (n : nat).

(** Python's truth value. *)
Definition truthy (v : value) : bool :=
  match v with
  | VNone => false
  | VBool b => b
  | VInt z => negb (Z.eqb z 0)
  | VStr s => match s with [] => false | _ => true end
  | VList l => match l with [] => false | _ => true end
  | VObj _ => true
  end.

(** Annotations, [Annotated] stripped (global_settings.py:147-160 [_extract_base_type]).  [TClass n] is any other
    class or generic. *)
Inductive ty := TBool | TInt | TStr | TList | TNoneType | TUnion (ts : list ty) | TClass (n : nat).

(** A settings class: annotated fields, class attributes, and properties.  Simplified: a property has no setter and
    its value is a constant. *)
Record cls := { hints : list (str * ty); defaults : dict value; props : dict value }.
(** A settings object: its class and its own attributes. *)
Record inst := { kind : cls; own : dict value }.

Inductive fault := FAttribute | FValue | FUser.
Inductive result (A : Type) := Good (a : A) | Bad (f : fault).
Arguments Good {A}. Arguments Bad {A}.

(** [getattr(obj, name, None)]: a property is a data descriptor and comes before the object's own attributes. *)
Definition getattr (i : inst) (k : str) : value :=
  match dget k (props (kind i)) with
  | Some v => v
  | None =>
      match dget k (own i) with
      | Some v => v
      | None => match dget k (defaults (kind i)) with Some v => v | None => VNone end
      end
  end.

(** [setattr]: a property without setter raises AttributeError. *)
Definition setattr (i : inst) (k : str) (v : value) : result inst :=
  if dmem k (props (kind i)) then Bad FAttribute
  else Good {| kind := kind i; own := dset k v (own i) |}.

Fixpoint setattrs (i : inst) (kw : list (str * value)) : result inst :=
  match kw with
  | [] => Good i
  | (k, v) :: kw' => match setattr i k v with Good i' => setattrs i' kw' | Bad f => Bad f end
  end.

(** global_settings.py:81 [__truthy__]. *)
Definition truths : list str := [u "true"; u "1"; u "yes"; u "on"; u "y"].

Section WithWorld.
  (** What calling a class of the user's with a text gives; [None] is an exception. *)
  Variable construct : nat -> str -> option value.
  (** [os.environ]. *)
  Variable env : dict str.

  (** global_settings.py:181-183: [typ(value)] for a type that is not a union of several.  Calling a union is a
      TypeError; [list(text)] is the list of the characters. *)
  Definition cast1 (s : str) (t : ty) : option value :=
    match t with
    | TBool => Some (VBool (smem (lower s) truths))
    | TInt => match int_parse s with Some z => Some (VInt z) | None => None end
    | TStr => Some (VStr s)
    | TList => Some (VList (map (fun c => VStr [c]) s))
    | TNoneType => None
    | TUnion _ => None
    | TClass n => construct n s
    end.

  (** global_settings.py:174-179: the members that are not NoneType. *)
  Definition members (ts : list ty) : list ty :=
    filter (fun t => match t with TNoneType => false | _ => true end) ts.

  (** global_settings.py:161-193 [_cast]; every exception becomes a ValueError. *)
  Definition cast (s : str) (t : ty) : result value :=
    let o := match t with
             | TUnion ts => match members ts with [t'] => cast1 s t' | _ => None end
             | _ => cast1 s t
             end in
    match o with Some v => Good v | None => Bad FValue end.

  (** global_settings.py:98-107: the loop over the annotated fields. *)
  Fixpoint load (hs : list (str * ty)) (i : inst) : result inst :=
    match hs with
    | [] => Good i
    | (k, t) :: hs' =>
        match (match dget (upper k) env with
               | Some s => cast s t
               | None => Good (getattr i k)
               end) with
        | Bad f => Bad f
        | Good v => match setattr i k v with Good i' => load hs' i' | Bad f => Bad f end
        end
    end.

  (** global_settings.py:83-110 [__init__].  Not modelled: [post_init] of a subclass. *)
  Definition make (c : cls) (kw : list (str * value)) : result inst :=
    match setattrs {| kind := c; own := [] |} kw with
    | Good i => load (hints c) i
    | Bad f => Bad f
    end.

  (** global_settings.py:195-237 [dict]; [names] is what [inspect.getmembers] lists of the properties, by name.
      Simplified: no property raises. *)
  Definition is_none (v : value) : bool := match v with VNone => true | _ => false end.
  Definition dump_one (i : inst) (xnone up : bool) (d : dict value) (k : str) : dict value :=
    let v := getattr i k in
    if xnone && is_none v then d else dset (if up then upper k else k) v d.
  Definition dump (i : inst) (xnone up : bool) (excl : list str) (inc : bool) : dict value :=
    let ks := map fst (hints (kind i)) in
    let d := fold_left (dump_one i xnone up) (filter (fun k => negb (smem k excl)) ks) [] in
    if inc then
      fold_left (dump_one i xnone up)
        (filter (fun k => negb (smem k excl || smem k ks)) (dkeys (props (kind i)))) d
    else d.

  (** apps.py:83-97 [__get_settings_value]. *)
  Definition setting_of (local : option inst) (global : inst) (k : str) : value :=
    match local with
    | Some l => if is_none (getattr l k) then getattr global k else getattr l k
    | None => getattr global k
    end.

  (** apps.py:67-81 [load_settings_value]. *)
  Definition load_value (local : option inst) (global : inst) (k : str) (v : value) (is_boolean : bool) : value :=
    if is_boolean then if is_none v then setting_of local global k else v
    else if truthy v then v else setting_of local global k.

  (** apps.py:1169-1233: the options of the constructor that have a setting, and whether they are loaded with
      [is_boolean=True]. *)
  Definition options : list (str * bool) :=
    [(u "debug", true); (u "exception_handlers", false); (u "middleware", false); (u "permissions", false);
     (u "before_request", false); (u "after_request", false); (u "dependencies", false);
     (u "logging_config", false); (u "serializer_config", false); (u "enable_openapi", true);
     (u "openapi_config", false); (u "enable_intercept_global_exceptions", false); (u "root_path", false);
     (u "redirect_slashes", true); (u "include_in_schema", true); (u "lifespan", false); (u "on_startup", false);
     (u "on_shutdown", false)].

  Definition given (args : dict value) (k : str) : value :=
    match dget k args with Some v => v | None => VNone end.

  (** apps.py:1169-1233: what the application uses for each option.  Simplified: the wrapping of the members of the
      lists, and [or []] and [or {}] on an absent value, are left out. *)
  Definition configured (local : option inst) (global : inst) (args : dict value) : dict value :=
    map (fun o => (fst o, load_value local global (fst o) (given args (fst o)) (snd o))) options.

  (** apps.py:1254: what the router of the application is given for [include_in_schema]. *)
  Definition router_in_schema (args : dict value) : value :=
    let v := given args (u "include_in_schema") in if is_none v then VBool true else v.

  (** Programs of one task that use settings.  Settings objects live in a heap; [PApp sm p] is a request served by
      an application, or a router, whose settings module is the object [sm], running [p] inside;
      [POver o opts p] is [with] the [override_settings] object [o], made with the options [opts]; [PNew] is the
      construction of an application with a value of [infer_body]. *)
  Inductive prog :=
  | PSkip
  | PRead (k : str)
  | PSet (k : str) (v : value)
  | PRaise
  | PSeq (p q : prog)
  | PTry (p : prog)
  | POver (o : nat) (opts : list (str * value)) (p : prog)
  | PApp (sm : option nat) (p : prog)
  | PNew (sm : option nat) (infer : value).

  (** A context manager of [with_settings] once entered: what the variable was before, and whether it has been
      left. *)
  Record manager := { before : option nat; left_ : bool }.

  (** [base] is the settings object used when the variable is unset; [cur] the variable; [slot] the attribute
      [_innermanager] of each [override_settings] object. *)
  Record world := {
    heap : list inst; base : nat; cur : option nat; managers : list manager; slot : nat -> option nat;
    reads : list value }.

  Definition nobody : inst := {| kind := {| hints := []; defaults := []; props := [] |}; own := [] |}.
  (** conf/__init__.py:25-30 and apps.py:1377: the current settings. *)
  Definition current (w : world) : nat := match cur w with Some n => n | None => base w end.
  Definition obj (w : world) (n : nat) : inst := nth n (heap w) nobody.

  Definition with_cur (w : world) (c : option nat) : world :=
    {| heap := heap w; base := base w; cur := c; managers := managers w; slot := slot w; reads := reads w |}.
  Definition with_heap (w : world) (h : list inst) : world :=
    {| heap := h; base := base w; cur := cur w; managers := managers w; slot := slot w; reads := reads w |}.

  Fixpoint replace_nth {A} (n : nat) (x : A) (l : list A) : list A :=
    match l, n with
    | [], _ => []
    | _ :: l', O => x :: l'
    | y :: l', S n' => y :: replace_nth n' x l'
    end.

  Definition note (w : world) (v : value) : world :=
    {| heap := heap w; base := base w; cur := cur w; managers := managers w; slot := slot w;
       reads := reads w ++ [v] |}.

  Definition assign (w : world) (n : nat) (k : str) (v : value) : result world :=
    match setattr (obj w n) k v with
    | Good i => Good (with_heap w (replace_nth n i (heap w)))
    | Bad f => Bad f
    end.

  (** testclient/utils.py:71-88 [override_settings.__enter__]. *)
  Definition enter (o : nat) (opts : list (str * value)) (w : world) : result world :=
    let i := obj w (current w) in
    match make (kind i) (dupdate (dump i false false [] false) opts) with
    | Bad f => Bad f
    | Good i' =>
        Good {| heap := heap w ++ [i']; base := base w; cur := Some (length (heap w));
                managers := managers w ++ [{| before := cur w; left_ := false |}];
                slot := fun o' => if Nat.eqb o' o then Some (length (managers w)) else slot w o';
                reads := reads w |}
    end.

  (** testclient/utils.py:90-99 [override_settings.__exit__]; leaving a manager twice does nothing: its generator is
      exhausted. *)
  Definition leave (o : nat) (w : world) : world :=
    match slot w o with
    | None => w
    | Some m =>
        match nth_error (managers w) m with
        | None => w
        | Some g =>
            if left_ g then w
            else {| heap := heap w; base := base w; cur := before g;
                    managers := replace_nth m {| before := before g; left_ := true |} (managers w);
                    slot := slot w; reads := reads w |}
        end
    end.

  (** apps.py:1227-1228. *)
  Definition sets_infer (v : value) : bool :=
    match v with VNone | VBool false => false | _ => true end.

  (** Runs a program; the fault is the exception it ends with.  apps.py:527-545 and router.py:645-655 for [PApp]:
      without settings module the variable is set to what it already was, or left alone. *)
  Fixpoint run (p : prog) (w : world) : world * option fault :=
    match p with
    | PSkip => (w, None)
    | PRead k => (note w (getattr (obj w (current w)) k), None)
    | PSet k v => match assign w (current w) k v with Good w' => (w', None) | Bad f => (w, Some f) end
    | PRaise => (w, Some FUser)
    | PSeq p q => match run p w with (w', None) => run q w' | r => r end
    | PTry p => (fst (run p w), None)
    | POver o opts p =>
        match enter o opts w with
        | Bad f => (w, Some f)
        | Good w' => let r := run p w' in (leave o (fst r), snd r)
        end
    | PApp sm p =>
        let r := run p (with_cur w (Some (match sm with Some n => n | None => current w end))) in
        (with_cur (fst r) (cur w), snd r)
    | PNew sm infer =>
        if sets_infer infer then
          match assign w (match sm with Some n => n | None => current w end) (u "infer_body") infer with
          | Good w' => (w', None)
          | Bad f => (w, Some f)
          end
        else (w, None)
    end.
End WithWorld.
