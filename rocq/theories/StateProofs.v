(** A heap of shared dicts keeps the maps of StateSpec. *)
From Verif Require Import PyStr PyStrFacts PathNestProofs RouterDeferProofs StateModel StateSpec.
From Coq Require Import Lia.

Lemma place_dec (a b : place) : {a = b} + {a <> b}.
Proof. decide equality; apply Nat.eq_dec. Qed.

Lemma upd_length {A} (x : A) l : forall n, length (upd n x l) = length l.
Proof. induction l as [|y l IH]; intros [|n]; cbn; [reflexivity..|]. now rewrite IH. Qed.
Lemma upd_same {A} (x : A) l : forall n, n < length l -> nth_error (upd n x l) n = Some x.
Proof. induction l as [|y l IH]; intros [|n] L; cbn in *; try lia; [reflexivity|]. apply IH. lia. Qed.
Lemma upd_other {A} (x : A) l : forall n m, n <> m -> nth_error (upd n x l) m = nth_error l m.
Proof. induction l as [|y l IH]; intros [|n] [|m] L; cbn in *; try reflexivity; [lia|]. apply IH. lia. Qed.
Lemma nth_upd_same {A} (x d : A) l : forall n, n < length l -> nth n (upd n x l) d = x.
Proof. induction l as [|y l IH]; intros [|n] L; cbn in *; try lia; [reflexivity|]. apply IH. lia. Qed.
Lemma nth_upd_other {A} (x d : A) l : forall n m, n <> m -> nth m (upd n x l) d = nth m l d.
Proof. induction l as [|y l IH]; intros [|n] [|m] L; cbn in *; try reflexivity; [lia|]. apply IH. lia. Qed.
Lemma In_upd {A} (x y : A) l : forall n, In y (upd n x l) -> y = x \/ In y l.
Proof. induction l as [|z l IH]; intros [|n]; cbn; [tauto|tauto|intuition|]. intros [-> | I]; [auto|]. apply IH in I. tauto. Qed.
Lemma nth_error_end {A} (l : list A) x : nth_error (l ++ [x]) (length l) = Some x.
Proof. rewrite nth_error_app2 by lia. now rewrite Nat.sub_diag. Qed.
Lemma nth_error_more {A} (l : list A) x n y : nth_error (l ++ [x]) n = Some y -> (n < length l /\ nth_error l n = Some y) \/ (n = length l /\ y = x).
Proof.
  intros E. destruct (Nat.lt_ge_cases n (length l)) as [L|L]; [rewrite nth_error_app1 in E by assumption; auto|].
  assert (n < length (l ++ [x])) by (apply nth_error_Some; congruence). rewrite app_length in H; cbn in H.
  assert (n = length l) as -> by lia. rewrite nth_error_end in E. injection E as <-. auto.
Qed.
Lemma ddel_nodup {V} k (d : dict V) : NoDup (dkeys d) -> NoDup (dkeys (ddel k d)).
Proof.
  assert (I : forall (d : dict V) x, In x (dkeys (ddel k d)) -> In x (dkeys d)).
  { clear. induction d as [|[a b] d IH]; cbn; [tauto|]. intros x. destruct (seqb k a); cbn; intuition. }
  induction d as [|[a b] d IH]; cbn; [constructor|]. intros ND. inversion_clear ND as [|? ? NI ND'].
  destruct (seqb k a); [auto|]. cbn. constructor; [|auto]. intros C. now apply I in C.
Qed.

(** The dict of a place. *)
Definition ptr (w : world) (q : place) : option nat :=
  match q with
  | OfOwn i => nth_error (objs w) i
  | OfScope s => match nth_error (scopes w) s with Some r => r | None => None end
  end.
Record R (w : world) (m : maps) : Prop := {
  r_owns : owns m = length (objs w);
  r_scopes : nscopes m = length (scopes w);
  r_over : over m = map fst (conns w);
  r_conn : forall c s r, nth_error (conns w) c = Some (s, r) -> s < length (scopes w);
  r_cached : forall c s p, nth_error (conns w) c = Some (s, Some p) -> nth_error (scopes w) s = Some (Some p);
  r_ptr : forall q p, ptr w q = Some p -> p < length (dicts w);
  r_inj : forall q q' p, ptr w q = Some p -> ptr w q' = Some p -> q = q';
  r_at : forall q k, at_ m q k = match ptr w q with Some p => dget k (the_dict w p) | None => None end;
  r_nodup : forall d, In d (dicts w) -> NoDup (dkeys d)
}.

Lemma the_dict_nodup w m p : R w m -> NoDup (dkeys (the_dict w p)).
Proof.
  intros H. unfold the_dict. destruct (Nat.lt_ge_cases p (length (dicts w))) as [L|L].
  - apply (r_nodup _ _ H), nth_In, L.
  - rewrite nth_overflow by assumption. constructor.
Qed.

(** One dict is replaced. *)
Definition put (m : maps) (q : place) (f : str -> option val) : maps :=
  Maps (fun q' k => if place_dec q' q then f k else at_ m q' k) (owns m) (nscopes m) (over m).
Lemma R_set w m q p d : R w m -> ptr w q = Some p -> NoDup (dkeys d) -> R (set_dict w p d) (put m q (fun k => dget k d)).
Proof.
  intros H P ND. pose proof (r_ptr _ _ H _ _ P) as LP.
  assert (PT : forall q', ptr (set_dict w p d) q' = ptr w q') by (intros [i|s]; reflexivity).
  constructor; cbn; try apply H.
  - intros q' p'. rewrite PT, upd_length. apply (r_ptr _ _ H).
  - intros q' k. rewrite PT. unfold the_dict; cbn. destruct (place_dec q' q) as [->|NE].
    + rewrite P, nth_upd_same by assumption. reflexivity.
    + rewrite (r_at _ _ H). destruct (ptr w q') as [p'|] eqn:P'; [|reflexivity]. unfold the_dict. rewrite nth_upd_other; [reflexivity|].
      intros <-. apply NE, (r_inj _ _ H _ _ _ P' P).
  - intros d' I. apply In_upd in I as [-> | I]; [exact ND|now apply (r_nodup _ _ H)].
Qed.

(** The map of a place gets a dict only when it is needed. *)
Lemma nth_app_old {A} (l : list A) x d n : n < length l -> nth n (l ++ [x]) d = nth n l d.
Proof. intros L. now apply app_nth1. Qed.
Lemma locate_R w m h w1 r : R w m -> locate w h = (w1, r) ->
  R w1 m /\ match r with None => place_of m h = None | Some p => exists q, place_of m h = Some q /\ ptr w1 q = Some p end /\
  (forall d, In d (dicts w1) -> In d (dicts w) \/ d = []).
Proof.
  intros H E. destruct h as [i|c]; cbn in E.
  { injection E as <- <-. split; [exact H|]. split; [|auto]. cbn [place_of]. rewrite (r_owns _ _ H). destruct (nth_error (objs w) i) as [p|] eqn:N1.
    - assert (i < length (objs w)) by (apply nth_error_Some; congruence). apply Nat.ltb_lt in H0. rewrite H0. exists (OfOwn i). now split.
    - apply nth_error_None in N1. apply Nat.ltb_ge in N1. now rewrite N1. }
  cbn [place_of]. rewrite (r_over _ _ H), nth_error_map. destruct (nth_error (conns w) c) as [[s [p|]]|] eqn:NC.
  - injection E as <- <-. split; [exact H|]. split; [|auto]. exists (OfScope s). split; [reflexivity|]. cbn. now rewrite (r_cached _ _ H _ _ _ NC).
  - pose proof (r_conn _ _ H _ _ _ NC) as LS.
    assert (LC : c < length (conns w)) by (apply nth_error_Some; congruence).
    destruct (nth_error (scopes w) s) as [[p|]|] eqn:NS; [| |apply nth_error_None in NS; lia]; injection E as <- <-.
    + split; [|split; [exists (OfScope s); split; [reflexivity|]; cbn; now rewrite NS|auto]].
      constructor; cbn; try apply H.
      * rewrite (r_over _ _ H). clear - NC. revert c NC. induction (conns w) as [|x l IH]; intros [|c] NC; cbn in *; [discriminate..| |].
        -- injection NC as ->. reflexivity.
        -- f_equal. now apply IH.
      * intros c' s' r' E. destruct (Nat.eq_dec c c') as [<-|NE]; [rewrite upd_same in E by assumption; injection E as <- <-; assumption|].
        rewrite upd_other in E by assumption. eapply (r_conn _ _ H); eassumption.
      * intros c' s' p' E. destruct (Nat.eq_dec c c') as [<-|NE]; [rewrite upd_same in E by assumption; injection E as <- <-; assumption|].
        rewrite upd_other in E by assumption. eapply (r_cached _ _ H); eassumption.
    + set (w1 := World _ _ _ _).
      assert (PT : forall q, ptr w1 q = if place_dec q (OfScope s) then Some (length (dicts w)) else ptr w q).
      { intros [i|s']; cbn; [destruct (place_dec (OfOwn i) (OfScope s)); [discriminate|reflexivity]|].
        destruct (place_dec (OfScope s') (OfScope s)) as [EQ|NE].
        - injection EQ as ->. now rewrite upd_same.
        - rewrite upd_other by congruence. reflexivity. }
      assert (OLD : ptr w (OfScope s) = None) by (cbn; now rewrite NS).
      split; [|split].
      * constructor; cbn; try apply H.
        -- rewrite upd_length. apply H.
        -- rewrite (r_over _ _ H). clear - NC. revert c NC. induction (conns w) as [|x l IH]; intros [|c] NC; cbn in *; [discriminate..| |].
           ++ injection NC as ->. reflexivity.
           ++ f_equal. now apply IH.
        -- intros c' s' r' E. rewrite upd_length. destruct (Nat.eq_dec c c') as [<-|NE]; [rewrite upd_same in E by assumption; injection E as <- <-; assumption|].
           rewrite upd_other in E by assumption. eapply (r_conn _ _ H); eassumption.
        -- intros c' s' p' E. destruct (Nat.eq_dec c c') as [<-|NE]; [rewrite upd_same in E by assumption; injection E as <- <-; now apply upd_same|].
           rewrite upd_other in E by assumption. apply (r_cached _ _ H) in E. rewrite upd_other; [exact E|]. intros <-. congruence.
        -- intros q p. rewrite PT, app_length. cbn. destruct (place_dec _ _); [intros E; injection E as <-; lia|]. intros E. apply (r_ptr _ _ H) in E. lia.
        -- intros q q' p. rewrite !PT. destruct (place_dec q _) as [->|N1], (place_dec q' _) as [->|N2]; intros E1 E2; [reflexivity| | |eapply (r_inj _ _ H); eassumption].
           ++ apply (r_ptr _ _ H) in E2. injection E1 as <-. lia.
           ++ apply (r_ptr _ _ H) in E1. injection E2 as <-. lia.
        -- intros q k. rewrite (r_at _ _ H), PT. unfold the_dict; cbn. destruct (place_dec q _) as [->|NE].
           ++ rewrite OLD, app_nth2 by lia. rewrite Nat.sub_diag. reflexivity.
           ++ destruct (ptr w q) as [p|] eqn:P; [|reflexivity]. rewrite nth_app_old; [reflexivity|]. eapply (r_ptr _ _ H); eassumption.
        -- intros d I. apply in_app_or in I as [I|[<- | []]]; [now apply (r_nodup _ _ H)|constructor].
      * exists (OfScope s). split; [reflexivity|]. rewrite PT. destruct (place_dec _ _); [reflexivity|contradiction].
      * intros d I. apply in_app_or in I as [I|[<- | []]]; auto.
  - injection E as <- <-. split; [exact H|]. split; [reflexivity|auto].
Qed.

(** A further place with a dict. *)
Lemma R_own w m d : R w m -> NoDup (dkeys d) ->
  R (World (dicts w ++ [d]) (objs w ++ [length (dicts w)]) (scopes w) (conns w))
    (Maps (at_ (put m (OfOwn (owns m)) (fun k => dget k d))) (S (owns m)) (nscopes m) (over m)).
Proof.
  intros H ND. set (w1 := World _ _ _ _).
  assert (PT : forall q, ptr w1 q = if place_dec q (OfOwn (length (objs w))) then Some (length (dicts w)) else ptr w q).
  { intros [i|s']; cbn; [|destruct (place_dec (OfScope s') _); [discriminate|reflexivity]].
    destruct (place_dec _ _) as [EQ|NE]; [injection EQ as ->; apply nth_error_end|].
    destruct (Nat.lt_ge_cases i (length (objs w))) as [L|L]; [now rewrite nth_error_app1|].
    rewrite (proj2 (nth_error_None (objs w) i) L). apply nth_error_None. rewrite app_length; cbn.
    assert (i <> length (objs w)) by congruence. lia. }
  constructor; cbn; try apply H.
  - rewrite app_length; cbn. rewrite (r_owns _ _ H). lia.
  - intros q p. rewrite PT, app_length; cbn. destruct (place_dec _ _); [intros E; injection E as <-; lia|]. intros E. apply (r_ptr _ _ H) in E. lia.
  - intros q q' p. rewrite !PT. destruct (place_dec q _) as [->|N1], (place_dec q' _) as [->|N2]; intros E1 E2; [reflexivity| | |eapply (r_inj _ _ H); eassumption].
    + apply (r_ptr _ _ H) in E2. injection E1 as <-. lia.
    + apply (r_ptr _ _ H) in E1. injection E2 as <-. lia.
  - intros q k. rewrite (r_owns _ _ H), PT. unfold the_dict; cbn. destruct (place_dec q _) as [->|NE].
    + rewrite app_nth2 by lia. rewrite Nat.sub_diag. reflexivity.
    + rewrite (r_at _ _ H). destruct (ptr w q) as [p|] eqn:P; [|reflexivity]. rewrite nth_app_old; [reflexivity|]. eapply (r_ptr _ _ H); eassumption.
  - intros d' I. apply in_app_or in I as [I|[<- | []]]; [now apply (r_nodup _ _ H)|exact ND].
Qed.

Lemma R_scope w m (x : option (dict val)) : R w m -> (forall d, x = Some d -> NoDup (dkeys d)) ->
  R (match x with
     | None => World (dicts w) (objs w) (scopes w ++ [None]) (conns w)
     | Some d => World (dicts w ++ [d]) (objs w) (scopes w ++ [Some (length (dicts w))]) (conns w)
     end)
    (Maps (at_ (put m (OfScope (nscopes m)) (fun k => match x with Some d => dget k d | None => None end))) (owns m) (S (nscopes m)) (over m)).
Proof.
  intros H ND. set (w1 := match x with None => _ | Some d => _ end).
  assert (PT : forall q, ptr w1 q = if place_dec q (OfScope (length (scopes w))) then match x with Some _ => Some (length (dicts w)) | None => None end else ptr w q).
  { intros [i|s']; [destruct (place_dec (OfOwn i) _); [discriminate|]; destruct x; reflexivity|].
    unfold ptr. assert (SC : scopes w1 = scopes w ++ [match x with Some _ => Some (length (dicts w)) | None => None end]) by (destruct x; reflexivity).
    rewrite SC. destruct (place_dec _ _) as [EQ|NE]; [injection EQ as ->; now rewrite nth_error_end|].
    destruct (Nat.lt_ge_cases s' (length (scopes w))) as [L|L]; [now rewrite nth_error_app1|].
    rewrite (proj2 (nth_error_None (scopes w) s') L), (proj2 (nth_error_None (_ ++ _) s')); [reflexivity|]. rewrite app_length; cbn.
    assert (s' <> length (scopes w)) by congruence. lia. }
  assert (SL : length (scopes w1) = S (length (scopes w))) by (destruct x; cbn; rewrite app_length; cbn; lia).
  assert (SOLD : forall s r, nth_error (scopes w) s = Some r -> nth_error (scopes w1) s = Some r).
  { intros s r E. assert (s < length (scopes w)) by (apply nth_error_Some; congruence). destruct x; cbn; now rewrite nth_error_app1. }
  assert (CO : conns w1 = conns w) by (destruct x; reflexivity).
  assert (OB : objs w1 = objs w) by (destruct x; reflexivity).
  assert (DI : forall p, p < length (dicts w) -> p < length (dicts w1) /\ the_dict w1 p = the_dict w p).
  { intros p L. destruct x; cbn; [|auto]. rewrite app_length; cbn. split; [lia|]. unfold the_dict; cbn. now rewrite nth_app_old. }
  constructor; cbn.
  - rewrite OB. apply H.
  - rewrite SL. f_equal. apply H.
  - rewrite CO. apply H.
  - intros c s r E. rewrite CO in E. rewrite SL. apply (r_conn _ _ H) in E. lia.
  - intros c s p E. rewrite CO in E. apply SOLD. eapply (r_cached _ _ H); eassumption.
  - intros q p. rewrite PT. destruct (place_dec _ _).
    + destruct x; [|discriminate]. intros E; injection E as <-. cbn. rewrite app_length; cbn. lia.
    + intros E. apply DI. eapply (r_ptr _ _ H); eassumption.
  - intros q q' p. rewrite !PT. destruct (place_dec q _) as [->|N1], (place_dec q' _) as [->|N2]; intros E1 E2; [reflexivity| | |eapply (r_inj _ _ H); eassumption].
    + apply (r_ptr _ _ H) in E2. destruct x; [|discriminate]. injection E1 as <-. lia.
    + apply (r_ptr _ _ H) in E1. destruct x; [|discriminate]. injection E2 as <-. lia.
  - intros q k. rewrite (r_scopes _ _ H), PT. destruct (place_dec q _) as [->|NE].
    + destruct x; [|reflexivity]. unfold the_dict; cbn. rewrite app_nth2 by lia. rewrite Nat.sub_diag. reflexivity.
    + rewrite (r_at _ _ H). destruct (ptr w q) as [p|] eqn:P; [|reflexivity]. now rewrite (proj2 (DI p (r_ptr _ _ H _ _ P))).
  - intros d I. destruct x; cbn in I; [|now apply (r_nodup _ _ H)]. apply in_app_or in I as [I|[<- | []]]; [now apply (r_nodup _ _ H)|now apply ND].
Qed.

Lemma dupdate_app {V} (d : dict V) a b : dupdate d (a ++ b) = dupdate (dupdate d a) b.
Proof. unfold dupdate. now rewrite fold_left_app. Qed.
Lemma dupdate_last l : forall k, last_value l k (dget k (dupdate [] l)).
Proof.
  intros k. induction l as [|[k0 v0] l IH] using rev_ind; [left; split; [reflexivity|auto]|].
  rewrite dupdate_app. cbn. destruct (list_eq_dec N.eq_dec k k0) as [<-|NE].
  - rewrite dget_dset_same. right. exists l, v0, []. split; [reflexivity|]. split; [reflexivity|auto].
  - rewrite dget_dset_other by assumption. destruct IH as [[E I]|(a & v & b & E & -> & I)].
    + left. split; [exact E|]. intros v C. apply in_app_or in C as [C|[C|[]]]; [exact (I v C)|congruence].
    + right. exists a, v, (b ++ [(k0, v0)]). split; [exact E|]. split; [now rewrite <- app_assoc|].
      intros v' C. apply in_app_or in C as [C|[C|[]]]; [exact (I v' C)|congruence].
Qed.

(** No dict has a name with a special meaning. *)
Definition clean (w : world) : Prop := forall d, In d (dicts w) -> forall k, In k (dkeys d) -> ordinary k.
Lemma clean_get w p k : clean w -> ~ ordinary k -> dget k (the_dict w p) = None.
Proof.
  intros C O. unfold the_dict. destruct (Nat.lt_ge_cases p (length (dicts w))) as [L|L].
  - apply dget_None_keys. intros I. exact (O (C _ (nth_In _ _ L) _ I)).
  - now rewrite nth_overflow.
Qed.
Lemma special_state : ~ ordinary (u "_state").
Proof. intros [_ H]. now apply (H (u "state")). Qed.
Lemma special_class : ~ ordinary (u "__class__").
Proof. intros [_ H]. now apply (H (u "_class__")). Qed.
Lemma special_copy : ~ ordinary (u "copy").
Proof. intros [H _]. now apply H. Qed.
Lemma clean_own w p : clean w -> own_state w p = Some p.
Proof. intros C. unfold own_state, get_attribute. now rewrite clean_get by (try exact C; apply special_state). Qed.
Lemma ordinary_class k : ordinary k -> smem k class_names = false /\ seqb k (u "_state") = false.
Proof.
  intros [C U]. split.
  - destruct (smem k class_names) eqn:E; [|reflexivity]. apply smem_In in E. exfalso. unfold class_names in E. cbn [In] in E.
    repeat match type of E with _ \/ _ => destruct E as [E|E]; [subst k; first [now apply C | eapply U; reflexivity]|] end. exact E.
  - destruct (seqb_spec k (u "_state")) as [->|]; [|reflexivity]. exfalso. now apply special_state.
Qed.

Lemma put_only m q k x f : f k = x -> (forall k', k' <> k -> f k' = at_ m q k') -> only_at m (put m q f) q k x.
Proof.
  intros E O. unfold only_at, put; cbn. split; [destruct (place_dec q q); [exact E|contradiction]|]. split; [|auto].
  intros q' k' [N|N]; destruct (place_dec q' q) as [->|]; auto; contradiction.
Qed.

(** One operation. *)
Lemma step_R w m o w1 x : R w m -> (attribute o \/ clean w) -> step w o = (w1, x) -> exists m1, does m o m1 x /\ R w1 m1.
Proof.
  intros H OK E.
  assert (HD : forall h, ((exists k, o = OGet h k) \/ o = OLen h \/ o = OCopy h \/
      (exists k, o = OItem h k) \/ (exists k, o = ODel h k) \/ (exists k v, o = OSet h k v)) ->
      (let '(w2, r) := locate w h in match r with Some p => on_state w2 p o | None => (w2, RAbsent) end) = (w1, x) ->
      exists m1, does m o m1 x /\ R w1 m1).
  { clear E. intros h SH E. destruct (locate w h) as [w2 r] eqn:L. destruct (locate_R _ _ _ _ _ H L) as (H2 & P & DS).
    assert (OK2 : attribute o \/ clean w2).
    { destruct OK as [A|C]; [now left|right]. intros d I k K. destruct (DS d I) as [I' | -> ]; [exact (C d I' k K)|destruct K]. }
    destruct r as [p|].
    2:{ injection E as <- <-. exists m. split; [|exact H2].
        destruct SH as [[k S]|[S|[S|[[k S]|[[k S]|(k & v & S)]]]]]; rewrite S; cbn [does]; rewrite P; auto. }
    destruct P as (q & PO & PT).
    assert (AT : forall k, at_ m q k = dget k (the_dict w2 p)) by (intros k; now rewrite (r_at _ _ H2), PT).
    destruct SH as [[k S]|[S|[S|[[k S]|[[k S]|(k & v & S)]]]]].
    - subst o. cbn in E. injection E as <- <-. exists m. split; [|exact H2].
      cbn [does]. rewrite PO, AT. split; [reflexivity|]. unfold get_attribute. destruct (dget k (the_dict w2 p)) as [v|]; [reflexivity|].
      intros O. destruct (ordinary_class k O) as [-> ->]. reflexivity.
    - subst o. destruct OK2 as [[]|C]. cbn in E. rewrite clean_own in E by exact C. injection E as <- <-. exists m. split; [|exact H2].
      cbn [does]. rewrite PO. split; [reflexivity|]. exists (dkeys (the_dict w2 p)). split; [eapply the_dict_nodup; exact H2|]. split; [|unfold dkeys; now rewrite map_length].
      intros k. rewrite AT. destruct (in_dec (list_eq_dec N.eq_dec) k (dkeys (the_dict w2 p))) as [I|I].
      + split; [|auto]. intros _ N. now apply dget_None_keys in N.
      + split; [contradiction|]. intros N. exfalso. now apply N, dget_None_keys.
    - subst o. destruct OK2 as [[]|C]. cbn [on_state] in E. unfold get_attribute at 1 2 in E. rewrite clean_own in E by exact C.
      rewrite (clean_get _ _ _ C special_copy), (clean_get _ _ _ C special_class) in E. cbn in E. injection E as <- <-.
      eexists. split; [|apply R_own; [exact H2|eapply the_dict_nodup; exact H2]].
      cbn [does]. rewrite PO. cbn. rewrite (r_owns _ _ H2). split; [reflexivity|]. split; [reflexivity|]. split; [reflexivity|]. split; [|split; [|reflexivity]].
      + intros k. cbn. destruct (place_dec _ _); [symmetry; apply AT|contradiction].
      + intros q' k NE. cbn. destruct (place_dec _ _); [contradiction|reflexivity].
    - subst o. destruct OK2 as [[]|C]. cbn in E. rewrite clean_own in E by exact C. injection E as <- <-. exists m. split; [|exact H2].
      cbn [does]. rewrite PO, AT. split; [reflexivity|]. now destruct (dget k _).
    - subst o. destruct OK2 as [[]|C]. cbn in E. rewrite clean_own in E by exact C. unfold dmem in E. destruct (dget k (the_dict w2 p)) as [v|] eqn:G; injection E as <- <-.
      + eexists. split; [|apply (R_set _ _ _ _ _ H2 PT); apply ddel_nodup; eapply the_dict_nodup; exact H2].
        cbn [does]. rewrite PO, AT, G. split; [reflexivity|]. apply put_only; [apply dget_ddel_same|]. intros k' NE. now rewrite AT, dget_ddel_other.
      + exists m. split; [|exact H2]. cbn [does]. rewrite PO, AT, G. auto.
    - subst o. cbn in E. injection E as <- <-. eexists. split; [|apply (R_set _ _ _ _ _ H2 PT); apply NoDup_dset; eapply the_dict_nodup; exact H2].
      cbn [does]. rewrite PO. split; [reflexivity|]. apply put_only; [apply dget_dset_same|]. intros k' NE. now rewrite AT, dget_dset_other. }
  destruct o as [init|s| |h k v|h k|h k|h k|h|h]; cbn [step] in E.
  - assert (G : exists m1, does m (OScope init) m1 RNone /\
        R (match option_map (fun l => dupdate [] l) init with
           | None => World (dicts w) (objs w) (scopes w ++ [None]) (conns w)
           | Some d => World (dicts w ++ [d]) (objs w) (scopes w ++ [Some (length (dicts w))]) (conns w) end) m1).
    { eexists. split; [|apply (R_scope w m (option_map (fun l => dupdate [] l) init) H); destruct init as [l|]; cbn; [|discriminate];
        intros d E'; injection E' as <-; apply NoDup_dupdate; constructor].
      cbn. split; [reflexivity|]. split; [reflexivity|]. split; [reflexivity|].
      exists (fun k => match option_map (fun l => dupdate [] l) init with Some d => dget k d | None => None end). split.
      - split; [|split; [|reflexivity]]; cbn; intros; destruct (place_dec _ _); auto; contradiction.
      - intros k. destruct init as [l|]; cbn; [apply dupdate_last|left; auto]. }
    destruct init as [l|]; injection E as <- <-; exact G.
  - destruct (Nat.ltb_spec s (length (scopes w))) as [L|L]; injection E as <- <-.
    + eexists. split; [left; rewrite (r_scopes _ _ H); split; [exact L|]; split; reflexivity|].
      constructor; cbn; try reflexivity; try apply H.
      * rewrite map_app, (r_over _ _ H). reflexivity.
      * intros c s' r E. apply nth_error_more in E as [[_ E]|[_ E]]; [eapply (r_conn _ _ H); eassumption|]. injection E as -> ->. exact L.
      * intros c s' p E. apply nth_error_more in E as [[_ E]|[_ E]]; [eapply (r_cached _ _ H); eassumption|]. discriminate E.
    + exists m. split; [right; rewrite (r_scopes _ _ H); auto|exact H].
  - injection E as <- <-. eexists. split; [|apply (R_own w m [] H); constructor].
    cbn. rewrite (r_owns _ _ H). split; [reflexivity|]. split; [reflexivity|]. split; [reflexivity|].
    split; [|split; [|reflexivity]]; cbn; intros; destruct (place_dec _ _); auto; contradiction.
  - apply (HD h); [right; right; right; right; right; eauto|]. now destruct (locate w h) as [? [?|]].
  - apply (HD h); [left; eauto|]. now destruct (locate w h) as [? [?|]].
  - apply (HD h); [right; right; right; left; eauto|]. now destruct (locate w h) as [? [?|]].
  - apply (HD h); [right; right; right; right; left; eauto|]. now destruct (locate w h) as [? [?|]].
  - apply (HD h); [right; left; reflexivity|]. now destruct (locate w h) as [? [?|]].
  - apply (HD h); [right; right; left; reflexivity|]. now destruct (locate w h) as [? [?|]].
Qed.

(** Ordinary names keep the dicts clean. *)
Lemma keys_dset {V} k (v : V) d x : In x (dkeys (dset k v d)) -> x = k \/ In x (dkeys d).
Proof. induction d as [|[a b] d IH]; cbn; [intuition|]. destruct (seqb k a); cbn; intuition. Qed.
Lemma keys_ddel {V} k (d : dict V) x : In x (dkeys (ddel k d)) -> In x (dkeys d).
Proof. induction d as [|[a b] d IH]; cbn; [tauto|]. destruct (seqb k a); cbn; intuition. Qed.
Lemma keys_dupdate {V} (l : list (str * V)) : forall d x, In x (dkeys (dupdate d l)) -> In x (dkeys d) \/ exists v, In (x, v) l.
Proof.
  induction l as [|[k v] l IH]; cbn; [auto|]. intros d x I. apply IH in I as [I|[v' I]]; [|eauto].
  apply keys_dset in I as [-> | I]; [right; exists v; now left|now left].
Qed.
Lemma clean_set w p d : clean w -> (forall k, In k (dkeys d) -> ordinary k) -> clean (set_dict w p d).
Proof. intros C O d' I. cbn in I. apply In_upd in I as [-> | I]; [exact O|exact (C d' I)]. Qed.
Lemma clean_at w p k : clean w -> In k (dkeys (the_dict w p)) -> ordinary k.
Proof.
  intros C I. unfold the_dict in I. destruct (Nat.lt_ge_cases p (length (dicts w))) as [L|L]; [exact (C _ (nth_In _ _ L) _ I)|].
  rewrite nth_overflow in I by assumption. destruct I.
Qed.
Lemma clean_more w d o s c : clean w -> (forall k, In k (dkeys d) -> ordinary k) -> clean (World (dicts w ++ [d]) o s c).
Proof. intros C O d' I. cbn in I. apply in_app_or in I as [I|[<- | []]]; [exact (C _ I)|exact O]. Qed.
Lemma step_clean w m o w1 x : R w m -> clean w -> (forall k, uses o k -> ordinary k) -> step w o = (w1, x) -> clean w1.
Proof.
  intros H C U E.
  assert (HD : forall h, (let '(w2, r) := locate w h in match r with Some p => on_state w2 p o | None => (w2, RAbsent) end) = (w1, x) -> clean w1).
  { clear E. intros h E. destruct (locate w h) as [w2 r] eqn:L. destruct (locate_R _ _ _ _ _ H L) as (_ & _ & DS).
    assert (C2 : clean w2) by (intros d I k K; destruct (DS d I) as [I' | -> ]; [exact (C d I' k K)|destruct K]).
    destruct r as [p|]; [|injection E as <- <-; exact C2].
    destruct o; cbn [on_state] in E; try (injection E as <- <-; exact C2).
    - injection E as <- <-. apply clean_set; [exact C2|]. intros k0 I. apply keys_dset in I as [-> | I]; [now apply U|now apply clean_at in I].
    - rewrite clean_own in E by exact C2. destruct (dmem _ _); injection E as <- <-; [|exact C2].
      apply clean_set; [exact C2|]. intros k0 I. apply keys_ddel in I. now apply clean_at in I.
    - rewrite clean_own in E by exact C2. destruct (get_attribute w2 p (u "copy")), (get_attribute w2 p (u "__class__")); injection E as <- <-; try exact C2.
      apply clean_more; [exact C2|]. intros k I. now apply clean_at in I. }
  destruct o as [[l|]|s| |h k v|h k|h k|h k|h|h]; cbn [step] in E;
    try (apply (HD h); now destruct (locate w h) as [? [?|]]).
  - injection E as <- <-. apply clean_more; [exact C|]. intros k I. apply keys_dupdate in I as [[]|[v I]]. apply U. cbn. eauto.
  - injection E as <- <-. exact C.
  - destruct (s <? _); injection E as <- <-; exact C.
  - injection E as <- <-. apply clean_more; [exact C|]. intros k [].
Qed.

Lemma run_R ops : forall w m, R w m ->
  ((forall o, In o ops -> attribute o) \/ (clean w /\ forall o k, In o ops -> uses o k -> ordinary k)) -> history m ops (run w ops).
Proof.
  induction ops as [|o ops IH]; intros w m H OK; cbn; [constructor|].
  destruct (step w o) as [w1 x] eqn:E. destruct (step_R w m o w1 x H) as (m1 & D & H1); [|exact E|].
  { destruct OK as [A|[C _]]; [left; apply A; now left|now right]. }
  apply history_cons with m1; [exact D|]. apply IH; [exact H1|].
  destruct OK as [A|[C U]]; [left; intros; apply A; now right|right]. split; [|intros o' k I; apply U; now right].
  eapply step_clean; [exact H|exact C| |exact E]. intros k K. apply (U o k); [now left|exact K].
Qed.
Lemma R_empty : R empty_world no_maps.
Proof.
  constructor; cbn; try reflexivity; try (intros [|c] *; discriminate).
  - intros [[|i]|[|s]] p; discriminate.
  - intros [[|i]|[|s]] q' p; discriminate.
  - intros [[|i]|[|s]] k; reflexivity.
  - intros d [].
Qed.
