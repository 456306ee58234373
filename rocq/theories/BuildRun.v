(** Programs of schema builder calls with written-out lists and maps. *)
From Coq Require Import String List Bool Arith ZArith Lia.
From Verif Require Import GoStr Json Slices SliceFacts JsonText AnyJson Builders Spec_Build BuildFacts.
Import ListNotations.
Local Open Scope string_scope.
Local Open Scope nat_scope.
Local Open Scope list_scope.
Local Arguments obj : simpl never.

Section Run.
  Context {F : Type}.
  Implicit Types (m : memory F) (o : sobj F) (c : bcall F).

  (** Nothing is shared. *)
  Definition off (s t : gsl) : Prop := forall a n k, s = Some (a, n) -> t = Some (a, k) -> False.
  Definition offi (s t : option nat) : Prop := forall i, s = Some i -> t = Some i -> False.
  Definition refs_of o : list gsl := [o_allof o; o_oneof o; o_anyof o].
  Definition split_objs o o' : Prop :=
    off (o_required o) (o_required o') /\ (forall s t, In s (refs_of o) -> In t (refs_of o') -> off s t) /\
    offi (o_props o) (o_props o') /\ offi (o_docs o) (o_docs o') /\ offi (o_xml o) (o_xml o').
  Definition tidy_obj o : Prop := off (o_allof o) (o_oneof o) /\ off (o_allof o) (o_anyof o).
  Definition owned m : Prop :=
    forall p, p < length (m_objs m) -> tidy_obj (obj m p) /\ forall q, q < length (m_objs m) -> q <> p -> split_objs (obj m p) (obj m q).

  Lemma off_overlap s t : off s t -> ~ overlap s t.
  Proof. intros H (a & n & k & E1 & E2 & _). exact (H a n k E1 E2). Qed.
  Lemma owned_sharing m p c q : owned m -> p < length (m_objs m) -> q < length (m_objs m) -> q <> p -> ~ sharing m p c q.
  Proof.
    intros O Hp Hq N. destruct (O p Hp) as [_ Oq]. destruct (Oq q Hq N) as (S1 & S2 & S3 & S4 & S5).
    destruct c; cbn [sharing]; try tauto; try (intros (i & E1 & E2); eauto; fail).
    - now apply off_overlap.
    - intros [V|[V|V]]; revert V; apply off_overlap, S2; cbn; auto.
  Qed.
  Lemma owned_own m p c : owned m -> p < length (m_objs m) -> ~ own_sharing m p c.
  Proof.
    intros O Hp. destruct (O p Hp) as [[T1 T2] _]. destruct c; cbn [own_sharing]; try tauto.
    intros [V|V]; revert V; now apply off_overlap.
  Qed.

  (** What a call leaves in the receiver's own fields: old storage of the same
      field, or new storage. *)
  Definition slot (n : nat) (s s' : gsl) : Prop := forall a k, s' = Some (a, k) -> (exists j, s = Some (a, j)) \/ n <= a.
  Definition sloti (n : nat) (s s' : option nat) : Prop := forall i, s' = Some i -> s = Some i \/ n <= i.
  Definition slots m o o' : Prop :=
    slot (length (m_strs m)) (o_required o) (o_required o') /\ slot (length (m_refs m)) (o_allof o) (o_allof o') /\
    o_oneof o' = o_oneof o /\ o_anyof o' = o_anyof o /\
    sloti (length (m_maps m)) (o_props o) (o_props o') /\ sloti (length (m_docs m)) (o_docs o) (o_docs o') /\ sloti (length (m_xml m)) (o_xml o) (o_xml o').
  Lemma slot_refl n s : slot n s s.
  Proof. intros a k E. eauto. Qed.
  Lemma sloti_refl n s : sloti n s s.
  Proof. intros i E. auto. Qed.
  Lemma slot_new {A} (h : list (list A)) l s : slot (length h) s (snd (pass h (Lit l))).
  Proof. intros a k E. apply pass_where in E. lia. Qed.
  Lemma sloti_new n s : sloti n s (Some n).
  Proof. intros i E. injection E as <-. auto. Qed.
  Lemma sloti_none n s : sloti n s None.
  Proof. intros i E. discriminate. Qed.

  Lemma call_obj m p c q : p < length (m_objs m) -> q <> p -> obj (call p c m) q = obj m q.
  Proof.
    intros Hp N.
    assert (On : forall f m1, m_objs m1 = m_objs m -> obj (on p f m1) q = obj m q).
    { intros f m1 E. rewrite obj_on by now rewrite E. destruct (Nat.eqb_spec q p); [contradiction|]. unfold obj. now rewrite E. }
    assert (X : forall f, obj (on_xml p f m) q = obj m q).
    { intro f. unfold on_xml. destruct (o_xml (obj m p)); [reflexivity | now apply On]. }
    destruct c; cbn [call]; try (now apply On); try (apply X).
    - destruct (o_props (obj m p)); [reflexivity | now apply On].
    - destruct (_ && _); [now apply On|]. destruct (o_docs (obj m p)); [reflexivity | now apply On].
  Qed.
  Lemma call_slots m p c : sound m -> p < length (m_objs m) -> lit_call c -> slots m (obj m p) (obj (call p c m) p).
  Proof.
    intros So Hp L. destruct (So p Hp) as (P1 & P2 & _).
    assert (On : forall f m1, m_objs m1 = m_objs m -> slots m (obj m p) (f (obj m p)) -> slots m (obj m p) (obj (on p f m1) p)).
    { intros f m1 E H. rewrite obj_on, Nat.eqb_refl by now rewrite E. unfold obj at 2. rewrite E. exact H. }
    assert (Base : slots m (obj m p) (obj m p)).
    { unfold slots. auto 10 using slot_refl, sloti_refl. }
    assert (X : forall f, slots m (obj m p) (obj (on_xml p f m) p)).
    { intro f. unfold on_xml. destruct (o_xml (obj m p)) eqn:E; [exact Base|]. apply On; [reflexivity|].
      unfold slots. cbn. auto 10 using slot_refl, sloti_refl, sloti_new. }
    destruct c; cbn [call]; try (apply On; [reflexivity | exact Base]); try (apply X).
    - apply On; [reflexivity|]. cbn [lit_call] in L. subst mp. unfold slots. cbn. auto 10 using slot_refl, sloti_refl, sloti_none.
    - apply On; [reflexivity|]. unfold slots. cbn. auto 10 using slot_refl, sloti_refl, sloti_new.
    - destruct (o_props (obj m p)) eqn:E; [exact Base|]. apply On; [reflexivity|]. unfold slots. cbn. rewrite E. auto 10 using slot_refl, sloti_refl, sloti_new.
    - apply On; [reflexivity|]. destruct x; [|destruct L]. unfold slots. cbn [put_allof o_required o_allof o_oneof o_anyof o_props o_docs o_xml].
      auto 10 using slot_refl, sloti_refl, slot_new.
    - apply On; [reflexivity|]. destruct x; [|destruct L]. unfold slots. cbn [put_required o_required o_allof o_oneof o_anyof o_props o_docs o_xml].
      auto 10 using slot_refl, sloti_refl, slot_new.
    - apply On; [reflexivity|]. unfold slots. cbn [put_required o_required o_allof o_oneof o_anyof o_props o_docs o_xml].
      split; [|auto 10 using slot_refl, sloti_refl]. intros a k E. apply gappend_where in E; [|exact P1]. destruct E as [E| ->]; auto.
    - apply On; [reflexivity|]. unfold slots. cbn [put_allof o_required o_allof o_oneof o_anyof o_props o_docs o_xml].
      split; [apply slot_refl|]. split; [|auto 10 using slot_refl, sloti_refl]. intros a k E. apply gappend_where in E; [|exact P2]. destruct E as [E| ->]; auto.
    - destruct (_ && _); [apply On; [reflexivity|]; unfold slots; cbn; auto 10 using slot_refl, sloti_refl, sloti_none|].
      destruct (o_docs (obj m p)) eqn:E; [exact Base|]. apply On; [reflexivity|]. unfold slots. cbn. rewrite E. auto 10 using slot_refl, sloti_refl, sloti_new.
  Qed.

  Lemma off_sym s t : off s t -> off t s.
  Proof. intros H a n k E1 E2. exact (H a k n E2 E1). Qed.
  Lemma split_sym o o' : split_objs o o' -> split_objs o' o.
  Proof.
    intros (H1 & H2 & H3 & H4 & H5). refine (conj _ (conj _ (conj _ (conj _ _)))).
    - now apply off_sym.
    - intros s t I1 I2. apply off_sym. now apply H2.
    - intros i E1 E2. exact (H3 i E2 E1).
    - intros i E1 E2. exact (H4 i E2 E1).
    - intros i E1 E2. exact (H5 i E2 E1).
  Qed.
  Lemma slot_off {A} (h : list (list A)) s s' t : slot (length h) s s' -> held h t -> off s t -> off s' t.
  Proof.
    intros Sl H O a n k E1 E2. destruct (Sl a n E1) as [[j E]|L]; [exact (O a j k E E2)|]. destruct (H a k E2). lia.
  Qed.
  Lemma sloti_off {A} (l : list A) s s' t : sloti (length l) s s' -> below l t -> offi s t -> offi s' t.
  Proof. intros Sl H O i E1 E2. destruct (Sl i E1) as [E|L]; [exact (O i E E2)|]. specialize (H i E2). lia. Qed.
  Lemma slots_split m o o' t : slots m o o' -> held_obj m t -> split_objs o t -> split_objs o' t.
  Proof.
    intros (S1 & S2 & S3 & S4 & S5 & S6 & S7) (H1 & H2 & H3 & H4 & H5 & H6 & H7 & H8) (O1 & O2 & O3 & O4 & O5).
    refine (conj _ (conj _ (conj _ (conj _ _)))).
    - now apply (slot_off (m_strs m) (o_required o)).
    - intros s u Is Iu. assert (Hu : held (m_refs m) u) by (destruct Iu as [<-|[<-|[<-|[]]]]; assumption).
      destruct Is as [<-|[<-|[<-|[]]]].
      + apply (slot_off (m_refs m) (o_allof o)); [exact S2 | exact Hu |]. apply O2; [now left | exact Iu].
      + rewrite S3. apply O2; [right; now left | exact Iu].
      + rewrite S4. apply O2; [right; right; now left | exact Iu].
    - now apply (sloti_off (m_maps m) (o_props o)).
    - now apply (sloti_off (m_docs m) (o_docs o)).
    - now apply (sloti_off (m_xml m) (o_xml o)).
  Qed.
  Lemma call_owned m p c : sound m -> owned m -> p < length (m_objs m) -> lit_call c -> owned (call p c m).
  Proof.
    intros So Ow Hp L q Hq. rewrite call_objs in Hq. pose proof (call_slots m p c So Hp L) as Sl.
    assert (Other : forall q', q' < length (m_objs m) -> q' <> p -> split_objs (obj (call p c m) p) (obj m q')).
    { intros q' H N. apply (slots_split m (obj m p)); [exact Sl | now apply So | now apply (Ow p Hp)]. }
    destruct (Nat.eq_dec q p) as [->|N].
    - split.
      + destruct Sl as (_ & S2 & S3 & S4 & _). destruct (So p Hp) as (_ & _ & H3 & H4 & _). destruct (Ow p Hp) as [[T1 T2] _].
        split; [rewrite S3 | rewrite S4]; now apply (slot_off (m_refs m) (o_allof (obj m p))).
      + intros q' Hq' N'. rewrite call_objs in Hq'. rewrite (call_obj m p c q' Hp N'). now apply Other.
    - rewrite (call_obj m p c q Hp N). destruct (Ow q Hq) as [T O]. split; [exact T|].
      intros q' Hq' N'. rewrite call_objs in Hq'. destruct (Nat.eq_dec q' p) as [->|M].
      + apply split_sym. now apply Other.
      + rewrite (call_obj m p c q' Hp M). now apply O.
  Qed.

  (** Constructors. *)
  Lemma obj_snoc m m1 o q : q < length (m_objs m) -> obj (set_objs (m_objs m ++ [o]) m1) q = obj m q.
  Proof. intro H. unfold obj. cbn. now rewrite app_nth1. Qed.
  Lemma obj_new m m1 o : obj (set_objs (m_objs m ++ [o]) m1) (length (m_objs m)) = o.
  Proof. unfold obj. cbn. now rewrite app_nth2, Nat.sub_diag by lia. Qed.
  Definition blank o : Prop := o_required o = None /\ o_enum o = None /\ o_props o = None /\ o_docs o = None /\ o_xml o = None.
  (** One new object, and the slices of schemas kept. *)
  Definition builds m m' (v : obs F) : Prop :=
    exists o h, m' = set_objs (m_objs m ++ [o]) (set_refs h m) /\ blank o /\
      (forall t, held (m_refs m) t -> held h t /\ gval h t = gval (m_refs m) t) /\
      (forall s, In s (refs_of o) -> held h s /\ slot (length (m_refs m)) None s) /\ tidy_obj o /\
      same (view m' (length (m_objs m))) v.
  Lemma construct_builds m k : lit_ctor k -> builds m (construct k m) (made k).
  Proof.
    intro L.
    assert (Hn : forall h, held (A := sref) h None) by (intros h a n E; discriminate).
    assert (Sn : slot (length (m_refs m)) None None) by (intros a n E; discriminate).
    assert (On : forall s, off None s) by (intros s a n j E; discriminate).
    assert (New : forall o v, o_required o = None -> o_allof o = None -> o_oneof o = None -> o_anyof o = None -> o_enum o = None ->
                  o_props o = None -> o_docs o = None -> o_xml o = None ->
                  same {| b_plain := o_plain o; b_required := []; b_allof := []; b_oneof := []; b_anyof := []; b_enum := [];
                          b_not := o_not o; b_items := o_items o; b_addl := o_addl o; b_props := None; b_docs := None; b_xml := None |} v ->
                  builds m (set_objs (m_objs m ++ [o]) m) v).
    { intros o v R1 R2 R3 R4 R5 R6 R7 R8 V. exists o, (m_refs m). split; [destruct m; reflexivity|]. split; [repeat split; assumption|]. split; [auto|].
      split; [|split].
      - unfold refs_of. rewrite R2, R3, R4. intros s [<-|[<-|[<-|[]]]]; auto.
      - unfold tidy_obj. rewrite R2. auto.
      - unfold view. rewrite obj_new, R1, R2, R3, R4, R5, R6, R7, R8. exact V. }
    assert (P : forall l, let r := pass (m_refs m) (Lit l) in
               gval (fst r) (snd r) = l /\ held (fst r) (snd r) /\ (forall t, held (m_refs m) t -> held (fst r) t /\ gval (fst r) t = gval (m_refs m) t) /\ slot (length (m_refs m)) None (snd r)).
    { intros l r. destruct (pass_spec (m_refs m) (Lit l) Logic.I) as (G & V & K). split; [exact G|]. split; [exact V|]. split; [exact K | apply slot_new]. }
    destruct k; cbn [construct made]; try (apply New; try reflexivity; repeat split; intros []; reflexivity).
    - destruct x as [l|]; [|destruct L]. destruct (P l) as (G & V & K & Sl). cbn [lits].
      set (r := pass (m_refs m) (Lit l)) in *. exists (put_allof (snd r) obj_zero), (fst r).
      split; [reflexivity|]. split; [repeat split|]. split; [exact K|]. split; [|split].
      + intros s [<-|[<-|[<-|[]]]]; cbn; auto.
      + split; apply off_sym, On.
      + unfold view. rewrite obj_new. repeat split. cbn. exact G.
    - destruct x as [l|]; [|destruct L]. destruct (P l) as (G & V & K & Sl). cbn [lits].
      set (r := pass (m_refs m) (Lit l)) in *. exists (put_oneof (snd r) obj_zero), (fst r).
      split; [reflexivity|]. split; [repeat split|]. split; [exact K|]. split; [|split].
      + intros s [<-|[<-|[<-|[]]]]; cbn; auto.
      + split; apply On.
      + unfold view. rewrite obj_new. repeat split. cbn. exact G.
    - destruct x as [l|]; [|destruct L]. destruct (P l) as (G & V & K & Sl). cbn [lits].
      set (r := pass (m_refs m) (Lit l)) in *. exists (put_anyof (snd r) obj_zero), (fst r).
      split; [reflexivity|]. split; [repeat split|]. split; [exact K|]. split; [|split].
      + intros s [<-|[<-|[<-|[]]]]; cbn; auto.
      + split; apply On.
      + unfold view. rewrite obj_new. repeat split. cbn. exact G.
  Qed.

  Lemma builds_sound m m' v : sound m -> builds m m' v -> sound m'.
  Proof.
    intros So (o & h & -> & (B1 & B2 & B3 & B4 & B5) & K & V & _) q Hq.
    cbn in Hq. rewrite app_length in Hq. cbn in Hq. destruct (Nat.eq_dec q (length (m_objs m))) as [->|N].
    - rewrite obj_new. unfold held_obj. rewrite B1, B2, B3, B4, B5. cbn.
      refine (conj _ (conj (proj1 (V _ _)) (conj (proj1 (V _ _)) (conj (proj1 (V _ _)) (conj _ (conj _ (conj _ _))))))); cbn; auto; intros ? ?; discriminate.
    - rewrite obj_snoc by lia. destruct (So q ltac:(lia)) as (H1 & H2 & H3 & H4 & H5 & H6 & H7 & H8).
      unfold held_obj. cbn. pose proof (proj1 (K _ H2)). pose proof (proj1 (K _ H3)). pose proof (proj1 (K _ H4)). auto 12.
  Qed.
  Lemma builds_owned m m' v : sound m -> owned m -> builds m m' v -> owned m'.
  Proof.
    intros So Ow (o & h & -> & (B1 & B2 & B3 & B4 & B5) & K & V & T & _).
    assert (Sp : forall q, q < length (m_objs m) -> split_objs o (obj m q)).
    { intros q Hq. destruct (So q Hq) as (H1 & H2 & H3 & H4 & H5 & H6 & H7 & H8). unfold split_objs. rewrite B1, B3, B4, B5.
      refine (conj _ (conj _ (conj _ (conj _ _)))); try (intros ? ? ? ?; discriminate); try (intros ? ?; discriminate).
      intros s t Is It. assert (Ht : held (m_refs m) t) by (destruct It as [<-|[<-|[<-|[]]]]; assumption).
      apply (slot_off (m_refs m) None); [apply (V s Is) | exact Ht | intros ? ? ? ?; discriminate]. }
    intros q Hq. cbn in Hq. rewrite app_length in Hq. cbn in Hq. destruct (Nat.eq_dec q (length (m_objs m))) as [->|N].
    - rewrite obj_new. split; [exact T|]. intros q' Hq' N'. cbn in Hq'. rewrite app_length in Hq'. cbn in Hq'.
      rewrite obj_snoc by lia. apply Sp. lia.
    - rewrite obj_snoc by lia. destruct (Ow q ltac:(lia)) as [Tq Oq]. split; [exact Tq|].
      intros q' Hq' N'. cbn in Hq'. rewrite app_length in Hq'. cbn in Hq'. destruct (Nat.eq_dec q' (length (m_objs m))) as [->|N2].
      + rewrite obj_new. apply split_sym, Sp. lia.
      + rewrite obj_snoc by lia. apply Oq; [lia | exact N'].
  Qed.
  Lemma builds_view m m' v q : sound m -> builds m m' v -> q < length (m_objs m) -> same (view m' q) (view m q).
  Proof.
    intros So (o & h & -> & _ & K & _) Hq. destruct (So q Hq) as (H1 & H2 & H3 & H4 & _).
    unfold view. rewrite obj_snoc by exact Hq. repeat split; cbn; now apply K.
  Qed.

  (** ** Programs *)
  Lemma same_trans (u v w : obs F) : same u v -> same v w -> same u w.
  Proof.
    intros (A1 & A2 & A3 & A4 & A5 & A6 & A7 & A8 & A9 & A10 & A11 & A12) (B1 & B2 & B3 & B4 & B5 & B6 & B7 & B8 & B9 & B10 & B11 & B12).
    repeat split; congruence.
  Qed.
  Lemma assigned_ext l a (x y : aval F) : x = y -> assigned l a x = assigned l a y.
  Proof. now intros ->. Qed.
  Lemma after_same c (v w : obs F) : same v w -> same (after c v) (after c w).
  Proof.
    intros (A1 & A2 & A3 & A4 & A5 & A6 & A7 & A8 & A9 & A10 & A11 & A12).
    refine (conj _ (conj _ (conj _ (conj _ (conj _ (conj _ (conj _ (conj _ (conj _ (conj _ (conj _ _))))))))))); cbn.
    - intro a. now rewrite A1.
    - now rewrite A2.
    - now rewrite A3.
    - exact A4.
    - exact A5.
    - now rewrite A6.
    - exact A7.
    - exact A8.
    - exact A9.
    - now rewrite A10.
    - now rewrite A11.
    - now rewrite A12.
  Qed.
  Lemma lit_spelled m c : lit_call c -> spelled m c = c /\ sound_call m c.
  Proof.
    destruct c; cbn [lit_call spelled sound_call]; auto.
    - intros ->. split; [reflexivity | apply below_none].
    - destruct x; cbn; tauto.
    - destruct x; cbn; tauto.
    - destruct x; cbn; tauto.
    - destruct x; cbn; tauto.
    - destruct x; cbn; tauto.
  Qed.

  Definition follows m (vs : list (obs F)) : Prop :=
    sound m /\ owned m /\ length vs = length (m_objs m) /\ forall p v, nth_error vs p = Some v -> same (view m p) v.

  Lemma nth_error_firstn {A} p : forall (vs : list A) q, q < p -> nth_error (firstn p vs) q = nth_error vs q.
  Proof. induction p as [|p IH]; intros [|y vs] [|q] H; cbn; try lia; try reflexivity. apply IH. lia. Qed.
  Lemma nth_error_skipn {A} p : forall (vs : list A) d, nth_error (skipn p vs) d = nth_error vs (p + d).
  Proof. induction p as [|p IH]; intros [|y vs] d; cbn; try reflexivity; [now destruct d | apply IH]. Qed.
  Lemma nth_error_mid {A} (vs : list A) p x q : p < length vs ->
    nth_error (firstn p vs ++ [x] ++ skipn (S p) vs) q = if q =? p then Some x else nth_error vs q.
  Proof.
    intro H. assert (L : length (firstn p vs) = p) by (rewrite firstn_length; lia).
    destruct (Nat.eqb_spec q p) as [->|N].
    - rewrite nth_error_app2, L, Nat.sub_diag by lia. reflexivity.
    - destruct (Nat.lt_ge_cases q p) as [Lt|Ge].
      + rewrite nth_error_app1 by lia. now apply nth_error_firstn.
      + rewrite nth_error_app2, L by lia. destruct (q - p) as [|d] eqn:E; [lia|]. cbn [app].
        change (nth_error (skipn (S p) vs) d = nth_error vs q). rewrite nth_error_skipn. f_equal. lia.
  Qed.

  (** Storage of the caller's own. *)
  Lemma make_follows m m' vs :
    m_objs m' = m_objs m -> (forall t, held (m_strs m) t -> held (m_strs m') t /\ gval (m_strs m') t = gval (m_strs m) t) ->
    (forall t, held (m_refs m) t -> held (m_refs m') t /\ gval (m_refs m') t = gval (m_refs m) t) ->
    (forall t, held (m_anys m) t -> held (m_anys m') t /\ gval (m_anys m') t = gval (m_anys m) t) ->
    (forall i, i < length (m_maps m) -> i < length (m_maps m') /\ nth i (m_maps m') [] = nth i (m_maps m) []) ->
    m_docs m' = m_docs m -> m_xml m' = m_xml m -> follows m vs -> follows m' vs.
  Proof.
    intros E K1 K2 K3 K4 K5 K6 (So & Ow & Len & Vs).
    assert (O : forall q, obj m' q = obj m q) by (intro q; unfold obj; now rewrite E).
    split; [|split; [|split]].
    - intros q Hq. rewrite E in Hq. rewrite O. destruct (So q Hq) as (H1 & H2 & H3 & H4 & H5 & H6 & H7 & H8).
      unfold held_obj. rewrite K5, K6. pose proof (proj1 (K1 _ H1)). pose proof (proj1 (K2 _ H2)). pose proof (proj1 (K2 _ H3)). pose proof (proj1 (K2 _ H4)). pose proof (proj1 (K3 _ H5)).
      refine (conj _ (conj _ (conj _ (conj _ (conj _ (conj _ (conj _ _))))))); try assumption. intros k Ek. apply K4. auto.
    - intros q Hq. rewrite E in Hq. rewrite O. destruct (Ow q Hq) as [T S]. split; [exact T|]. intros q' Hq'. rewrite E in Hq'. rewrite O. auto.
    - now rewrite E.
    - intros q v Ev. apply same_trans with (view m q); [|now apply Vs].
      assert (Hq : q < length (m_objs m)) by (rewrite <- Len; apply nth_error_Some; congruence).
      destruct (So q Hq) as (H1 & H2 & H3 & H4 & H5 & H6 & H7 & H8).
      unfold view. rewrite O, K5, K6. repeat split; cbn; try (now apply K1); try (now apply K2); try (now apply K3).
      destruct (o_props (obj m q)) as [k|] eqn:Ek; [|reflexivity]. cbn. f_equal. apply K4. auto.
  Qed.

  Lemma step_follows m vs op n : n = length (m_objs m) -> written n [op] -> follows m vs ->
    follows (bstep m op) (vstep vs op) /\ length (m_objs (bstep m op)) = match op with New _ => S n | _ => n end.
  Proof.
    intros Hn W Fl. destruct op as [k|p c|l sp|l sp|l|l]; cbn [written] in W; cbn [bstep vstep].
    - destruct W as [L _]. destruct Fl as (So & Ow & Len & Vs). pose proof (construct_builds m k L) as B. split.
      + split; [exact (builds_sound _ _ _ So B)|]. split; [exact (builds_owned _ _ _ So Ow B)|].
        assert (E : length (m_objs (construct k m)) = S (length (m_objs m))).
        { destruct B as (o & h & -> & _). cbn. rewrite app_length. cbn. lia. }
        split; [rewrite app_length, E; cbn; lia|]. intros q v Ev. destruct (Nat.lt_ge_cases q (length vs)) as [Lt|Ge].
        * rewrite nth_error_app1 in Ev by exact Lt. apply same_trans with (view m q); [|now apply Vs].
          apply (builds_view m _ (made k)); [exact So | exact B | lia].
        * rewrite nth_error_app2 in Ev by exact Ge. destruct (q - length vs) as [|d] eqn:Ed; [|destruct d; discriminate]. cbn in Ev. injection Ev as <-.
          assert (q = length (m_objs m)) by lia. subst q. destruct B as (o & h & E' & _ & _ & _ & _ & V). exact V.
      + destruct B as (o & h & -> & _). cbn. rewrite app_length. cbn. lia.
    - destruct W as (Lp & L & _). rewrite Hn in Lp. destruct Fl as (So & Ow & Len & Vs). destruct (lit_spelled m c L) as [Sp Sc].
      destruct (call_spec m p So Lp c Sc) as (So' & Own & Oth). split; [|rewrite call_objs; auto].
      destruct (nth_error vs p) as [v|] eqn:Ev; [|apply nth_error_None in Ev; lia].
      split; [exact So'|]. split; [now apply call_owned|].
      assert (Lv : p < length vs) by lia. split.
      + rewrite call_objs. rewrite !app_length, firstn_length, skipn_length. cbn. lia.
      + intros q w Ew. rewrite nth_error_mid in Ew by exact Lv. destruct (Nat.eqb_spec q p) as [->|N].
        * injection Ew as <-. apply same_trans with (after c (view m p)); [|now apply after_same, Vs].
          rewrite <- Sp at 2. apply Own. now apply owned_own.
        * assert (Hq : q < length (m_objs m)) by (rewrite <- Len; apply nth_error_Some; congruence).
          apply same_trans with (view m q); [|now apply Vs]. apply Oth; [exact Hq | exact N | now apply owned_sharing].
    - split; [|auto]. apply (make_follows m); try exact Fl; cbn; try reflexivity; intros; split; auto using held_app, gval_app.
    - split; [|auto]. apply (make_follows m); try exact Fl; cbn; try reflexivity; intros; split; auto using held_app, gval_app.
    - split; [|auto]. apply (make_follows m); try exact Fl; cbn; try reflexivity; intros; split; auto using held_app, gval_app.
    - split; [|auto]. apply (make_follows m); try exact Fl; cbn; try reflexivity; intros; split; auto; rewrite ?app_length; cbn; try lia. now rewrite app_nth1.
  Qed.

  Lemma run_follows ops : forall m vs, written (length (m_objs m)) ops -> follows m vs -> follows (brun m ops) (vrun vs ops).
  Proof.
    induction ops as [|op ops IH]; intros m vs W Fl; [exact Fl|].
    assert (W1 : written (length (m_objs m)) [op]) by (destruct op; cbn [written] in *; tauto).
    destruct (step_follows m vs op _ eq_refl W1 Fl) as [Fl' E]. cbn [brun vrun fold_left].
    apply (IH (bstep m op) (vstep vs op)); [|exact Fl']. rewrite E. destruct op; cbn [written] in W; tauto.
  Qed.
  Lemma follows_zero : follows mem_zero [].
  Proof.
    split; [|split; [|split]].
    - intros q Hq. cbn in Hq. lia.
    - intros q Hq. cbn in Hq. lia.
    - reflexivity.
    - intros [|q] v E; discriminate.
  Qed.

  (** ** The last assignment wins *)
  Lemma bstep_objs m (op : bop F) : length (m_objs (bstep m op)) = match op with New _ => S (length (m_objs m)) | _ => length (m_objs m) end.
  Proof.
    destruct op as [k|p c|l sp|l sp|l|l]; cbn [bstep]; try reflexivity.
    - destruct k; cbn [construct]; cbn; rewrite app_length; cbn; lia.
    - apply call_objs.
  Qed.
  Lemma written_app pre : forall m r, written (length (m_objs m)) (pre ++ r) ->
    written (length (m_objs m)) pre /\ written (length (m_objs (brun m pre))) r.
  Proof.
    induction pre as [|op pre IH]; intros m r W; [split; [exact Logic.I | exact W]|]. cbn [app] in W.
    assert (W' : written (length (m_objs (bstep m op))) (pre ++ r)) by (rewrite bstep_objs; destruct op; cbn [written] in W; tauto).
    destruct (IH _ _ W') as [W1 W2]. split; [|exact W2]. rewrite bstep_objs in W1. destruct op; cbn [written] in *; tauto.
  Qed.
  Lemma assigned_none l a (x : aval F) : ~ In a (map fst l) -> assigned l a x = x.
  Proof.
    induction l as [|[b v] l IH]; intro H; [reflexivity|]. cbn [assigned]. destruct (attr_eq_dec b a) as [->|]; [destruct H; now left|]. apply IH. cbn in H. tauto.
  Qed.
  Lemma assigned_in c a v (x : aval F) : In (a, v) (assigns c) -> assigned (assigns c) a x = v.
  Proof. destruct c; cbn; intro H; repeat (destruct H as [H|H]; [injection H as <- <-; reflexivity|]); destruct H. Qed.

  Lemma keeps_attr rest a v p : forall vs, (forall c, In (Call p c) rest -> ~ In a (map fst (assigns c))) ->
    (exists w, nth_error vs p = Some w /\ b_plain w a = v) -> exists w, nth_error (vrun vs rest) p = Some w /\ b_plain w a = v.
  Proof.
    induction rest as [|op rest IH]; intros vs H (w & E & Ew); [eauto|]. cbn [vrun fold_left].
    apply IH; [intros c I; apply H; now right|].
    assert (Lp : p < length vs) by (apply nth_error_Some; congruence).
    destruct op as [k|q c|l sp|l sp|l|l]; cbn [vstep]; eauto.
    - exists w. now rewrite nth_error_app1.
    - destruct (Nat.eq_dec q p) as [->|N].
      + rewrite E, nth_error_mid, Nat.eqb_refl by exact Lp. eexists. split; [reflexivity|]. cbn. rewrite assigned_none; [exact Ew|]. apply H. now left.
      + exists w. split; [|exact Ew]. destruct (nth_error vs q) as [u|] eqn:Eu.
        * rewrite nth_error_mid by (apply nth_error_Some; congruence). destruct (Nat.eqb_spec p q); [congruence | exact E].
        * apply nth_error_None in Eu. cbn [app]. rewrite firstn_all2 by exact Eu. rewrite nth_error_app1 by exact Lp. exact E.
  Qed.
  Lemma last_wins pre p c rest a v : written 0 (pre ++ Call p c :: rest) -> In (a, v) (assigns c) ->
    (forall c', In (Call p c') rest -> ~ In a (map fst (assigns c'))) ->
    b_plain (view (brun mem_zero (pre ++ Call p c :: rest)) p) a = v.
  Proof.
    intros W I N. pose proof (run_follows _ mem_zero [] W follows_zero) as (_ & _ & _ & Vs).
    destruct (written_app pre mem_zero _ W) as [W1 W2].
    destruct (run_follows pre mem_zero [] W1 follows_zero) as (_ & _ & Len & _).
    assert (Lp : p < length (vrun [] pre)) by (cbn [written] in W2; lia).
    destruct (nth_error (vrun [] pre) p) as [u|] eqn:Eu; [|apply nth_error_None in Eu; lia].
    assert (X : exists w, nth_error (vrun [] (pre ++ Call p c :: rest)) p = Some w /\ b_plain w a = v).
    { unfold vrun. rewrite fold_left_app. cbn [fold_left]. apply keeps_attr; [exact N|]. fold (vrun [] pre). cbn [vstep]. rewrite Eu, nth_error_mid, Nat.eqb_refl by exact Lp.
      eexists. split; [reflexivity|]. cbn. now apply assigned_in. }
    destruct X as (w & Ew & Ea). destruct (Vs p w Ew) as (Ha & _). rewrite Ha. exact Ea.
  Qed.
End Run.
