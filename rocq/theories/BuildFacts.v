(** Proofs about the schema builders. *)
From Coq Require Import String List Bool Arith ZArith Lia.
From Verif Require Import GoStr Json Slices SliceFacts JsonText AnyJson Builders Spec_Build.
Import ListNotations.
Local Open Scope string_scope.
Local Open Scope nat_scope.
Local Open Scope list_scope.

(** ** Slices *)
Section Arrays.
  Context {A : Type}.
  Implicit Types (h : list (list A)) (s t : gsl) (l : list A).

  Lemma held_app h x t : held h t -> held (h ++ x) t.
  Proof. intros H a n E. destruct (H a n E) as [L M]. rewrite app_length, app_nth1 by exact L. split; [lia | exact M]. Qed.
  Lemma gval_app h x t : held h t -> gval (h ++ x) t = gval h t.
  Proof.
    intro H. destruct t as [[a n]|]; [|reflexivity]. unfold gval, gcells. destruct (H a n eq_refl) as [L _]. now rewrite app_nth1.
  Qed.
  Lemma galloc_spec h l spare : gval (fst (galloc h l spare)) (snd (galloc h l spare)) = l /\ held (fst (galloc h l spare)) (snd (galloc h l spare)).
  Proof.
    unfold galloc, gval, gcells, glen; cbn [fst snd]. rewrite app_nth2, Nat.sub_diag by lia. cbn [nth]. split.
    - now rewrite firstn_app, firstn_all, Nat.sub_diag, firstn_O, app_nil_r.
    - intros a n E. injection E as <- <-. rewrite app_length, app_nth2, Nat.sub_diag by lia. cbn. rewrite app_length. lia.
  Qed.
  Lemma pass_spec h (x : arg A) : sound_arg h x ->
    gval (fst (pass h x)) (snd (pass h x)) = lits (spell h x) /\ held (fst (pass h x)) (snd (pass h x)) /\
    (forall t, held h t -> held (fst (pass h x)) t /\ gval (fst (pass h x)) t = gval h t).
  Proof.
    destruct x as [[|y l]|s]; cbn [sound_arg pass spell lits].
    - intros _. cbn [fst snd]. split; [reflexivity|]. split; [intros a n E; discriminate | auto].
    - intros _. destruct (galloc_spec h (y :: l) []) as [E V]. split; [exact E|]. split; [exact V|].
      intros t T. split; [now apply held_app | now apply gval_app].
    - intro H. cbn [fst snd]. auto.
  Qed.
  Lemma gwrite_length i l c : i + length l <= length c -> length (gwrite i l c) = length c.
  Proof. intro H. unfold gwrite. rewrite !app_length, firstn_length, skipn_length. lia. Qed.
  Lemma gappend_spec spare h s l : held h s ->
    gval (fst (gappend spare h s l)) (snd (gappend spare h s l)) = gval h s ++ l /\ held (fst (gappend spare h s l)) (snd (gappend spare h s l)) /\
    (forall t, held h t -> held (fst (gappend spare h s l)) t) /\
    (forall t, held h t -> ~ overlap s t -> gval (fst (gappend spare h s l)) t = gval h t).
  Proof.
    intro H. unfold gappend. destruct (Nat.leb_spec (glen s + length l) (length (gcells h s))) as [Le|Gt].
    - destruct s as [[a n]|].
      + destruct (H a n eq_refl) as [L M]. cbn [glen gcells] in *. cbn [fst snd].
        assert (Len : length (gwrite n l (nth a h [])) = length (nth a h [])) by (now apply gwrite_length).
        assert (Held : forall t, held h t -> held (update a (gwrite n l) h) t).
        { intros t T b k E. destruct (T b k E) as [Lb Lk]. rewrite update_length, update_nth by exact L.
          split; [exact Lb|]. destruct (Nat.eqb_spec b a) as [->|]; [now rewrite Len | exact Lk]. }
        split; [|split; [|split]].
        * unfold gval, gcells, glen. rewrite update_nth, Nat.eqb_refl by exact L. unfold gwrite.
          rewrite app_assoc, firstn_app, app_length, firstn_length, Nat.min_l by lia.
          rewrite Nat.sub_diag, firstn_O, app_nil_r, firstn_all2; [reflexivity|]. rewrite app_length, firstn_length. lia.
        * intros b k E. injection E as <- <-. rewrite update_length, update_nth, Nat.eqb_refl, Len by exact L. split; [exact L | exact Le].
        * exact Held.
        * intros t T O. destruct t as [[b k]|]; [|reflexivity]. unfold gval, gcells, glen. rewrite update_nth by exact L.
          destruct (Nat.eqb_spec b a) as [->|]; [|reflexivity].
          destruct (Nat.le_gt_cases k n) as [Kn|Kn]; [|destruct O; exists a, n, k; auto].
          unfold gwrite. rewrite firstn_app, firstn_firstn, Nat.min_l by exact Kn. rewrite firstn_length, Nat.min_l by lia.
          replace (k - n) with 0 by lia. now rewrite firstn_O, app_nil_r.
      + cbn [glen gcells length] in Le. destruct l; [|cbn in Le; lia]. cbn [fst snd]. split; [reflexivity|]. split; [intros a n E; discriminate|]. auto.
    - destruct (galloc_spec h (gval h s ++ l) spare) as [E V]. split; [exact E|]. split; [exact V|].
      split; intros t T; [now apply held_app | intros _; now apply gval_app].
  Qed.
  (** Where the result lives: in the same array, or in a new one. *)
  Lemma gappend_where spare h s l a n : held h s -> snd (gappend spare h s l) = Some (a, n) -> (exists k, s = Some (a, k)) \/ a = length h.
  Proof.
    intro H. unfold gappend. destruct (_ <=? _).
    - destruct s as [[b k]|]; cbn [snd]; intro E; [injection E as <- <-; eauto | discriminate].
    - cbn [galloc snd]. intro E. injection E as <- <-. auto.
  Qed.
  Lemma pass_where h (l : list A) a n : snd (pass h (Lit l)) = Some (a, n) -> a = length h.
  Proof. destruct l; cbn; intro E; [discriminate | congruence]. Qed.
  Lemma pass_length h (x : arg A) : length h <= length (fst (pass h x)).
  Proof. destruct x as [[|y l]|s]; cbn [pass fst galloc]; rewrite ?app_length; lia. Qed.
  Lemma gappend_length spare h s l : length h <= length (fst (gappend spare h s l)).
  Proof. unfold gappend. destruct (_ <=? _); [destruct s as [[? ?]|]|]; cbn [fst galloc]; rewrite ?update_length, ?app_length; lia. Qed.
  Lemma spell_elems h (x : arg A) : lits (spell h x) = elems h x.
  Proof. destruct x; reflexivity. Qed.
End Arrays.

Local Arguments obj : simpl never.

Section Facts.
  Context {F : Type}.
  Implicit Types (m : memory F) (o : sobj F) (c : bcall F).

  Lemma nth_snoc {A} (l : list A) x d : nth (length l) (l ++ [x]) d = x.
  Proof. now rewrite app_nth2, Nat.sub_diag by lia. Qed.

  Lemma obj_on m p f q : p < length (m_objs m) -> obj (on p f m) q = if q =? p then f (obj m q) else obj m q.
  Proof. intro H. unfold obj, on, set_objs. cbn [m_objs]. now apply update_nth. Qed.
  Lemma objs_on m p f : length (m_objs (on p f m)) = length (m_objs m).
  Proof. unfold on, set_objs. cbn [m_objs]. apply update_length. Qed.

  Lemma nth_update_other {A} i (f : A -> A) l j d : i < length l -> j <> i -> nth j (update i f l) d = nth j l d.
  Proof. intros H N. rewrite update_nth by exact H. destruct (Nat.eqb_spec j i); congruence. Qed.
  Lemma nth_update_same {A} i (f : A -> A) l d : i < length l -> nth i (update i f l) d = f (nth i l d).
  Proof. intro H. now rewrite update_nth, Nat.eqb_refl by exact H. Qed.

  Lemma same_refl (v : obs F) : same v v.
  Proof. repeat split. Qed.

  Lemma call_objs m p c : length (m_objs (call p c m)) = length (m_objs m).
  Proof.
    assert (X : forall f, length (m_objs (on_xml p f m)) = length (m_objs m)).
    { intro f. unfold on_xml. destruct (o_xml (obj m p)); [reflexivity | now rewrite objs_on]. }
    destruct c; cbn [call]; rewrite ?objs_on; try reflexivity; try (apply X).
    - destruct (o_props (obj m p)); [reflexivity | now rewrite objs_on].
    - destruct (_ && _); [now rewrite objs_on|]. destruct (o_docs (obj m p)); [reflexivity | now rewrite objs_on].
  Qed.

  Lemma below_none {A} (l : list A) : below l None.
  Proof. intros k E. discriminate. Qed.
  Lemma below_some {A} (l : list A) i : i < length l -> below l (Some i).
  Proof. intros H k E. injection E as <-. exact H. Qed.

  Definition call_ok m p c : Prop :=
    sound (call p c m) /\
    (~ own_sharing m p c -> same (view (call p c m) p) (after (spelled m c) (view m p))) /\
    (forall q, q < length (m_objs m) -> q <> p -> ~ sharing m p c q -> same (view (call p c m) q) (view m q)).

  Section One.
    Context (m : memory F) (p : nat) (Hs : sound m) (Hp : p < length (m_objs m)).

    (** Assignments to the receiver's own fields. *)
    Lemma on_sound f : (forall o, held_obj m o -> held_obj m (f o)) -> sound (on p f m).
    Proof.
      intros Hf q Lq. rewrite objs_on in Lq. rewrite obj_on by exact Hp. specialize (Hs q Lq).
      destruct (q =? p); [apply Hf|]; exact Hs.
    Qed.
    Lemma on_other f q : q <> p -> same (view (on p f m) q) (view m q).
    Proof. intro N. unfold view. rewrite obj_on by exact Hp. destruct (Nat.eqb_spec q p); [contradiction|]. apply same_refl. Qed.

    Lemma put_held a v o : held_obj m o -> held_obj m (put a v o).
    Proof. exact (fun H => H). Qed.

    (** The stores after a call in which only one of them changed. *)
    Lemma plain_call c f :
      call p c m = on p f m -> (forall o, held_obj m o -> held_obj m (f o)) ->
      same (view (on p f m) p) (after (spelled m c) (view m p)) -> call_ok m p c.
    Proof.
      intros E Hf V. unfold call_ok. rewrite E. split; [now apply on_sound|]. split; [auto|]. intros q _ N _. now apply on_other.
    Qed.

    Ltac plain := eapply plain_call; [reflexivity | intros o H; exact H |
      unfold view; rewrite obj_on, Nat.eqb_refl by exact Hp; repeat split; cbn; try reflexivity; intros []; reflexivity].

    Lemma required_call h' s' c :
      call p c m = on p (put_required s') (set_strs h' m) -> held h' s' -> (forall t, held (m_strs m) t -> held h' t) ->
      (forall a, assigned (assigns (spelled m c)) a (o_plain (obj m p) a) = o_plain (obj m p) a) ->
      after (spelled m c) (view m p) = {| b_plain := b_plain (after (spelled m c) (view m p)); b_required := gval h' s'; b_allof := b_allof (view m p); b_oneof := b_oneof (view m p);
        b_anyof := b_anyof (view m p); b_enum := b_enum (view m p); b_not := b_not (view m p); b_items := b_items (view m p); b_addl := b_addl (view m p);
        b_props := b_props (view m p); b_docs := b_docs (view m p); b_xml := b_xml (view m p) |} ->
      (forall q, q < length (m_objs m) -> q <> p -> ~ sharing m p c q -> gval h' (o_required (obj m q)) = gval (m_strs m) (o_required (obj m q))) ->
      call_ok m p c.
    Proof.
      intros E V K As Af O. unfold call_ok. rewrite E.
      assert (Hp' : p < length (m_objs (set_strs h' m))) by exact Hp.
      split; [|split].
      - intros q Lq. rewrite objs_on in Lq. rewrite obj_on by exact Hp'. destruct (Hs q Lq) as (H1 & H2 & H3 & H4 & H5 & H6 & H7 & H8).
        change (obj (set_strs h' m) q) with (obj m q). destruct (q =? p); unfold held_obj; cbn; auto 12.
      - intros _. rewrite Af. unfold view at 1. rewrite obj_on, Nat.eqb_refl by exact Hp'. repeat split; cbn. intro a. symmetry. apply As.
      - intros q Lq N Sh. unfold view. rewrite obj_on by exact Hp'. destruct (Nat.eqb_spec q p); [contradiction|].
        change (obj (set_strs h' m) q) with (obj m q). repeat split. cbn. now apply O.
    Qed.
    Lemma allof_call h' s' c :
      call p c m = on p (put_allof s') (set_refs h' m) -> held h' s' -> (forall t, held (m_refs m) t -> held h' t) ->
      (forall a, assigned (assigns (spelled m c)) a (o_plain (obj m p) a) = o_plain (obj m p) a) ->
      after (spelled m c) (view m p) = {| b_plain := b_plain (after (spelled m c) (view m p)); b_required := b_required (view m p); b_allof := gval h' s'; b_oneof := b_oneof (view m p);
        b_anyof := b_anyof (view m p); b_enum := b_enum (view m p); b_not := b_not (view m p); b_items := b_items (view m p); b_addl := b_addl (view m p);
        b_props := b_props (view m p); b_docs := b_docs (view m p); b_xml := b_xml (view m p) |} ->
      (~ own_sharing m p c -> gval h' (o_oneof (obj m p)) = gval (m_refs m) (o_oneof (obj m p)) /\ gval h' (o_anyof (obj m p)) = gval (m_refs m) (o_anyof (obj m p))) ->
      (forall q, q < length (m_objs m) -> q <> p -> ~ sharing m p c q ->
         gval h' (o_allof (obj m q)) = gval (m_refs m) (o_allof (obj m q)) /\ gval h' (o_oneof (obj m q)) = gval (m_refs m) (o_oneof (obj m q)) /\
         gval h' (o_anyof (obj m q)) = gval (m_refs m) (o_anyof (obj m q))) ->
      call_ok m p c.
    Proof.
      intros E V K As Af Ow O. unfold call_ok. rewrite E.
      assert (Hp' : p < length (m_objs (set_refs h' m))) by exact Hp.
      split; [|split].
      - intros q Lq. rewrite objs_on in Lq. rewrite obj_on by exact Hp'. destruct (Hs q Lq) as (H1 & H2 & H3 & H4 & H5 & H6 & H7 & H8).
        change (obj (set_refs h' m) q) with (obj m q). destruct (q =? p); unfold held_obj; cbn; auto 12.
      - intro N. destruct (Ow N) as [Q1 Q2]. rewrite Af. unfold view at 1. rewrite obj_on, Nat.eqb_refl by exact Hp'. repeat split; cbn; auto.
      - intros q Lq N Sh. destruct (O q Lq N Sh) as (Q1 & Q2 & Q3). unfold view. rewrite obj_on by exact Hp'. destruct (Nat.eqb_spec q p); [contradiction|].
        change (obj (set_refs h' m) q) with (obj m q). repeat split; cbn; assumption.
    Qed.

    Lemma on_xml_call c f :
      call p c m = on_xml p f m -> spelled m c = c ->
      (forall q, (exists i, o_xml (obj m p) = Some i /\ o_xml (obj m q) = Some i) -> sharing m p c q) ->
      after c (view m p) = {| b_plain := b_plain (view m p); b_required := b_required (view m p); b_allof := b_allof (view m p); b_oneof := b_oneof (view m p);
        b_anyof := b_anyof (view m p); b_enum := b_enum (view m p); b_not := b_not (view m p); b_items := b_items (view m p); b_addl := b_addl (view m p);
        b_props := b_props (view m p); b_docs := b_docs (view m p); b_xml := Some (f (xml_or (b_xml (view m p)))) |} ->
      call_ok m p c.
    Proof.
      intros E Sp Sh Af. unfold call_ok. rewrite E, Sp, Af. unfold on_xml. destruct (Hs p Hp) as (_ & _ & _ & _ & _ & _ & _ & Hx).
      destruct (o_xml (obj m p)) as [i|] eqn:Ex.
      - specialize (Hx i eq_refl). split; [|split].
        + intros q Lq. cbn in Lq. destruct (Hs q Lq) as (H1 & H2 & H3 & H4 & H5 & H6 & H7 & H8).
          change (obj (set_xml (update i f (m_xml m)) m) q) with (obj m q). refine (conj _ (conj _ (conj _ (conj _ (conj _ (conj _ (conj _ _))))))); try assumption. cbn. intros k Ek. rewrite update_length. auto.
        + intros _. repeat split. cbn. change (obj (set_xml (update i f (m_xml m)) m) p) with (obj m p). rewrite Ex. cbn. now rewrite nth_update_same.
        + intros q Lq N Nsh. repeat split. cbn. change (obj (set_xml (update i f (m_xml m)) m) q) with (obj m q).
          destruct (o_xml (obj m q)) as [k|] eqn:Ek; [|reflexivity]. cbn. rewrite nth_update_other; [reflexivity | exact Hx |].
          intros ->. apply Nsh, Sh. exists i. auto.
      - assert (Hp' : p < length (m_objs (set_xml (m_xml m ++ [f xml_zero]) m))) by exact Hp.
        split; [|split].
        + intros q Lq. rewrite objs_on in Lq. rewrite obj_on by exact Hp'. destruct (Hs q Lq) as (H1 & H2 & H3 & H4 & H5 & H6 & H7 & H8).
          change (obj (set_xml (m_xml m ++ [f xml_zero]) m) q) with (obj m q).
          destruct (q =? p); refine (conj _ (conj _ (conj _ (conj _ (conj _ (conj _ (conj _ _))))))); try assumption; cbn; intros k Ek; rewrite app_length; cbn.
          * injection Ek as <-. lia.
          * specialize (H8 k Ek). lia.
        + intros _. unfold view at 1. rewrite obj_on, Nat.eqb_refl by exact Hp'. repeat split. cbn. rewrite nth_snoc, Ex. reflexivity.
        + intros q Lq N _. unfold view. rewrite obj_on by exact Hp'. destruct (Nat.eqb_spec q p); [contradiction|].
          change (obj (set_xml (m_xml m ++ [f xml_zero]) m) q) with (obj m q). repeat split. cbn.
          destruct (Hs q Lq) as (H1 & H2 & H3 & H4 & H5 & H6 & H7 & H8).
          destruct (o_xml (obj m q)) as [k|] eqn:Ek; [|reflexivity]. cbn. now rewrite app_nth1 by auto.
    Qed.

    Lemma call_spec c : sound_call m c -> call_ok m p c.
    Proof.
      intro Sc. destruct (Hs p Hp) as (P1 & P2 & P3 & P4 & P5 & P6 & P7 & P8).
      assert (Hq : forall q, q < length (m_objs m) -> held_obj m (obj m q)) by exact Hs.
      destruct c as [s|s|mp|l|name x|x|z|z|t f|f|a|x|sp x|z|z|s|f|f b|f b|x|z|z| | |sp x| | |a|d u|s|s|s| | | | ]; try plain.
      - (* WithProperties *)
        cbn [sound_call] in Sc. eapply plain_call; [reflexivity | |].
        + intros o (H1 & H2 & H3 & H4 & H5 & H6 & H7 & H8). unfold held_obj; cbn; auto 12.
        + unfold view; rewrite obj_on, Nat.eqb_refl by exact Hp. destruct mp as [i|]; repeat split; cbn; reflexivity.
      - (* WithNewProperties *)
        assert (Hp' : p < length (m_objs (set_maps (m_maps m ++ [l]) m))) by exact Hp.
        unfold call_ok. cbn [call]. split; [|split].
        + intros q Lq. rewrite objs_on in Lq. rewrite obj_on by exact Hp'. destruct (Hs q Lq) as (H1 & H2 & H3 & H4 & H5 & H6 & H7 & H8).
          change (obj (set_maps (m_maps m ++ [l]) m) q) with (obj m q).
          destruct (q =? p); refine (conj _ (conj _ (conj _ (conj _ (conj _ (conj _ (conj _ _))))))); try assumption; cbn; intros k Ek; rewrite app_length; cbn.
          * injection Ek as <-. lia.
          * specialize (H6 k Ek). lia.
        + intros _. unfold view at 1. rewrite obj_on, Nat.eqb_refl by exact Hp'. repeat split. cbn. now rewrite nth_snoc.
        + intros q Lq N _. unfold view. rewrite obj_on by exact Hp'. destruct (Nat.eqb_spec q p); [contradiction|].
          change (obj (set_maps (m_maps m ++ [l]) m) q) with (obj m q). repeat split. cbn.
          destruct (Hs q Lq) as (H1 & H2 & H3 & H4 & H5 & H6 & H7 & H8).
          destruct (o_props (obj m q)) as [k|] eqn:Ek; [|reflexivity]. cbn. now rewrite app_nth1 by auto.
      - (* WithProperty *)
        unfold call_ok. cbn [call]. destruct (o_props (obj m p)) as [i|] eqn:Ep.
        + specialize (P6 i eq_refl). split; [|split].
          * intros q Lq. cbn in Lq. destruct (Hs q Lq) as (H1 & H2 & H3 & H4 & H5 & H6 & H7 & H8).
            change (obj (set_maps (update i (oset name x) (m_maps m)) m) q) with (obj m q). refine (conj _ (conj _ (conj _ (conj _ (conj _ (conj _ (conj _ _))))))); try assumption. cbn. intros k Ek. rewrite update_length. auto.
          * intros _. repeat split. cbn. change (obj (set_maps (update i (oset name x) (m_maps m)) m) p) with (obj m p). rewrite Ep. cbn. now rewrite nth_update_same.
          * intros q Lq N Nsh. repeat split. cbn. change (obj (set_maps (update i (oset name x) (m_maps m)) m) q) with (obj m q).
            destruct (o_props (obj m q)) as [k|] eqn:Ek; [|reflexivity]. cbn. rewrite nth_update_other; [reflexivity | exact P6 |].
            intros ->. apply Nsh. exists i. auto.
        + assert (Hp' : p < length (m_objs (set_maps (m_maps m ++ [oset name x []]) m))) by exact Hp.
          split; [|split].
          * intros q Lq. rewrite objs_on in Lq. rewrite obj_on by exact Hp'. destruct (Hs q Lq) as (H1 & H2 & H3 & H4 & H5 & H6 & H7 & H8).
            change (obj (set_maps (m_maps m ++ [oset name x []]) m) q) with (obj m q).
            destruct (q =? p); refine (conj _ (conj _ (conj _ (conj _ (conj _ (conj _ (conj _ _))))))); try assumption; cbn [on set_objs set_maps m_maps put_props o_props]; intros k Ek; rewrite app_length; cbn [length].
            { injection Ek as <-. lia. }
            { specialize (H6 k Ek). lia. }
          * intros _. unfold view at 1. rewrite obj_on, Nat.eqb_refl by exact Hp'. repeat split. cbn [view b_props after spelled put_props o_props set_maps m_maps option_map on set_objs].
            rewrite nth_snoc, Ep. reflexivity.
          * intros q Lq N _. unfold view. rewrite obj_on by exact Hp'. destruct (Nat.eqb_spec q p); [contradiction|].
            change (obj (set_maps (m_maps m ++ [oset name x []]) m) q) with (obj m q). repeat split. cbn [b_props set_maps m_maps on set_objs].
            destruct (Hs q Lq) as (H1 & H2 & H3 & H4 & H5 & H6 & H7 & H8).
            destruct (o_props (obj m q)) as [k|] eqn:Ek; [|reflexivity]. cbn [option_map]. now rewrite app_nth1 by auto.
      - (* WithAllOf *)
        cbn [sound_call] in Sc. destruct (pass_spec (m_refs m) x Sc) as (G & V & K).
        eapply (allof_call (fst (pass (m_refs m) x)) (snd (pass (m_refs m) x))); [reflexivity | exact V | intros t T; apply K, T | reflexivity | | |].
        + rewrite G. reflexivity.
        + intros _. split; now apply K.
        + intros q Lq N _. destruct (Hs q Lq) as (H1 & H2 & H3 & H4 & _). repeat split; now apply K.
      - (* WithRequired *)
        cbn [sound_call] in Sc. destruct (pass_spec (m_strs m) x Sc) as (G & V & K).
        eapply (required_call (fst (pass (m_strs m) x)) (snd (pass (m_strs m) x))); [reflexivity | exact V | intros t T; apply K, T | reflexivity | |].
        + rewrite G. reflexivity.
        + intros q Lq N _. destruct (Hs q Lq) as (H1 & _). now apply K.
      - (* AddRequired *)
        cbn [sound_call] in Sc. destruct (gappend_spec sp (m_strs m) (o_required (obj m p)) (elems (m_strs m) x) P1) as (G & V & K & K2).
        eapply (required_call (fst (gappend sp (m_strs m) (o_required (obj m p)) (elems (m_strs m) x))) (snd (gappend sp (m_strs m) (o_required (obj m p)) (elems (m_strs m) x))));
          [reflexivity | exact V | exact K | reflexivity | |].
        + rewrite G. rewrite <- spell_elems. reflexivity.
        + intros q Lq N Sh. destruct (Hs q Lq) as (H1 & _). now apply K2.
      - (* WithEnum *)
        cbn [sound_call] in Sc. destruct (pass_spec (m_anys m) x Sc) as (G & V & K). unfold call_ok. cbn [call].
        set (h' := fst (pass (m_anys m) x)) in *. set (s' := snd (pass (m_anys m) x)) in *. cbv zeta. fold h' s'.
        assert (Hp' : p < length (m_objs (set_anys h' m))) by exact Hp.
        split; [|split].
        + intros q Lq. rewrite objs_on in Lq. rewrite obj_on by exact Hp'. destruct (Hs q Lq) as (H1 & H2 & H3 & H4 & H5 & H6 & H7 & H8).
          change (obj (set_anys h' m) q) with (obj m q). destruct (K _ H5) as [K5 _]. destruct (q =? p); unfold held_obj; cbn; auto 12.
        + intros _. unfold view at 1. rewrite obj_on, Nat.eqb_refl by exact Hp'. repeat split. cbn. exact G.
        + intros q Lq N _. destruct (Hs q Lq) as (_ & _ & _ & _ & H5 & _). destruct (K _ H5) as [_ K5]. unfold view. rewrite obj_on by exact Hp'. destruct (Nat.eqb_spec q p); [contradiction|].
          change (obj (set_anys h' m) q) with (obj m q). repeat split. cbn. exact K5.
      - (* AddToAllOf *)
        cbn [sound_call] in Sc. destruct (gappend_spec sp (m_refs m) (o_allof (obj m p)) (elems (m_refs m) x) P2) as (G & V & K & K2).
        eapply (allof_call (fst (gappend sp (m_refs m) (o_allof (obj m p)) (elems (m_refs m) x))) (snd (gappend sp (m_refs m) (o_allof (obj m p)) (elems (m_refs m) x))));
          [reflexivity | exact V | exact K | reflexivity | | |].
        + rewrite G. rewrite <- spell_elems. reflexivity.
        + cbn [own_sharing]. intro N. split; apply K2; tauto.
        + intros q Lq N Sh. cbn [sharing] in Sh. destruct (Hs q Lq) as (H1 & H2 & H3 & H4 & _). repeat split; apply K2; tauto.
      - (* WithExternalDocs *)
        unfold call_ok. cbn [call spelled].
        assert (Af : String.eqb d "" && String.eqb u "" = false -> b_docs (after (WithExternalDocs d u) (view m p)) = Some (d, u)).
        { destruct d; [|reflexivity]. destruct u; [discriminate | reflexivity]. }
        destruct (String.eqb d "" && String.eqb u "") eqn:Ee.
        + apply andb_prop in Ee. destruct Ee as [Ed Eu]. apply String.eqb_eq in Ed, Eu. subst d u.
          split; [|split].
          * apply on_sound. intros o (H1 & H2 & H3 & H4 & H5 & H6 & H7 & H8). refine (conj _ (conj _ (conj _ (conj _ (conj _ (conj _ (conj _ _))))))); try assumption. apply below_none.
          * intros _. unfold view; rewrite obj_on, Nat.eqb_refl by exact Hp. repeat split.
          * intros q _ N _. now apply on_other.
        + specialize (Af eq_refl). destruct (o_docs (obj m p)) as [i|] eqn:Ep.
          * specialize (P7 i eq_refl). split; [|split].
            { intros q Lq. cbn in Lq. destruct (Hs q Lq) as (H1 & H2 & H3 & H4 & H5 & H6 & H7 & H8).
              change (obj (set_docs (update i (fun _ => (d, u)) (m_docs m)) m) q) with (obj m q). refine (conj _ (conj _ (conj _ (conj _ (conj _ (conj _ (conj _ _))))))); try assumption. cbn. intros k Ek. rewrite update_length. auto. }
            { intros _. repeat split. rewrite Af. cbn. change (obj (set_docs (update i (fun _ => (d, u)) (m_docs m)) m) p) with (obj m p). rewrite Ep. cbn. now rewrite nth_update_same. }
            { intros q Lq N Nsh. repeat split. cbn. change (obj (set_docs (update i (fun _ => (d, u)) (m_docs m)) m) q) with (obj m q).
              destruct (o_docs (obj m q)) as [k|] eqn:Ek; [|reflexivity]. cbn. rewrite nth_update_other; [reflexivity | exact P7 |].
              intros ->. apply Nsh. exists i. auto. }
          * assert (Hp' : p < length (m_objs (set_docs (m_docs m ++ [(d, u)]) m))) by exact Hp.
            split; [|split].
            { intros q Lq. rewrite objs_on in Lq. rewrite obj_on by exact Hp'. destruct (Hs q Lq) as (H1 & H2 & H3 & H4 & H5 & H6 & H7 & H8).
              change (obj (set_docs (m_docs m ++ [(d, u)]) m) q) with (obj m q).
              destruct (q =? p); refine (conj _ (conj _ (conj _ (conj _ (conj _ (conj _ (conj _ _))))))); try assumption; cbn; intros k Ek; rewrite app_length; cbn.
              - injection Ek as <-. lia.
              - specialize (H7 k Ek). lia. }
            { intros _. unfold view at 1. rewrite obj_on, Nat.eqb_refl by exact Hp'. repeat split. rewrite Af. cbn. now rewrite nth_snoc. }
            { intros q Lq N _. unfold view. rewrite obj_on by exact Hp'. destruct (Nat.eqb_spec q p); [contradiction|].
              change (obj (set_docs (m_docs m ++ [(d, u)]) m) q) with (obj m q). repeat split. cbn.
              destruct (Hs q Lq) as (H1 & H2 & H3 & H4 & H5 & H6 & H7 & H8).
              destruct (o_docs (obj m q)) as [k|] eqn:Ek; [|reflexivity]. cbn. now rewrite app_nth1 by auto. }
      - eapply on_xml_call; [reflexivity | reflexivity | intros q H; exact H | reflexivity].
      - eapply on_xml_call; [reflexivity | reflexivity | intros q H; exact H | reflexivity].
      - eapply on_xml_call; [reflexivity | reflexivity | intros q H; exact H | reflexivity].
      - eapply on_xml_call; [reflexivity | reflexivity | intros q H; exact H | reflexivity].
      - eapply on_xml_call; [reflexivity | reflexivity | intros q H; exact H | reflexivity].
      - eapply on_xml_call; [reflexivity | reflexivity | intros q H; exact H | reflexivity].
      - eapply on_xml_call; [reflexivity | reflexivity | intros q H; exact H | reflexivity].
    Qed.
  End One.
End Facts.
