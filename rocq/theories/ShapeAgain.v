(** Reading what was written. *)
From Coq Require Import String Ascii List Bool Arith ZArith Lia.
From Verif Require Import GoStr Json JsonFacts Gabs Container MergeFacts Spec_Clone CloneFacts Url Pointer SchemaJson SchemaJsonFacts SchemaJsonApi Spec_Loc LocFacts Spec_Format Shape Spec_Shape ShapeFacts ShapeApi Spec_Again.
Import ListNotations.
Local Open Scope string_scope.
Local Open Scope nat_scope.
Local Open Scope list_scope.

(** ** Integers *)
Definition canonical (m e : Z) : Prop := (0 <= e)%Z /\ ((m = 0 /\ e = 0)%Z \/ Z.odd m = true).
Lemma canonical_eq m e m' e' : canonical m e -> canonical m' e' -> (m * 2 ^ e = m' * 2 ^ e')%Z -> m = m' /\ e = e'.
Proof.
  assert (W : forall m e m' e', canonical m e -> canonical m' e' -> (m * 2 ^ e = m' * 2 ^ e')%Z -> (e <= e')%Z -> m = m' /\ e = e').
  { clear. intros m e m' e' [He C] [He' C'] E L. assert (0 < 2 ^ e)%Z by (apply Z.pow_pos_nonneg; lia). assert (0 < 2 ^ e')%Z by (apply Z.pow_pos_nonneg; lia).
    destruct C as [[-> ->]|C].
    - destruct C' as [[-> ->]|C']; [auto|]. exfalso. assert (m' = 0)%Z by nia. subst. discriminate.
    - destruct C' as [[-> ->]|C']; [exfalso; assert (m = 0)%Z by nia; subst; discriminate|].
      replace e' with (e + (e' - e))%Z in E by lia. rewrite Z.pow_add_r in E by lia.
      assert (m = m' * 2 ^ (e' - e))%Z by nia. destruct (Z.eq_dec e e') as [->|N]; [split; [|reflexivity]; rewrite Z.sub_diag in *; lia|]. exfalso.
      subst m. rewrite Z.odd_mul, Z.odd_pow in C by lia. cbn in C. now rewrite andb_false_r in C. }
  intros C C' E. destruct (Z.le_ge_cases e e') as [L|L]; [exact (W _ _ _ _ C C' E L)|]. destruct (W _ _ _ _ C' C (eq_sym E) L). auto.
Qed.
Lemma to_float_canonical z : exists m e, to_float z = NFlt m e /\ canonical m e.
Proof.
  unfold to_float. set (k := Z.max 0 (Z.log2 (Z.abs z) - 52)). assert (0 <= k)%Z as Hk by (unfold k; lia).
  set (x := (Z.sgn z * round_even (Z.abs z) k)%Z). destruct (flt_spec x k Hk) as (m & e & Ef & He & Hme & _ & Hodd). exists m, e. split; [exact Ef|]. split; [exact He|].
  destruct Hodd as [->|]; [|auto]. left. split; [reflexivity|]. assert (0 < 2 ^ k)%Z by (apply Z.pow_pos_nonneg; lia). assert (x = 0)%Z as Ex by nia. rewrite Ex in Ef. cbn in Ef. congruence.
Qed.
Lemma float_again big z : reads_back big -> int64_number big (to_float z) -> exists z', int_of big (to_float z) = Some z' /\ to_float z' = to_float z.
Proof.
  intros Hb W. destruct (to_float_canonical z) as (m & e & E & C). rewrite E in *. apply whole_iff in W as (z' & Hz'). exists z'. split; [exact Hz'|].
  assert (V : exists m' e', to_float z' = NFlt m' e' /\ (m' * 2 ^ e' = m * 2 ^ e)%Z).
  { unfold int_of in Hz'. destruct (Z.leb_spec 0 e); [|discriminate]. destruct (Z.leb_spec (Z.abs (m * 2 ^ e)) (2 ^ 53)) as [L|L].
    - injection Hz' as <-. destruct (to_float_nearest (m * 2 ^ e)) as (m' & e' & E' & _ & X). exists m', e'. auto.
    - destruct (Hb _ _ Hz') as (m' & e' & E' & _ & X). eauto. }
  destruct V as (m' & e' & E' & V). destruct (to_float_canonical z') as (m2 & e2 & E2 & C2). assert (m2 = m' /\ e2 = e') as [-> ->] by (split; congruence).
  destruct (canonical_eq _ _ _ _ C2 C V) as [-> ->]. exact E'.
Qed.

(** ** Kinds of fields *)
Definition not_val (s : shape) : bool := match s with SVal _ => false | _ => true end.
Lemma no_val t f : In f (fields t) -> not_val (f_shape f) = true.
Proof. assert (H : forallb (fun f => not_val (f_shape f)) (fields t) = true) by (destruct t; reflexivity). rewrite forallb_forall in H. apply H. Qed.
Definition is_union (s : shape) : bool := match s with SUnion => true | _ => false end.
Lemma union_field t f : In f (fields t) -> f_shape f = SUnion -> t = TLink /\ f_name f = "requestBody".
Proof.
  intros I E. assert (H : forallb (fun f => negb (is_union (f_shape f)) || (match t with TLink => true | _ => false end && String.eqb (f_name f) "requestBody")) (fields t) = true) by (destruct t; reflexivity).
  rewrite forallb_forall in H. specialize (H f I). rewrite E in H. cbn in H. apply andb_true_iff in H as [H1 H2]. apply String.eqb_eq in H2. destruct t; try discriminate. auto.
Qed.
Lemma same_field t k f g : In f (fields t) -> In g (fields t) -> f_name g = k -> same_name k (f_name f) -> f = g.
Proof.
  intros If Ig <- S. pose proof (fields_nodup t) as N. rewrite map_map in N. symmetry. exact (nodup_map_inj _ _ _ _ N Ig If S).
Qed.

Section Again.
Context (raw : json -> string) (big : Z -> option Z) (Hbig : reads_back big).
Local Notation decode := (decode raw big).
Local Notation each := (each raw big).

(** ** Emptiness *)
Lemma empty_read x s v : decode x s = Ok v -> is_empty v = true ->
  (x = JNull /\ s <> SAny /\ not_val s = true) \/ (s = SText /\ x = JStr "") \/ (s = SBool /\ x = JBool false) \/ (exists s', s = SList s' /\ x = JArr []) \/ (exists s', s = SMap s' /\ x = JObj []).
Proof.
  intros D M. destruct x as [|b|n|t|l|m].
  - left. destruct s; cbn in D; injection D as <-; cbn in M; try discriminate; repeat split; try discriminate; reflexivity.
  - destruct s; cbn in D; try discriminate; try (injection D as <-; cbn in M; try discriminate).
    + destruct b; [discriminate|]. auto 6.
    + apply bind_ok in D as (p & _ & D). injection D as <-. discriminate.
  - destruct s; cbn in D; try discriminate; try (injection D as <-; cbn in M; try discriminate).
    + destruct (int_of big n); [|discriminate]. injection D as <-. discriminate.
    + destruct n; try discriminate; injection D as <-; discriminate.
    + apply bind_ok in D as (p & _ & D). injection D as <-. discriminate.
  - destruct s; cbn in D; try discriminate; try (injection D as <-; cbn in M; try discriminate).
    + destruct t; [|discriminate]. auto.
    + apply bind_ok in D as (p & _ & D). injection D as <-. discriminate.
  - destruct s; try (cbn in D; discriminate).
    + cbn in D. injection D as <-. discriminate.
    + cbn in D. apply bind_ok in D as (p & _ & D). injection D as <-. discriminate.
    + cbn in D. injection D as <-. discriminate.
    + rewrite dec_list in D. apply bind_ok in D as (vs & Hvs & D). injection D as <-. destruct vs; [|discriminate]. apply elems_ok in Hvs. inversion Hvs; subst. right. right. right. left. eauto.
  - destruct s; try (cbn in D; discriminate).
    + cbn in D. injection D as <-. discriminate.
    + cbn in D. apply bind_ok in D as (p & _ & D). injection D as <-. discriminate.
    + cbn in D. injection D as <-. discriminate.
    + apply call_obj in D as [(p & ->)|(vs & ->)]; discriminate.
    + rewrite dec_ptr in D. apply bind_ok in D as (vs & Hvs & D). injection D as <-. discriminate.
    + rewrite dec_val in D. apply bind_ok in D as (vs & Hvs & D). injection D as <-. discriminate.
    + rewrite dec_map in D. apply bind_ok in D as (vs & Hvs & D). injection D as <-. destruct vs; [|discriminate]. destruct (each_in _ _ _ _ _ Hvs) as (A & _). destruct m as [|[k x] m]; [|destruct (A k x s (or_introl eq_refl) eq_refl) as (v & [] & _)].
      right. right. right. right. eauto.
Qed.
Lemma obj_of_nil {A} (l : list (string * A)) : obj_of l = [] -> l = [].
Proof.
  destruct l as [|[k v] l]; [reflexivity|]. intro E. assert (H : oget k (obj_of ((k, v) :: l)) = Some v) by (rewrite oget_obj_of; cbn; now rewrite String.eqb_refl).
  rewrite E in H. discriminate.
Qed.
Lemma full_written x s v y : decode x s = Ok v -> encode v = Ok y -> is_empty v = false ->
  (y = JNull -> s = SAny \/ s = SUnion \/ not_val s = false) /\ (s = SText -> y <> JStr "") /\ (s = SBool -> y <> JBool false) /\ (forall s', s = SList s' -> y <> JArr []) /\ (forall s', s = SMap s' -> y <> JObj []).
Proof.
  intros D E M. pose proof (head raw big Hbig _ _ _ _ D E) as H.
  refine (conj _ (conj _ (conj _ (conj _ _)))).
  - intros ->. destruct x as [|b|n|t|l|m].
    + destruct s; cbn in D; injection D as <-; try discriminate; auto.
    + destruct s; cbn in H; try contradiction; try discriminate; auto. destruct H as (p & H). discriminate.
    + destruct s; cbn in H; try contradiction; try discriminate; auto.
      * destruct H as (n' & H & _). discriminate.
      * destruct n; try (destruct H as (? & ? & H & _)); discriminate.
      * destruct H as (p & H). discriminate.
    + destruct s; cbn in H; try contradiction; try discriminate; auto. destruct H as (p & _ & _ & H). discriminate.
    + destruct s; cbn in H; try contradiction; try discriminate; auto; [destruct H as (p & H) | destruct H as (p & H & _)]; discriminate.
    + destruct s; cbn in H; try contradiction; try discriminate; auto; try (destruct H as (p & H); discriminate). destruct H as (p & H & _). discriminate.
  - intros -> ->. destruct x; cbn in D; try discriminate; injection D as <-; [discriminate|]. cbn in E. injection E as ->. discriminate.
  - intros -> ->. destruct x; cbn in D; try discriminate; injection D as <-; [discriminate|]. cbn in E. injection E as ->. discriminate.
  - intros s' -> ->. destruct x; try discriminate; try (cbn in D; discriminate). cbn in H. destruct H as (l' & [= <-] & H). destruct l; [|discriminate].
    rewrite dec_list in D. cbn in D. injection D as <-. discriminate.
  - intros s' -> ->. destruct x; try discriminate; try (cbn in D; discriminate). 
    rewrite dec_map in D. apply bind_ok in D as (vs & Hvs & D). injection D as <-. rewrite enc_gmap in E. apply bind_ok in E as (js & Hjs & E).
    assert (obj_of js = []) as E' by congruence. apply obj_of_nil in E'. subst. apply enc_map_ok in Hjs. inversion Hjs; subst. discriminate.
Qed.
(** What is not empty is not empty when it is read again. *)
Lemma full_again x s v y v' : decode x s = Ok v -> encode v = Ok y -> is_empty v = false -> decode y s = Ok v' -> is_empty v' = false \/ (s = SUnion /\ y = JNull).
Proof.
  intros D E M D'. destruct (is_empty v') eqn:M'; [|auto]. destruct (full_written _ _ _ _ D E M) as (F1 & F2 & F3 & F4 & F5).
  destruct (empty_read _ _ _ D' M') as [(-> & Na & Nv)|[[-> ->]|[[-> ->]|[(s' & -> & ->)|(s' & -> & ->)]]]].
  - destruct (F1 eq_refl) as [->|[->|N]]; [congruence | auto | congruence].
  - destruct (F2 eq_refl eq_refl).
  - destruct (F3 eq_refl eq_refl).
  - destruct (F4 _ eq_refl eq_refl).
  - destruct (F5 _ eq_refl eq_refl).
Qed.

(** ** Zero values *)
Lemma zero_again s y : not_val s = true -> encode (zero_of s) = Ok y -> exists v, decode y s = Ok v /\ encode v = Ok y.
Proof. intros N E. destruct s; try discriminate; cbn in E; injection E as <-; cbn; eauto. Qed.

(** ** Structs *)
Lemma struct_again t m vs y : each (fun k => option_map f_shape (field_of t k)) m = Ok vs -> encode (assemble t vs) = Ok y ->
  (forall m', y = JObj m' -> t = TLink -> ~ In ("requestBody", JNull) m') ->
  (forall m' k0 x f w z, y = JObj m' -> In f (fields t) -> In (k0, x) m -> same_name k0 (f_name f) -> decode x (f_shape f) = Ok w -> encode w = Ok z -> In (f_name f, z) m' -> exists w', decode z (f_shape f) = Ok w' /\ encode w' = Ok z) ->
  exists m' vs', y = JObj m' /\ each (fun k => option_map f_shape (field_of t k)) m' = Ok vs' /\ encode (assemble t vs') = Ok y.
Proof.
  intros Hvs E NB IH. destruct (struct_get raw big t m vs y Hvs E) as (m' & -> & Sm & Kn & G). exists m'.
  assert (R : forall k x f, In (k, x) m' -> In f (fields t) -> same_name k (f_name f) -> k = f_name f /\ oget (f_name f) m' = Some x /\ exists w', decode x (f_shape f) = Ok w' /\ encode w' = Ok x).
  { intros k x f I If Sn. pose proof (sorted_in_oget _ _ _ Sm I) as Ek. destruct (Kn _ _ Ek) as (g & Ig & Eg). assert (f = g) as -> by exact (same_field t k f g If Ig Eg Sn). subst k.
    split; [reflexivity|]. split; [exact Ek|]. destruct (G g Ig) as (w & Hw & O). destruct (f_omit g && is_empty w); [congruence|]. destruct O as (z & Ez & O). assert (z = x) as -> by congruence.
    destruct Hw as [(k0 & x0 & I0 & S0 & D0)|(-> & _)].
    - exact (IH m' k0 x0 g w x eq_refl Ig I0 S0 D0 Ez I).
    - apply zero_again; [exact (no_val t g Ig) | exact Ez]. }
  destruct (each_total raw big (fun k => option_map f_shape (field_of t k)) m') as (vs' & Hvs').
  { intros k x s I Ef. destruct (field_of t k) as [f|] eqn:Eg; [|discriminate]. injection Ef as <-. apply field_of_spec in Eg as [If Sn]. destruct (R k x f I If Sn) as (_ & _ & w' & D & _). eauto. }
  exists vs'. split; [reflexivity|]. split; [exact Hvs'|].
  assert (T : exists y', encode (assemble t vs') = Ok y').
  { unfold assemble. rewrite enc_struct.
    destruct (emit_total t (map (fun f => (f_name f, last_for t (f_name f) vs' (zero_of (f_shape f)))) (fields t))) as (js & ->); [|cbn; eauto].
    intros k v I. apply in_map_iff in I as (f & Ef & If). injection Ef as <- <-.
    destruct (last_for_spec t (f_name f) vs' (zero_of (f_shape f))) as [(k0 & g & I & Eg & En)|[-> _]]; [|apply zero_enc].
    destruct (each_in _ _ _ _ _ Hvs') as (_ & B & _). destruct (B _ _ I) as (x & s & Ix & Es & Hx). rewrite Eg in Es. injection Es as <-. apply field_of_spec in Eg as [Ig Sg].
    assert (g = f) as -> by exact (nodup_map_inj _ _ _ _ (fields_nodup' t) Ig If En). destruct (R k0 x f Ix If Sg) as (_ & _ & w' & D & Ew). exists x. congruence. }
  destruct T as (y' & Ey). rewrite Ey. destruct (struct_get raw big t m' vs' y' Hvs' Ey) as (m2 & -> & Sm2 & Kn2 & G2). do 2 f_equal.
  apply obj_ext; [exact Sm2 | exact Sm|]. intro k.
  destruct (find (fun f => String.eqb (f_name f) k) (fields t)) as [f|] eqn:Ef.
  - apply find_some in Ef as [If Ef]. apply String.eqb_eq in Ef. subst k. destruct (G f If) as (w & Hw & O). destruct (G2 f If) as (w2 & Hw2 & O2).
    destruct (f_omit f && is_empty w) eqn:Om.
    + rewrite O. destruct Hw2 as [(k0 & x & I & S & _)|(-> & _)]; [destruct (R k0 x f I If S) as (_ & N & _); congruence|].
      apply andb_true_iff in Om as [Om _]. rewrite Om, zero_empty in O2. exact O2.
    + destruct O as (z & Ez & O). rewrite O. pose proof (oget_in _ _ _ O) as Iz. destruct Hw2 as [(k0 & x & I & S & D2)|(-> & N)]; [|destruct (N _ _ Iz eq_refl)].
      destruct (R k0 x f I If S) as (-> & O' & w' & D' & E'). assert (x = z) as -> by congruence. assert (w' = w2) as -> by congruence.
      destruct (f_omit f && is_empty w2) eqn:Om2; [|destruct O2 as (z2 & Ez2 & O2); congruence]. exfalso.
      apply andb_true_iff in Om2 as [Om2 Em2]. rewrite Om2 in Om. cbn in Om. destruct Hw as [(k1 & x1 & I1 & S1 & D1)|(-> & _)]; [|rewrite zero_empty in Om; discriminate].
      destruct (full_again _ _ _ _ _ D1 Ez Om D') as [Em|[Es ->]]; [congruence|]. destruct (union_field t f If Es) as [-> En]. rewrite En in Iz. exact (NB m' eq_refl eq_refl Iz).
  - pose proof (fun f I => find_none _ _ Ef f I) as N. cbn in N.
    destruct (oget k m2) as [x|] eqn:E2. { destruct (Kn2 _ _ E2) as (f & If & <-). specialize (N f If). rewrite String.eqb_refl in N. discriminate. }
    destruct (oget k m') as [x|] eqn:E1; [|reflexivity]. destruct (Kn _ _ E1) as (f & If & <-). specialize (N f If). rewrite String.eqb_refl in N. discriminate.
Qed.

(** ** Maps and lists *)
Lemma map_again s vs js : enc_map vs = Ok js -> (forall k z, In (k, z) (obj_of js) -> exists w', decode z s = Ok w' /\ encode w' = Ok z) ->
  exists vs', each (fun _ => Some s) (obj_of js) = Ok vs' /\ enc_map vs' = Ok (obj_of js).
Proof.
  intros _. generalize (obj_of js). intros m H. induction m as [|[k z] m IH]; [exists []; auto|].
  destruct IH as (vs' & A & B); [intros k' z' I; apply (H k' z'); now right|]. destruct (H k z (or_introl eq_refl)) as (w & D & E).
  exists ((k, w) :: vs'). cbn [ShapeFacts.each enc_map]. rewrite D. cbn [bind]. rewrite A, E. cbn [bind]. rewrite B. auto.
Qed.
Lemma list_again s l : (forall z, In z l -> exists w', decode z s = Ok w' /\ encode w' = Ok z) -> exists vs', elems raw big s l = Ok vs' /\ enc_list vs' = Ok l.
Proof.
  intro H. induction l as [|z l IH]; [exists []; auto|].
  destruct IH as (vs' & A & B); [intros z' I; apply (H z'); now right|]. destruct (H z (or_introl eq_refl)) as (w & D & E).
  exists (w :: vs'). cbn [elems enc_list]. rewrite D. cbn [bind]. rewrite A, E. cbn [bind]. rewrite B. auto.
Qed.
Lemma obj_of_again {A} (l : list (string * A)) : obj_of (obj_of l) = obj_of l.
Proof. apply obj_ext; [apply obj_of_sorted | apply obj_of_sorted|]. intro k. now rewrite oget_obj_of. Qed.

(** ** All together *)
Lemma settled_sub s y a s' z : settled big s y -> (forall q s1 z1, finds s' z q s1 z1 -> finds s y (a :: q) s1 z1) -> settled big s' z.
Proof.
  intros [A B C] H. split.
  - intros q t F. exact (A _ _ (H _ _ _ F)).
  - intros q n F. exact (B _ _ (H _ _ _ F)).
  - intros q m [F|F]; [exact (C _ _ (or_introl (H _ _ _ F))) | exact (C _ _ (or_intror (H _ _ _ F)))].
Qed.
Lemma ref_again p y : marshal_ptr p = Ok y -> settled big SRef y -> exists v, decode y SRef = Ok v /\ encode v = Ok y.
Proof.
  intros E St. apply ref_plain in E as (Pl & ->). destruct (set_refs _ _ _ St [] (ptr_string p) (f_here _ _)) as (p' & Ep & Es).
  exists (GRef p'). cbn. unfold ref_of. rewrite Ep. split; [reflexivity|]. apply marshal_ptr_iff. rewrite Es. auto.
Qed.
Lemma again j : forall s v y, unambiguous s j -> decode j s = Ok v -> encode v = Ok y -> settled big s y -> exists v', decode y s = Ok v' /\ encode v' = Ok y.
Proof.
  assert (Stc : forall s t m vs y, (s = SPtr t \/ s = SVal t) -> each (fun k => option_map f_shape (field_of t k)) m = Ok vs -> encode (assemble t vs) = Ok y -> settled big s y ->
    (forall k0 x s' w z, In (k0, x) m -> (exists k, In (k, s') (known t) /\ same_name k0 k) -> decode x s' = Ok w -> encode w = Ok z -> settled big s' z -> exists w', decode z s' = Ok w' /\ encode w' = Ok z) ->
    exists v', decode y s = Ok v' /\ encode v' = Ok y).
  { intros s t m vs y Hs Hvs E St IH. destruct (struct_again t m vs y Hvs E) as (m' & vs' & -> & Hvs' & E').
    - intros m' -> -> I. destruct Hs as [-> | ->]; [exact (set_body _ _ _ St [] m' (or_introl (f_here _ _)) I) | exact (set_body _ _ _ St [] m' (or_intror (f_here _ _)) I)].
    - intros m' k0 x f w z -> If I Sn D Ew Iz. assert (K : In (f_name f, f_shape f) (known t)) by (apply known_field; eauto).
      apply (IH k0 x (f_shape f) w z I); [exists (f_name f); auto | exact D | exact Ew|]. apply (settled_sub s (JObj m') (SKey (f_name f)) _ _ St). intros q s1 z1 F.
      destruct Hs as [-> | ->]; [exact (f_ptr t m' (f_name f) (f_name f) (f_shape f) z q s1 z1 K Iz eq_refl F) | exact (f_val t m' (f_name f) (f_name f) (f_shape f) z q s1 z1 K Iz eq_refl F)].
    - exists (assemble t vs'). split; [|exact E']. destruct Hs as [-> | ->]; [rewrite dec_ptr | rewrite dec_val]; rewrite Hvs'; reflexivity. }
  induction j as [|b|n|t|l IH|m IH] using json_induction; intros s v y U D E St.
  - destruct s; cbn in D; injection D as <-; try (cbn in E; injection E as <-; cbn; eauto; fail).
    apply (Stc (SVal t) t [] [] y (or_intror eq_refl)); [reflexivity | exact E | exact St | intros ? ? ? ? ? []].
  - destruct s; cbn in D; try discriminate; try (injection D as <-; cbn in E; injection E as <-; cbn; eauto; fail).
    apply bind_ok in D as (p & _ & D). injection D as <-. exact (ref_again _ _ E St).
  - destruct s; cbn in D; try discriminate; try (injection D as <-; cbn in E; injection E as <-; cbn; eauto; fail).
    + destruct (int_of big n) as [z|]; [|discriminate]. injection D as <-. cbn in E. injection E as <-. pose proof (set_ints _ _ _ St [] _ (f_here _ _)) as W.
      destruct (float_again big z Hbig W) as (z' & Ez & Ef). exists (GInt z'). cbn. rewrite Ez. split; [reflexivity|]. cbn. now rewrite Ef.
    + destruct n; try discriminate; injection D as <-; cbn in E.
      * destruct (to_float_flt z) as (m & e & Ef). rewrite Ef in E. cbn in E. injection E as <-. cbn. eauto.
      * injection E as <-. cbn. eauto.
    + apply bind_ok in D as (p & _ & D). injection D as <-. exact (ref_again _ _ E St).
  - destruct s; cbn in D; try discriminate; try (injection D as <-; cbn in E; injection E as <-; cbn; eauto; fail).
    + apply bind_ok in D as (p & _ & D). injection D as <-. exact (ref_again _ _ E St).
    + injection D as <-. cbn in E. injection E as <-. destruct (String.eqb_spec t "") as [->|N]; cbn; [eauto|]. eexists. split; [reflexivity|]. cbn. apply String.eqb_neq in N. now rewrite N.
  - rewrite Forall_forall in IH. destruct s; try (cbn in D; discriminate); try (cbn in D; injection D as <-; cbn in E; injection E as <-; cbn; eauto; fail).
    + cbn in D. apply bind_ok in D as (p & _ & D). injection D as <-. exact (ref_again _ _ E St).
    + rewrite dec_list in D. apply bind_ok in D as (vs & Hvs & D). injection D as <-. rewrite enc_glist in E. apply bind_ok in E as (js & Hjs & E). injection E as <-.
      apply elems_ok in Hvs. apply enc_list_ok in Hjs. destruct (list_again s js) as (vs' & A & B).
      * intros z Iz. apply In_nth_error in Iz as (i & Ei). destruct (Forall2_at_r _ _ _ Hjs i z Ei) as (w & Ew & Hw). destruct (Forall2_at_r _ _ _ Hvs i w Ew) as (x & Ex & Dx).
        apply nth_error_In in Ex. apply (IH x Ex s w z (un_list s l x U Ex) Dx Hw). apply (settled_sub (SList s) (JArr js) (SIdx i) _ _ St). intros q s1 z1 F. exact (f_elem s js i z q s1 z1 Ei F).
      * exists (GList vs'). rewrite dec_list, A. split; [reflexivity|]. rewrite enc_glist, B. reflexivity.
  - rewrite Forall_forall in IH.
    assert (Mp : forall s0 vs js, (forall k x, In (k, x) m -> unambiguous s0 x) -> each (fun _ => Some s0) m = Ok vs -> enc_map vs = Ok js ->
      (forall k z, In (k, z) (obj_of js) -> settled big s0 z) -> exists vs', each (fun _ => Some s0) (obj_of js) = Ok vs' /\ enc_map vs' = Ok (obj_of js)).
    { intros s0 vs js U0 Hvs Hjs S0. apply (map_again s0 vs js Hjs). intros k z I. pose proof (sorted_in_oget _ _ _ (obj_of_sorted js) I) as Ek. rewrite oget_obj_of in Ek.
      pose proof (enc_map_get _ _ k Hjs) as G. destruct (oget k vs) as [w|] eqn:Ew; [|congruence]. destruct G as (z' & Ez & G). assert (z' = z) as -> by congruence.
      apply oget_in in Ew. destruct (each_in _ _ _ _ _ Hvs) as (_ & B & _). destruct (B _ _ Ew) as (x & s1 & Ix & Es & Dx). injection Es as <-.
      exact (IH (k, x) Ix s0 w z (U0 _ _ Ix) Dx Ez (S0 _ _ I)). }
    destruct s; try (cbn in D; discriminate); try (cbn in D; injection D as <-; cbn in E; injection E as <-; cbn; eauto; fail).
    + cbn in D. apply bind_ok in D as (p & _ & D). injection D as <-. exact (ref_again _ _ E St).
    + apply call_cases in D; [|exact (ref_good m U)]. destruct D as [(k & x & p & I & Sn & Nn & Ep & ->)|(Rn & vs & Hvs & ->)].
      * cbn in E. apply bind_ok in E as (z & Ez & E). injection E as <-.
        assert (Sr : settled big SRef z).
        { apply (settled_sub SCallback (JObj [("$ref", z)]) (SKey "$ref") _ _ St). intros q s1 z1 F. pose proof (ref_shown _ _ Ez) as ->. inversion F; subst.
          apply (f_call_ref _ "$ref"); [now left | reflexivity | discriminate]. }
        destruct (ref_again _ _ Ez Sr) as (v' & Dv & Ev). pose proof (ref_shown _ _ Ez) as Hz. apply ref_value in Dv as (p' & Ep' & ->); [|now rewrite Hz].
        exists (GCallRef p'). split; [|cbn in *; rewrite Ev; reflexivity].
        apply (call_mk_ref raw big [("$ref", z)] "$ref" z p'); [|now left | reflexivity | now rewrite Hz | exact Ep'].
        split; [repeat constructor; intros []|]. intros k1 k2 [<-|[]] [<-|[]] _ _. reflexivity.
      * rewrite enc_gcall in E. apply bind_ok in E as (js & Hjs & E). injection E as <-.
        assert (Rn' : ref_or_none (obj_of js)).
        { intros k z I Sn. pose proof (sorted_in_oget _ _ _ (obj_of_sorted js) I) as Ek. rewrite oget_obj_of in Ek.
          pose proof (enc_map_get _ _ k Hjs) as G. destruct (oget k vs) as [w|] eqn:Ew; [|congruence]. destruct G as (z' & Ez & G). assert (z' = z) as -> by congruence.
          apply oget_in in Ew. destruct (each_in _ _ _ _ _ Hvs) as (_ & B & _). destruct (B _ _ Ew) as (x & s1 & Ix & Es & Dx). injection Es as <-.
          rewrite (Rn k x Ix Sn) in Dx. cbn in Dx. injection Dx as <-. cbn in Ez. congruence. }
        destruct (Mp (SPtr TPathItem) vs js (fun k x => un_call m k x U Rn) Hvs Hjs) as (vs' & A & B).
        { intros k z I. apply (settled_sub SCallback (JObj (obj_of js)) (SKey k) _ _ St). intros q s1 z1 F. exact (f_call _ k z q s1 z1 Rn' I F). }
        exists (GCallMap vs'). split; [|rewrite enc_gcall, B; cbn; now rewrite obj_of_again]. apply call_mk_map; [|exact Rn' | exact A].
        pose proof (ref_good m U) as [_ Sg]. split; [apply sorted_nodup, obj_of_sorted|]. intros k k' Ik Ik' S1 S2. apply (enc_obj vs js Hjs) in Ik, Ik'.
        destruct (each_in _ _ _ _ _ Hvs) as (_ & _ & C). rewrite C in Ik, Ik'. apply filter_In in Ik as [Ik _]. apply filter_In in Ik' as [Ik' _]. exact (Sg k k' Ik Ik' S1 S2).
    + rewrite dec_ptr in D. apply bind_ok in D as (vs & Hvs & D). injection D as <-. apply (Stc (SPtr t) t m vs y (or_introl eq_refl) Hvs E St).
      intros k0 x s' w z I (k & Kn & Sn) Dx Ew Sz. exact (IH (k0, x) I s' w z (un_ptr t m k k0 s' x U Kn I Sn) Dx Ew Sz).
    + rewrite dec_val in D. apply bind_ok in D as (vs & Hvs & D). injection D as <-. apply (Stc (SVal t) t m vs y (or_intror eq_refl) Hvs E St).
      intros k0 x s' w z I (k & Kn & Sn) Dx Ew Sz. exact (IH (k0, x) I s' w z (un_val t m k k0 s' x U Kn I Sn) Dx Ew Sz).
    + rewrite dec_map in D. apply bind_ok in D as (vs & Hvs & D). injection D as <-. rewrite enc_gmap in E. apply bind_ok in E as (js & Hjs & E). injection E as <-.
      destruct (Mp s vs js (fun k x => un_map s m k x U) Hvs Hjs) as (vs' & A & B).
      { intros k z I. apply (settled_sub (SMap s) (JObj (obj_of js)) (SKey k) _ _ St). intros q s1 z1 F. exact (f_entry s _ k z q s1 z1 I F). }
      exists (GMap vs'). rewrite dec_map, A. split; [reflexivity|]. rewrite enc_gmap, B. cbn. now rewrite obj_of_again.
Qed.
End Again.
