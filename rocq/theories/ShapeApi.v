(** What is accepted, what is kept and what is written. *)
From Coq Require Import String Ascii List Bool Arith ZArith Lia.
From Verif Require Import GoStr Json JsonFacts Gabs Container MergeFacts Spec_Clone CloneFacts Url Pointer SchemaJson SchemaJsonFacts SchemaJsonApi Spec_Loc LocFacts Spec_Format Shape Spec_Shape ShapeFacts.
Import ListNotations.
Local Open Scope string_scope.
Local Open Scope nat_scope.
Local Open Scope list_scope.


Lemma Forall2_len {A B} (P : A -> B -> Prop) l l' : Forall2 P l l' -> length l = length l'.
Proof. induction 1; cbn; congruence. Qed.

Lemma oget_none_keys {A} k (v : list (string * A)) : oget k v = None -> ~ In k (map fst v).
Proof.
  induction v as [|[k' w] v IH]; intros E I; [destruct I|]. cbn in E, I. destruct (String.eqb_spec k k') as [|N]; [discriminate|]. destruct I as [I|I]; [congruence | exact (IH E I)].
Qed.

Lemma Forall2_at {A B} (P : A -> B -> Prop) l l' : Forall2 P l l' -> forall i x, nth_error l i = Some x -> exists y, nth_error l' i = Some y /\ P x y.
Proof. induction 1 as [|x y l l' H _ IH]; intros [|i] z E; try discriminate; [injection E as <-; exists y; auto | exact (IH i z E)]. Qed.
Lemma Forall2_at_r {A B} (P : A -> B -> Prop) l l' : Forall2 P l l' -> forall i y, nth_error l' i = Some y -> exists x, nth_error l i = Some x /\ P x y.
Proof. induction 1 as [|x y l l' H _ IH]; intros [|i] z E; try discriminate; [injection E as <-; exists x; auto | exact (IH i z E)]. Qed.

Section Api.
Context (raw : json -> string) (big : Z -> option Z).
Local Notation decode := (decode raw big).
Local Notation each := (each raw big).

Local Notation whole := (int64_number big).
Lemma whole_iff n : (exists z, int_of big n = Some z) <-> whole n.
Proof.
  unfold int_of, int64_number. destruct n as [z|m e|]; [| |split; [intros (z & H); discriminate | intros []]].
  - destruct (Z.leb_spec (- 2 ^ 63) z); destruct (Z.ltb_spec z (2 ^ 63)); cbn [andb]; split; intro H1; try (destruct H1; discriminate); try lia; eauto.
  - destruct (Z.leb_spec 0 e); [|split; [intros (z & H1); discriminate | lia]]. destruct (Z.leb_spec (Z.abs (m * 2 ^ e)) (2 ^ 53)); (split; [intros (z & Hz)|intros [_ [Hs|Hs]]]); eauto; lia.
Qed.

Definition good (n : string) (m : list (string * json)) : Prop := NoDup (map fst m) /\ single n m.
Lemma un_good s m n : unambiguous s (JObj m) -> In n (names s) -> good n m.
Proof. intros H I. destruct (H [] s m (f_here _ _)) as [N S]. split; [exact N | exact (S n I)]. Qed.
Lemma un_nodup s m : unambiguous s (JObj m) -> NoDup (map fst m).
Proof. intro H. exact (proj1 (H [] s m (f_here _ _))). Qed.
Lemma un_ptr t m k k0 s x : unambiguous (SPtr t) (JObj m) -> In (k, s) (known t) -> In (k0, x) m -> same_name k0 k -> unambiguous s x.
Proof. intros H Kn I Sn q s' m' Fd. exact (H (SKey k :: q) s' m' (f_ptr t m k k0 s x q s' _ Kn I Sn Fd)). Qed.
Lemma un_val t m k k0 s x : unambiguous (SVal t) (JObj m) -> In (k, s) (known t) -> In (k0, x) m -> same_name k0 k -> unambiguous s x.
Proof. intros H Kn I Sn q s' m' Fd. exact (H (SKey k :: q) s' m' (f_val t m k k0 s x q s' _ Kn I Sn Fd)). Qed.
Lemma un_map s m k x : unambiguous (SMap s) (JObj m) -> In (k, x) m -> unambiguous s x.
Proof. intros H I q s' m' Fd. exact (H (SKey k :: q) s' m' (f_entry s m k x q s' _ I Fd)). Qed.
Lemma un_list s l x : unambiguous (SList s) (JArr l) -> In x l -> unambiguous s x.
Proof. intros H I q s' m' Fd. apply In_nth_error in I as (i & E). exact (H (SIdx i :: q) s' m' (f_elem s l i x q s' _ E Fd)). Qed.
Lemma un_call m k x : unambiguous SCallback (JObj m) -> ref_or_none m -> In (k, x) m -> unambiguous (SPtr TPathItem) x.
Proof. intros H R I q s' m' Fd. exact (H (SKey k :: q) s' m' (f_call m k x q s' _ R I Fd)). Qed.
Lemma un_call_ref m k x : unambiguous SCallback (JObj m) -> In (k, x) m -> same_name k "$ref" -> x <> JNull -> unambiguous SRef x.
Proof. intros H I Sn Nn q s' m' Fd. inversion Fd; subst. exact (H [SKey "$ref"] SRef m' (f_call_ref m k _ I Sn Nn)). Qed.
Lemma ref_good m : unambiguous SCallback (JObj m) -> good "$ref" m.
Proof. intro H. apply (un_good SCallback); [exact H | now left]. Qed.
Lemma ptr_good t m k s : unambiguous (SPtr t) (JObj m) -> In (k, s) (known t) -> good k m.
Proof. intros H I. apply (un_good (SPtr t)); [exact H|]. apply (in_map fst) in I. exact I. Qed.
Lemma val_good t m k s : unambiguous (SVal t) (JObj m) -> In (k, s) (known t) -> good k m.
Proof. intros H I. apply (un_good (SVal t)); [exact H|]. apply (in_map fst) in I. exact I. Qed.
Lemma one_name (m : list (string * json)) k0 x k1 y k : good k m -> In (k0, x) m -> In (k1, y) m -> same_name k0 k -> same_name k1 k -> (k0, x) = (k1, y).
Proof.
  intros [N S] I0 I1 E0 E1. apply (nodup_map_inj fst m); [exact N | exact I0 | exact I1 |]. cbn.
  apply S; [apply (in_map fst) in I0; exact I0 | apply (in_map fst) in I1; exact I1 | exact E0 | exact E1].
Qed.
Lemma is_ref_key_iff k : is_ref_key k = true <-> same_name k "$ref".
Proof. unfold is_ref_key, equal_fold, same_name. rewrite String.eqb_eq. split; auto. Qed.

(** The reference members of a callback. *)
Lemma call_refs m rs : each (fun k => if is_ref_key k then Some SRef else None) m = Ok rs -> good "$ref" m ->
  match rs with
  | [] => forall k x, In (k, x) m -> ~ same_name k "$ref"
  | [(k, v)] => exists x, In (k, x) m /\ same_name k "$ref" /\ decode x SRef = Ok v
  | _ => False
  end.
Proof.
  intros H N. destruct (each_in _ _ _ _ _ H) as (A & B & C). destruct rs as [|[k v] [|[k2 v2] rs]].
  - intros k x I S. apply is_ref_key_iff in S. destruct (A k x SRef I) as (v & [] & _). now rewrite S.
  - destruct (B k v (or_introl eq_refl)) as (x & s & I & E & D). destruct (is_ref_key k) eqn:K; [|discriminate]. injection E as <-. exists x. split; [exact I|]. split; [now apply is_ref_key_iff | exact D].
  - destruct (B k v (or_introl eq_refl)) as (x & s & I & E & _). destruct (B k2 v2 (or_intror (or_introl eq_refl))) as (x2 & s2 & I2 & E2 & _).
    destruct (is_ref_key k) eqn:K; [|discriminate]. destruct (is_ref_key k2) eqn:K2; [|discriminate]. apply is_ref_key_iff in K, K2.
    pose proof (one_name m k x k2 x2 "$ref" N I I2 K K2) as P. injection P as <- <-.
    assert (Nf : NoDup (map fst m)) by exact (proj1 N).
    assert (Nv : NoDup (map fst ((k, v) :: (k, v2) :: rs))) by (rewrite C; now apply NoDup_filter).
    cbn in Nv. inversion Nv as [|? ? N1 _]; subst. apply N1. now left.
Qed.
Lemma ref_null x : decode x SRef = Ok GNil -> x = JNull.
Proof. destruct x; cbn; intro H; try reflexivity; apply bind_ok in H as (p & _ & H); discriminate. Qed.
Lemma ref_value x v : decode x SRef = Ok v -> x <> JNull -> exists p, ref_of raw x = Ok p /\ v = GRef p.
Proof. destruct x; cbn; intros H N; try contradiction; apply bind_ok in H as (p & E & H); injection H as <-; eauto. Qed.
(** A callback: a reference, or a map. *)
Lemma call_cases m v : good "$ref" m -> decode (JObj m) SCallback = Ok v ->
  (exists k x p, In (k, x) m /\ same_name k "$ref" /\ x <> JNull /\ ref_of raw x = Ok p /\ v = GCallRef p) \/
  (ref_or_none m /\ exists vs, each (fun _ => Some (SPtr TPathItem)) m = Ok vs /\ v = GCallMap vs).
Proof.
  intros N H. rewrite dec_call in H. apply bind_ok in H as (rs & Hrs & H). pose proof (call_refs m rs Hrs N) as C.
  destruct rs as [|[k w] [|? ?]]; [| |destruct p; contradiction].
  - right. cbn in H. apply bind_ok in H as (vs & Hvs & H). injection H as <-. split; [|eauto]. intros k x I S. destruct (C k x I S).
  - destruct C as (x & I & S & D). cbn [map snd last] in H. destruct (is_null x) eqn:Nx.
    + destruct x; try discriminate. cbn in D. injection D as <-. right. apply bind_ok in H as (vs & Hvs & H). injection H as <-. split; [|eauto].
      intros k' x' I' S'. pose proof (one_name m k JNull k' x' "$ref" N I I' S S') as P. now injection P as _ <-.
    + assert (Nn : x <> JNull) by (intros ->; discriminate). apply ref_value in D as (p & Ep & ->); [|exact Nn]. injection H as <-. left. exists k, x, p. auto.
Qed.
Lemma call_mk_ref m k x p : good "$ref" m -> In (k, x) m -> same_name k "$ref" -> x <> JNull -> ref_of raw x = Ok p -> decode (JObj m) SCallback = Ok (GCallRef p).
Proof.
  intros N I S Nn E. assert (D : decode x SRef = Ok (GRef p)) by (destruct x; cbn in *; try contradiction; now rewrite E).
  destruct (each_total raw big (fun k => if is_ref_key k then Some SRef else None) m) as (rs & Hrs).
  { intros k' x' s I' Es. destruct (is_ref_key k') eqn:K; [|discriminate]. injection Es as <-. apply is_ref_key_iff in K.
    pose proof (one_name m k x k' x' "$ref" N I I' S K) as P. injection P as <- <-. eauto. }
  pose proof (call_refs m rs Hrs N) as C. rewrite dec_call, Hrs. cbn [bind].
  destruct rs as [|[k1 w] [|? ?]]; [destruct (C _ _ I S)| |destruct p0; contradiction].
  destruct C as (x1 & I1 & S1 & D1). pose proof (one_name m k x k1 x1 "$ref" N I I1 S S1) as P. injection P as <- <-. cbn [map snd last]. assert (w = GRef p) as -> by congruence. reflexivity.
Qed.
Lemma call_mk_map m vs : good "$ref" m -> ref_or_none m -> each (fun _ => Some (SPtr TPathItem)) m = Ok vs -> decode (JObj m) SCallback = Ok (GCallMap vs).
Proof.
  intros N R E. destruct (each_total raw big (fun k => if is_ref_key k then Some SRef else None) m) as (rs & Hrs).
  { intros k' x' s I' Es. destruct (is_ref_key k') eqn:K; [|discriminate]. injection Es as <-. apply is_ref_key_iff in K. rewrite (R _ _ I' K). cbn. eauto. }
  pose proof (call_refs m rs Hrs N) as C. rewrite dec_call, Hrs. cbn [bind].
  destruct rs as [|[k1 w] [|? ?]]; [| |destruct p; contradiction].
  - cbn [map last]. rewrite E. reflexivity.
  - destruct C as (x1 & I1 & S1 & D1). rewrite (R _ _ I1 S1) in D1. cbn in D1. injection D1 as <-. cbn [map snd last]. rewrite E. reflexivity.
Qed.

(** ** What is accepted *)
Lemma accepts j : forall s, unambiguous s j -> ((exists v, decode j s = Ok v) <-> fits raw whole s j).
Proof.
  induction j as [|b|n|t|l IH|m IH] using json_induction; intros s Oc.
  - split; [intros _; apply t_null | intros _]. destruct s; cbn; eauto.
  - split; [intros (v & H) | intro H; inversion H; subst; cbn; eauto].
    + destruct s; cbn in H; try discriminate; try (constructor; fail). apply bind_ok in H as (p & E & _). eapply t_ref_raw; [discriminate | exact E].
    + cbn. unfold ref_of. match goal with E : ptr_parse (raw _) = Ok _ |- _ => rewrite E end. cbn. eauto.
  - split; [intros (v & H) | intro H; inversion H; subst; cbn; eauto].
    + destruct s; cbn in H; try discriminate; try (constructor; fail).
      * destruct (int_of big n) as [z|] eqn:E; [|discriminate]. constructor. apply whole_iff. now exists z.
      * constructor. intros ->. discriminate.
      * apply bind_ok in H as (p & E & _). eapply t_ref_raw; [discriminate | exact E].
    + match goal with E : whole _ |- _ => apply whole_iff in E as (z & ->) end. eauto.
    + destruct n; eauto. congruence.
    + unfold ref_of. match goal with E : ptr_parse (raw _) = Ok _ |- _ => rewrite E end. cbn. eauto.
  - split; [intros (v & H) | intro H; inversion H; subst; cbn; eauto].
    + destruct s; cbn in H; try discriminate; try (constructor; fail). apply bind_ok in H as (p & E & _). eapply t_ref; exact E.
    + unfold ref_of. match goal with E : ptr_parse _ = Ok _ |- _ => rewrite E end. cbn. eauto.
    + match goal with E : forall t0, _ <> _ |- _ => destruct (E t eq_refl) end.
  - rewrite Forall_forall in IH. split; [intros (v & H) | intro H; inversion H; subst; cbn; eauto].
    + destruct s; cbn in H; try discriminate; try (constructor; fail).
      * apply bind_ok in H as (p & E & _). eapply t_ref_raw; [discriminate | exact E].
      * change (decode (JArr l) (SList s) = Ok v) in H. rewrite dec_list in H. apply bind_ok in H as (vs & Hvs & _). apply elems_ok in Hvs. constructor. intros x Ix.
        apply (IH x Ix s (un_list s l x Oc Ix)). clear - Hvs Ix. induction Hvs; [destruct Ix|]. destruct Ix as [->|Ix]; eauto.
    + cbn. unfold ref_of. match goal with E : ptr_parse (raw _) = Ok _ |- _ => rewrite E end. cbn. eauto.
    + change (exists v, decode (JArr l) (SList s0) = Ok v). rewrite dec_list. destruct (elems_total raw big s0 l) as (vs & ->); [|cbn; eauto].
      intros x Ix. apply (IH x Ix s0 (un_list s0 l x Oc Ix)). auto.
  - rewrite Forall_forall in IH.
    assert (IH' : forall k x s, In (k, x) m -> unambiguous s x -> ((exists v, decode x s = Ok v) <-> fits raw whole s x)) by (intros k x s' I Ux; exact (IH (k, x) I s' Ux)). clear IH.
    assert (St : forall t, (s = SPtr t \/ s = SVal t) -> (exists vs, each (fun k => option_map f_shape (field_of t k)) m = Ok vs) <->
      (forall k0 x k s, In (k0, x) m -> In (k, s) (known t) -> same_name k0 k -> fits raw whole s x)).
    { intros t Hs.
      assert (Ux : forall k0 x k s, In (k, s) (known t) -> In (k0, x) m -> same_name k0 k -> unambiguous s x).
      { intros k0 x k s0 Kn I Sn. destruct Hs as [-> | ->]; [exact (un_ptr t m k k0 s0 x Oc Kn I Sn) | exact (un_val t m k k0 s0 x Oc Kn I Sn)]. }
      split.
      - intros (vs & Hvs) k0 x k s' I Kn Sn. pose proof (Ux _ _ _ _ Kn I Sn) as Uxx. apply known_field in Kn as (f & If & <- & <-). destruct (each_in _ _ _ _ _ Hvs) as (A & _ & _).
        apply (IH' k0 x (f_shape f) I Uxx). assert (Ef : field_of t k0 = Some f) by (apply field_of_spec; auto). destruct (A k0 x (f_shape f) I) as (v & _ & D); [now rewrite Ef | eauto].
      - intro H. apply each_total. intros k x s' I E. destruct (field_of t k) as [f|] eqn:Ef; [|discriminate]. injection E as <-. apply field_of_spec in Ef as [If Sf].
        assert (Kn : In (f_name f, f_shape f) (known t)) by (apply known_field; eauto).
        apply (IH' k x _ I (Ux _ _ _ _ Kn I Sf)). exact (H k x (f_name f) (f_shape f) I Kn Sf). }
    assert (Mp : forall s0, (forall k x, In (k, x) m -> unambiguous s0 x) -> (exists vs, each (fun _ => Some s0) m = Ok vs) <-> forall k x, In (k, x) m -> fits raw whole s0 x).
    { intros s' Ux. split.
      - intros (vs & Hvs) k x I. destruct (each_in _ _ _ _ _ Hvs) as (A & _ & _). apply (IH' k x s' I (Ux k x I)). destruct (A k x s' I eq_refl) as (v & _ & D). eauto.
      - intro H. apply each_total. intros k x s0 I [= <-]. apply (IH' k x s' I (Ux k x I)). eauto. }
    split.
    + intros (v & H). destruct s; try (cbn in H; discriminate); try (constructor; fail).
      * cbn in H. apply bind_ok in H as (p & E & _). eapply t_ref_raw; [discriminate | exact E].
      * apply call_cases in H; [|exact (ref_good m Oc)]. destruct H as [(k & x & p & I & S & Nn & E & _)|(R & vs & Hvs & _)].
        -- apply (t_call_ref raw whole m k x I S Nn). apply (IH' k x SRef I (un_call_ref m k x Oc I S Nn)). exists (GRef p). destruct x; cbn in *; try contradiction; now rewrite E.
        -- apply t_call; [exact R|]. apply Mp; [exact (fun k x => un_call m k x Oc R) | eauto].
      * rewrite dec_ptr in H. apply bind_ok in H as (vs & Hvs & _). constructor. apply St; eauto.
      * rewrite dec_val in H. apply bind_ok in H as (vs & Hvs & _). constructor. apply St; eauto.
      * rewrite dec_map in H. apply bind_ok in H as (vs & Hvs & _). constructor. apply Mp; [exact (fun k x => un_map s m k x Oc) | eauto].
    + intro H. inversion H; subst.
      * cbn. eauto.
      * cbn. unfold ref_of. match goal with E : ptr_parse (raw _) = Ok _ |- _ => rewrite E end. cbn. eauto.
      * cbn. eauto.
      * rewrite dec_map. destruct (proj2 (Mp s0 (fun k x => un_map s0 m k x Oc)) ltac:(eassumption)) as (vs & ->). cbn. eauto.
      * rewrite dec_ptr. destruct (proj2 (St t (or_introl eq_refl)) ltac:(eassumption)) as (vs & ->). cbn. eauto.
      * rewrite dec_val. destruct (proj2 (St t (or_intror eq_refl)) ltac:(eassumption)) as (vs & ->). cbn. eauto.
      * match goal with I : In (?k, ?x) m, S : same_name ?k "$ref", Nn : ?x <> JNull, Fx : fits _ _ SRef ?x |- _ =>
          apply (IH' k x SRef I (un_call_ref m k x Oc I S Nn)) in Fx; destruct Fx as (v & Fx); apply ref_value in Fx as (p & E & ->); [|exact Nn]; exists (GCallRef p); exact (call_mk_ref m k x p (ref_good m Oc) I S Nn E) end.
      * match goal with R : ref_or_none m |- _ => destruct (proj2 (Mp (SPtr TPathItem) (fun k x => un_call m k x Oc R)) ltac:(eassumption)) as (vs & Hvs) end. exists (GCallMap vs). apply call_mk_map; [exact (ref_good m Oc) | assumption | exact Hvs].
Qed.

(** ** The outermost layer *)
Lemma call_obj m v : decode (JObj m) SCallback = Ok v -> (exists p, v = GCallRef p) \/ exists vs, v = GCallMap vs.
Proof.
  rewrite dec_call. intro H. apply bind_ok in H as (rs & _ & H).
  destruct (last (map snd rs) GNil); try (apply bind_ok in H as (vs & _ & H); injection H as <-; eauto). injection H as <-. eauto.
Qed.
Lemma enc_obj v m' : enc_map v = Ok m' -> forall k, In k (map fst (obj_of m')) <-> In k (map fst v).
Proof.
  intros H k. pose proof (enc_map_get _ _ k H) as G. split; intro I.
  - apply in_map_iff in I as ([k' j] & <- & I). cbn [fst] in *. pose proof (sorted_in_oget _ _ _ (obj_of_sorted m') I) as E. rewrite oget_obj_of in E.
    destruct (oget k' v) as [w|] eqn:Ew; [|congruence]. apply oget_in in Ew. apply (in_map fst) in Ew. exact Ew.
  - destruct (oget k v) as [w|] eqn:Ew.
    + destruct G as (j & _ & E). rewrite <- oget_obj_of in E. apply oget_in in E. apply (in_map fst) in E. exact E.
    + destruct (oget_none_keys k v Ew I).
Qed.
Hypothesis Hbig : reads_back big.
Lemma int_shown n z : int_of big n = Some z -> same_number n (to_float z).
Proof.
  unfold int_of, same_number. destruct n as [z0|m e|]; [| |discriminate].
  - destruct ((- 2 ^ 63 <=? z0)%Z && (z0 <? 2 ^ 63)%Z); [|discriminate]. intros [= <-]. left. destruct (to_float_nearest z0) as (m & e & -> & Nd & _). exists z0, m, e. auto.
  - destruct (Z.leb_spec 0 e) as [He|]; [|discriminate]. destruct (Z.leb_spec (Z.abs (m * 2 ^ e)) (2 ^ 53)) as [Hs|Hs].
    + intros [= <-]. right. destruct (to_float_nearest (m * 2 ^ e)) as (m' & e' & -> & (He' & _) & Ex). exists m, e, m', e'. rewrite Ex by exact Hs. auto.
    + intro H. right. destruct (Hbig _ _ H) as (m' & e' & -> & He' & Ex). exists m, e, m', e'. auto.
Qed.
Lemma ref_shown p y : marshal_ptr p = Ok y -> y = JStr (ptr_string p).
Proof. intro H. now apply marshal_ptr_iff in H. Qed.
Lemma ref_plain p y : marshal_ptr p = Ok y -> plain_key (ptr_string p) /\ y = JStr (ptr_string p).
Proof. apply marshal_ptr_iff. Qed.
Lemma head x s v y : decode x s = Ok v -> encode v = Ok y -> shows s x y.
Proof.
  intros D E. destruct x as [|b|n|t|l|m].
  - destruct s; cbn in D; injection D as <-; try (cbn in E; injection E as <-; reflexivity).
    change (exists m, y = JObj m). unfold zero_struct in E. rewrite enc_struct in E. apply bind_ok in E as (js & _ & E). injection E as <-. eauto.
  - destruct s; cbn in D; try discriminate; try (injection D as <-; cbn in E; injection E as <-; reflexivity).
    cbn. apply bind_ok in D as (p & _ & D). injection D as <-. exists p. now apply ref_shown.
  - destruct s; try (cbn in D; discriminate); try (cbn in D; injection D as <-; cbn in E; injection E as <-; reflexivity).
    + cbn in D. destruct (int_of big n) as [z|] eqn:Ez; [|discriminate]. injection D as <-. cbn in E. injection E as <-. exists (to_float z). split; [reflexivity | now apply int_shown].
    + destruct n as [z|m0 e0|]; cbn in D; [| |discriminate]; injection D as <-.
      * destruct (to_float_nearest z) as (m & e & Ez & Nd & _). rewrite Ez in E. cbn in E. injection E as <-. exists m, e. auto.
      * cbn in E. injection E as <-. reflexivity.
    + cbn in D |- *. apply bind_ok in D as (p & _ & D). injection D as <-. exists p. now apply ref_shown.
  - destruct s; cbn in D; try discriminate; try (injection D as <-; cbn in E; injection E as <-; reflexivity).
    cbn. apply bind_ok in D as (p & Ep & D). injection D as <-. exists p. split; [exact Ep | now apply ref_plain].
  - destruct s; try (cbn in D; discriminate); try (cbn in D; injection D as <-; cbn in E; injection E as <-; reflexivity).
    + cbn in D |- *. apply bind_ok in D as (p & _ & D). injection D as <-. exists p. now apply ref_shown.
    + rewrite dec_list in D. apply bind_ok in D as (vs & Hvs & D). injection D as <-. rewrite enc_glist in E. apply bind_ok in E as (js & Hjs & E). injection E as <-.
      exists js. split; [reflexivity|]. apply elems_ok in Hvs. apply enc_list_ok in Hjs. rewrite <- (Forall2_len _ _ _ Hjs). symmetry. exact (Forall2_len _ _ _ Hvs).
  - destruct s; try (cbn in D; discriminate); try (cbn in D; injection D as <-; cbn in E; injection E as <-; reflexivity).
    + cbn in D |- *. apply bind_ok in D as (p & _ & D). injection D as <-. exists p. now apply ref_shown.
    + cbn [shows]. apply call_obj in D as [(p & ->)|(vs & ->)]; [cbn in E|rewrite enc_gcall in E]; apply bind_ok in E as (js & _ & E); injection E as <-; eauto.
    + rewrite dec_ptr in D. apply bind_ok in D as (vs & _ & D). injection D as <-. unfold assemble in E. rewrite enc_struct in E. apply bind_ok in E as (js & _ & E). injection E as <-. cbn. eauto.
    + rewrite dec_val in D. apply bind_ok in D as (vs & _ & D). injection D as <-. unfold assemble in E. rewrite enc_struct in E. apply bind_ok in E as (js & _ & E). injection E as <-. cbn. eauto.
    + rewrite dec_map in D. apply bind_ok in D as (vs & Hvs & D). injection D as <-. rewrite enc_gmap in E. apply bind_ok in E as (js & Hjs & E). injection E as <-.
      exists (obj_of js). split; [reflexivity|]. intro k. rewrite (enc_obj _ _ Hjs). destruct (each_in _ _ _ _ _ Hvs) as (_ & _ & ->).
      rewrite filter_In. tauto.
Qed.

(** ** What is kept *)
Lemma nonempty j q s s' x v : finds s j q s' x -> says s' x -> decode j s = Ok v -> is_empty v = false.
Proof.
  intros Fd Sy D. inversion Fd; subst.
  - destruct s'; destruct x; try (cbn in D; discriminate); try (cbn in D; injection D as <-; reflexivity); cbn [says] in Sy.
    all: try (destruct Sy; congruence).
    all: try (cbn in D; apply bind_ok in D as (p & _ & D); injection D as <-; reflexivity).
    + cbn in D. injection D as <-. destruct s; [destruct Sy; congruence | reflexivity].
    + cbn in D. injection D as <-. destruct b; [reflexivity | destruct Sy; congruence].
    + cbn in D. destruct (int_of big n); [|discriminate]. injection D as <-. reflexivity.
    + destruct n; cbn in D; try discriminate; injection D as <-; reflexivity.
    + apply call_obj in D as [(p & ->)|(vs & ->)]; reflexivity.
    + rewrite dec_list in D. apply bind_ok in D as (vs & Hvs & D). injection D as <-. destruct l as [|y l]; [destruct Sy; congruence|].
      apply elems_ok in Hvs. inversion Hvs; subst. reflexivity.
    + rewrite dec_map in D. apply bind_ok in D as (vs & Hvs & D). injection D as <-. destruct m as [|[k y] m]; [destruct Sy; congruence|].
      cbn in Hvs. apply bind_ok in Hvs as (w & _ & Hvs). apply bind_ok in Hvs as (ws & _ & Hvs). injection Hvs as <-. reflexivity.
  - rewrite dec_ptr in D. apply bind_ok in D as (vs & _ & D). injection D as <-. reflexivity.
  - rewrite dec_val in D. apply bind_ok in D as (vs & _ & D). injection D as <-. reflexivity.
  - rewrite dec_map in D. apply bind_ok in D as (vs & Hvs & D). injection D as <-. destruct m as [|[k' y] m]; [destruct H|].
    cbn in Hvs. apply bind_ok in Hvs as (w & _ & Hvs). apply bind_ok in Hvs as (ws & _ & Hvs). injection Hvs as <-. reflexivity.
  - rewrite dec_list in D. apply bind_ok in D as (vs & Hvs & D). injection D as <-. destruct l as [|y l]; [destruct i; discriminate|].
    apply elems_ok in Hvs. inversion Hvs; subst. reflexivity.
  - destruct j; cbn in D; injection D as <-; reflexivity.
  - destruct j; cbn in D; injection D as <-; try reflexivity. destruct a; discriminate.
  - apply call_obj in D as [(p & ->)|(vs & ->)]; reflexivity.
  - apply call_obj in D as [(p & ->)|(vs & ->)]; reflexivity.
Qed.
Lemma struct_kept t m k k0 s x q s' y vs j' : In (k, s) (known t) -> In (k0, x) m -> same_name k0 k -> finds s x q s' y -> says s' y ->
  good k m -> each (fun k => option_map f_shape (field_of t k)) m = Ok vs -> encode (assemble t vs) = Ok j' ->
  exists m' w j, j' = JObj m' /\ decode x s = Ok w /\ encode w = Ok j /\ oget k m' = Some j.
Proof.
  intros Kn I Sn Fd Sy N Hvs E. destruct (struct_get raw big t m vs j' Hvs E) as (m' & -> & _ & _ & G). apply known_field in Kn as (f & If & <- & <-).
  destruct (G f If) as (w & [(k1 & x1 & I1 & S1 & D1)|(_ & Nn)] & O); [|destruct (Nn k0 x I Sn)].
  pose proof (one_name m k0 x k1 x1 _ N I I1 Sn S1) as P. injection P as <- <-.
  rewrite (nonempty x q (f_shape f) s' y w Fd Sy D1), andb_false_r in O. destruct O as (j & Ej & G2). exists m', w, j. auto.
Qed.
Lemma map_kept s m k x vs : NoDup (map fst m) -> In (k, x) m -> each (fun _ => Some s) m = Ok vs ->
  forall js, enc_map vs = Ok js -> exists w j, decode x s = Ok w /\ encode w = Ok j /\ oget k (obj_of js) = Some j.
Proof.
  intros N I Hvs js Hjs. destruct (each_in _ _ _ _ _ Hvs) as (A & _ & C). destruct (A k x s I eq_refl) as (w & Iw & D).
  assert (Nv : NoDup (map fst vs)) by (rewrite C; apply NoDup_filter; exact N).
  pose proof (enc_map_get _ _ k Hjs) as G. rewrite (nodup_in_oget k w vs Nv Iw) in G. destruct G as (j & Ej & G). exists w, j. rewrite oget_obj_of. auto.
Qed.
Lemma kept s j q s' x : finds s j q s' x -> forall v j', unambiguous s j -> decode j s = Ok v -> encode v = Ok j' -> says s' x ->
  exists y, lookup q j' = Some y /\ shows s' x y.
Proof.
  induction 1 as [s j|t m k k0 s x q s' y Kn I Sn Fd IH|t m k k0 s x q s' y Kn I Sn Fd IH|s m k x q s' y I Fd IH|s l i x q s' y I Fd IH|j a q y L|j a q y L|m k0 x I Sn Nn|m k x q s' y R I Fd IH];
    intros v j' Oc D E Sy.
  - exists j'. split; [reflexivity | exact (head j s v j' D E)].
  - rewrite dec_ptr in D. apply bind_ok in D as (vs & Hvs & D). injection D as <-. pose proof (ptr_good t m k s Oc Kn) as N. pose proof (un_ptr t m k k0 s x Oc Kn I Sn) as Ox.
    destruct (struct_kept t m k k0 s x q s' y vs j' Kn I Sn Fd Sy N Hvs E) as (m' & w & jj & -> & Dw & Ew & G).
    destruct (IH w jj Ox Dw Ew Sy) as (z & Lz & Sz). exists z. split; [|exact Sz]. cbn [lookup]. now rewrite G.
  - rewrite dec_val in D. apply bind_ok in D as (vs & Hvs & D). injection D as <-. pose proof (val_good t m k s Oc Kn) as N. pose proof (un_val t m k k0 s x Oc Kn I Sn) as Ox.
    destruct (struct_kept t m k k0 s x q s' y vs j' Kn I Sn Fd Sy N Hvs E) as (m' & w & jj & -> & Dw & Ew & G).
    destruct (IH w jj Ox Dw Ew Sy) as (z & Lz & Sz). exists z. split; [|exact Sz]. cbn [lookup]. now rewrite G.
  - rewrite dec_map in D. apply bind_ok in D as (vs & Hvs & D). injection D as <-. rewrite enc_gmap in E. apply bind_ok in E as (js & Hjs & E). injection E as <-.
    pose proof (un_nodup _ m Oc) as N. pose proof (un_map s m k x Oc I) as Ox. destruct (map_kept s m k x vs N I Hvs js Hjs) as (w & jj & Dw & Ew & G).
    destruct (IH w jj Ox Dw Ew Sy) as (z & Lz & Sz). exists z. split; [|exact Sz]. cbn [lookup]. now rewrite G.
  - rewrite dec_list in D. apply bind_ok in D as (vs & Hvs & D). injection D as <-. rewrite enc_glist in E. apply bind_ok in E as (js & Hjs & E). injection E as <-.
    apply elems_ok in Hvs. apply enc_list_ok in Hjs. destruct (Forall2_at _ _ _ Hvs i x I) as (w & Iw & Dw). destruct (Forall2_at _ _ _ Hjs i w Iw) as (jj & Ij & Ew).
    destruct (IH w jj (un_list s l x Oc (nth_error_In _ _ I)) Dw Ew Sy) as (z & Lz & Sz). exists z. split; [|exact Sz]. cbn [lookup]. now rewrite Ij.
  - assert (v = GAny j) as -> by (destruct j; cbn in D; injection D as <-; reflexivity). cbn in E. injection E as <-. exists y. split; [exact L | reflexivity].
  - assert (v = GUnion "" (Some j)) as ->. { destruct j; try (destruct a; discriminate); cbn in D; injection D as <-; reflexivity. }
    cbn in E. injection E as <-. exists y. split; [exact L | reflexivity].
  - pose proof (ref_good m Oc) as N. apply call_cases in D; [|exact N]. destruct D as [(k1 & x1 & p & I1 & S1 & N1 & E1 & ->)|(R & _)]; [|destruct (Nn (R _ _ I Sn))].
    pose proof (one_name m k0 x k1 x1 _ N I I1 Sn S1) as P. injection P as <- <-. cbn in E. apply bind_ok in E as (jr & Er & E). injection E as <-.
    exists jr. split; [reflexivity|]. apply ref_plain in Er as (Pl & ->). destruct x; cbn; try contradiction; eauto.
  - pose proof (ref_good m Oc) as N. apply call_cases in D; [|exact N]. destruct D as [(k1 & x1 & p & I1 & S1 & N1 & _)|(_ & vs & Hvs & ->)]; [destruct (N1 (R _ _ I1 S1))|].
    rewrite enc_gcall in E. apply bind_ok in E as (js & Hjs & E). injection E as <-. pose proof (un_call m k x Oc R I) as Ox. destruct (map_kept _ m k x vs (proj1 N) I Hvs js Hjs) as (w & jj & Dw & Ew & G).
    destruct (IH w jj Ox Dw Ew Sy) as (z & Lz & Sz). exists z. split; [|exact Sz]. cbn [lookup]. now rewrite G.
Qed.

(** ** What can be written *)
Lemma enc_list_total l : (forall v, In v l -> exists j, encode v = Ok j) -> exists js, enc_list l = Ok js.
Proof.
  induction l as [|v l IH]; intro H; [now exists []|]. destruct IH as (js & Hjs); [intros; apply H; now right|]. destruct (H v (or_introl eq_refl)) as (j & Ej).
  cbn [enc_list]. rewrite Ej. cbn [bind]. rewrite Hjs. cbn [bind]. eauto.
Qed.
Lemma enc_map_total l : (forall k v, In (k, v) l -> exists j, encode v = Ok j) -> exists js, enc_map l = Ok js.
Proof.
  induction l as [|[k v] l IH]; intro H; [now exists []|]. destruct IH as (js & Hjs); [intros k' v' I; apply (H k' v'); now right|]. destruct (H k v (or_introl eq_refl)) as (j & Ej).
  cbn [enc_map]. rewrite Ej. cbn [bind]. rewrite Hjs. cbn [bind]. eauto.
Qed.
Lemma emit_total t l : (forall k v, In (k, v) l -> exists j, encode v = Ok j) -> exists js, emit t l = Ok js.
Proof.
  induction l as [|[k v] l IH]; intro H; [now exists []|]. destruct IH as (js & Hjs); [intros k' v' I; apply (H k' v'); now right|]. destruct (H k v (or_introl eq_refl)) as (j & Ej).
  cbn [emit]. destruct (omitted t k v); [eauto|]. rewrite Ej. cbn [bind]. rewrite Hjs. cbn [bind]. eauto.
Qed.
Lemma zero_enc s : exists j, encode (zero_of s) = Ok j.
Proof. destruct s; cbn; eauto. Qed.
Lemma marshal_total p : plain_key (ptr_string p) -> exists j, marshal_ptr p = Ok j.
Proof. intro H. exists (JStr (ptr_string p)). now apply marshal_ptr_iff. Qed.
Lemma encodes j : forall s v, unambiguous s j -> decode j s = Ok v -> writable raw s j -> exists j', encode v = Ok j'.
Proof.
  induction j as [|b|n|t|l IH|m IH] using json_induction; intros s v Oc D W.
  - destruct s; cbn in D; injection D as <-; try (cbn; eauto; fail). unfold zero_struct. rewrite enc_struct. destruct (emit_total t (map (fun f => (f_name f, zero_of (f_shape f))) (fields t))) as (js & ->); [|cbn; eauto].
    intros k w I. apply in_map_iff in I as (f & [= <- <-] & _). apply zero_enc.
  - destruct s; cbn in D; try discriminate; try (injection D as <-; cbn; eauto; fail).
    apply bind_ok in D as (p & Ep & D). injection D as <-. apply marshal_total. apply (W [] (JBool b) p (f_here _ _)); [discriminate | exact Ep].
  - destruct s; cbn in D; try discriminate; try (injection D as <-; cbn; eauto; fail).
    + destruct (int_of big n); [|discriminate]. injection D as <-. cbn. eauto.
    + destruct n as [z|m0 e0|]; [| |discriminate]; injection D as <-; [|cbn; eauto]. destruct (to_float_nearest z) as (m & e & -> & _). cbn. eauto.
    + apply bind_ok in D as (p & Ep & D). injection D as <-. apply marshal_total. apply (W [] (JNum n) p (f_here _ _)); [discriminate | exact Ep].
  - destruct s; cbn in D; try discriminate; try (injection D as <-; cbn; eauto; fail).
    apply bind_ok in D as (p & Ep & D). injection D as <-. apply marshal_total. apply (W [] (JStr t) p (f_here _ _)); [discriminate | exact Ep].
  - rewrite Forall_forall in IH. destruct s; try (cbn in D; discriminate); try (cbn in D; injection D as <-; cbn; eauto; fail).
    + cbn in D. apply bind_ok in D as (p & Ep & D). injection D as <-. apply marshal_total. apply (W [] (JArr l) p (f_here _ _)); [discriminate | exact Ep].
    + rewrite dec_list in D. apply bind_ok in D as (vs & Hvs & D). injection D as <-. rewrite enc_glist. destruct (enc_list_total vs) as (js & ->); [|cbn; eauto].
      apply elems_ok in Hvs. intros w Iw. apply In_nth_error in Iw as (i & Ei). destruct (Forall2_at_r _ _ _ Hvs i w Ei) as (x & Ex & Dx). pose proof (nth_error_In _ _ Ex) as Ix.
      apply (IH x Ix s w (un_list s l x Oc Ix) Dx). intros q y p Fd. exact (W (SIdx i :: q) y p (f_elem s l i x q _ y Ex Fd)).
  - rewrite Forall_forall in IH.
    assert (St : forall t vs, (s = SPtr t \/ s = SVal t) -> each (fun k => option_map f_shape (field_of t k)) m = Ok vs -> exists j', encode (assemble t vs) = Ok j').
    { intros t vs Hs Hvs. unfold assemble. rewrite enc_struct. destruct (each_in _ _ _ _ _ Hvs) as (_ & B & _).
      destruct (emit_total t (map (fun f => (f_name f, last_for t (f_name f) vs (zero_of (f_shape f)))) (fields t))) as (js & ->); [|cbn; eauto].
      intros k w I. apply in_map_iff in I as (f & [= <- <-] & If). destruct (last_for_spec t (f_name f) vs (zero_of (f_shape f))) as [(k0 & g & Ik & Eg & En)|[-> _]]; [|apply zero_enc].
      destruct (B _ _ Ik) as (x & s0 & Ix & Es & Dx). rewrite Eg in Es. injection Es as <-. apply field_of_spec in Eg as [Ig Sg].
      assert (K : In (f_name g, f_shape g) (known t)) by (apply known_field; eauto).
      apply (IH (k0, x) Ix (f_shape g) _); [|exact Dx|].
      - destruct Hs as [-> | ->]; [exact (un_ptr t m _ k0 _ x Oc K Ix Sg) | exact (un_val t m _ k0 _ x Oc K Ix Sg)].
      - intros q y p Fd. apply (W (SKey (f_name g) :: q) y p). destruct Hs as [-> | ->]; [exact (f_ptr t m _ k0 _ x q _ y K Ix Sg Fd) | exact (f_val t m _ k0 _ x q _ y K Ix Sg Fd)]. }
    assert (Mp : forall s0 vs, (forall k x, In (k, x) m -> unambiguous s0 x /\ writable raw s0 x) -> each (fun _ => Some s0) m = Ok vs -> exists js, enc_map vs = Ok js).
    { intros s0 vs Ux Hvs. apply enc_map_total. intros k w I. destruct (each_in _ _ _ _ _ Hvs) as (_ & B & _). destruct (B k w I) as (x & s1 & Ix & [= <-] & Dx). destruct (Ux k x Ix) as [U1 U2]. exact (IH (k, x) Ix s0 w U1 Dx U2). }
    destruct s; try (cbn in D; discriminate); try (cbn in D; injection D as <-; cbn; eauto; fail).
    + cbn in D. apply bind_ok in D as (p & Ep & D). injection D as <-. apply marshal_total. apply (W [] (JObj m) p (f_here _ _)); [discriminate | exact Ep].
    + apply call_cases in D; [|exact (ref_good m Oc)]. destruct D as [(k1 & x1 & p & I1 & S1 & N1 & E1 & ->)|(R & vs & Hvs & ->)].
      * cbn. destruct (marshal_total p) as (j & ->); [|cbn; eauto]. exact (W [SKey "$ref"] x1 p (f_call_ref m k1 x1 I1 S1 N1) N1 E1).
      * rewrite enc_gcall. destruct (Mp (SPtr TPathItem) vs) as (js & ->); [|exact Hvs|cbn; eauto]. intros k x I. split; [exact (un_call m k x Oc R I)|].
        intros q y p Fd. exact (W (SKey k :: q) y p (f_call m k x q _ y R I Fd)).
    + rewrite dec_ptr in D. apply bind_ok in D as (vs & Hvs & D). injection D as <-. exact (St t vs (or_introl eq_refl) Hvs).
    + rewrite dec_val in D. apply bind_ok in D as (vs & Hvs & D). injection D as <-. exact (St t vs (or_intror eq_refl) Hvs).
    + rewrite dec_map in D. apply bind_ok in D as (vs & Hvs & D). injection D as <-. rewrite enc_gmap. destruct (Mp s vs) as (js & ->); [|exact Hvs|cbn; eauto].
      intros k x I. split; [exact (un_map s m k x Oc I)|]. intros q y p Fd. exact (W (SKey k :: q) y p (f_entry s m k x q _ y I Fd)).
Qed.

(** ** Locations have one kind *)
Lemma finds_fun s j q s1 x1 : finds s j q s1 x1 -> unambiguous s j -> forall r s2 x2, finds s j (q ++ r) s2 x2 -> finds s1 x1 r s2 x2.
Proof.
  induction 1 as [s j|t m k k0 s x q s' y Kn I Sn Fd IH|t m k k0 s x q s' y Kn I Sn Fd IH|s m k x q s' y I Fd IH|s l i x q s' y I Fd IH|j a q y L|j a q y L|m k0 x I Sn Nn|m k x q s' y R I Fd IH];
    intros Oc r s2 x2 F2.
  - exact F2.
  - cbn [app] in F2. inversion F2; subst. match goal with K : In (k, ?s1) (known t), I1 : In (?k1, ?x1) m, S1 : same_name ?k1 k, F : finds ?s1 ?x1 (q ++ r) s2 x2 |- _ =>
      pose proof (one_name m k0 x k1 x1 k (ptr_good t m k s Oc Kn) I I1 Sn S1) as P; injection P as <- <-; rewrite <- (known_fun t k s s1 Kn K) in F; exact (IH (un_ptr t m k k0 s x Oc Kn I Sn) r s2 x2 F) end.
  - cbn [app] in F2. inversion F2; subst. match goal with K : In (k, ?s1) (known t), I1 : In (?k1, ?x1) m, S1 : same_name ?k1 k, F : finds ?s1 ?x1 (q ++ r) s2 x2 |- _ =>
      pose proof (one_name m k0 x k1 x1 k (val_good t m k s Oc Kn) I I1 Sn S1) as P; injection P as <- <-; rewrite <- (known_fun t k s s1 Kn K) in F; exact (IH (un_val t m k k0 s x Oc Kn I Sn) r s2 x2 F) end.
  - cbn [app] in F2. inversion F2; subst. match goal with I1 : In (k, ?x1) m, F : finds s ?x1 (q ++ r) s2 x2 |- _ =>
      pose proof (nodup_map_inj fst m _ _ (un_nodup _ m Oc) I I1 eq_refl) as P; injection P as <-; exact (IH (un_map s m k x Oc I) r s2 x2 F) end.
  - cbn [app] in F2. inversion F2; subst. match goal with I1 : nth_error l i = Some ?x1, F : finds s ?x1 (q ++ r) s2 x2 |- _ =>
      assert (x = x1) as <- by congruence; exact (IH (un_list s l x Oc (nth_error_In _ _ I)) r s2 x2 F) end.
  - cbn [app] in F2. inversion F2; subst. match goal with L1 : lookup _ _ = Some x2 |- _ => rewrite app_comm_cons, lookup_app, L in L1 end. destruct r as [|b r]; [|now apply f_raw].
    cbn in *. match goal with L1 : Some _ = Some x2 |- _ => injection L1 as <- end. apply f_here.
  - cbn [app] in F2. inversion F2; subst. match goal with L1 : lookup _ _ = Some x2 |- _ => rewrite app_comm_cons, lookup_app, L in L1 end. destruct r as [|b r]; [|now apply f_raw].
    cbn in *. match goal with L1 : Some _ = Some x2 |- _ => injection L1 as <- end. apply f_here.
  - cbn [app] in F2. inversion F2; subst.
    + match goal with I1 : In (?k1, x2) m, S1 : same_name ?k1 "$ref" |- _ => pose proof (one_name m k0 x k1 x2 "$ref" (ref_good m Oc) I I1 Sn S1) as P; injection P as <- <-; apply f_here end.
    + match goal with R : ref_or_none m |- _ => destruct (Nn (R _ _ I Sn)) end.
  - cbn [app] in F2. inversion F2; subst.
    + match goal with I1 : In (?k1, x2) m, S1 : same_name ?k1 "$ref", N1 : x2 <> JNull |- _ => destruct (N1 (R _ _ I1 S1)) end.
    + match goal with I1 : In (k, ?x1) m, F : finds _ ?x1 (q ++ r) s2 x2 |- _ =>
        pose proof (nodup_map_inj fst m _ _ (un_nodup _ m Oc) I I1 eq_refl) as P; injection P as <-; exact (IH (un_call m k x Oc R I) r s2 x2 F) end.
Qed.
Lemma always_known t k y : In (k, y) (always t) -> In k (map fst (known t)).
Proof.
  rewrite <- fields_always. intro I. apply in_map_iff in I as (f & [= <- _] & I). apply filter_In in I as [I _]. rewrite <- fields_known, map_map. exact (in_map f_name _ _ I).
Qed.

(** ** What is written *)
Lemma always_zero t f : In f (fields t) -> f_omit f = false -> forall j, encode (zero_of (f_shape f)) = Ok j -> In (f_name f, j) (always t).
Proof.
  intros I O j E. rewrite <- fields_always. apply in_map_iff. exists f. split; [|apply filter_In; split; [exact I | now rewrite O]].
  destruct (f_shape f); cbn in E; injection E as <-; reflexivity.
Qed.
Lemma empty_zero s j : encode (zero_of s) = Ok j -> forall a q y, lookup (a :: q) j = Some y -> False.
Proof. destruct s; cbn; intros [= <-] [k|i] q y; discriminate. Qed.
Lemma zero_empty s : is_empty (zero_of s) = true. Proof. destruct s; reflexivity. Qed.

Lemma written j : forall s v j' q y, unambiguous s j -> decode j s = Ok v -> encode v = Ok j' -> lookup q j' = Some y ->
  (exists s' x, finds s j q s' x /\ shows s' x y) \/ added s j q y.
Proof.
  induction j as [|b|n|t|l IH|m IH] using json_induction; intros s v j' q y Oc D E L;
    (destruct q as [|a q]; [cbn in L; injection L as <-; left; eexists _, _; split; [apply f_here | exact (head _ _ _ _ D E)]|]).
  - (* null *)
    destruct s; cbn in D; injection D as <-; try (cbn in E; injection E as <-; destruct a; discriminate).
    right. unfold zero_struct in E. rewrite enc_struct in E. apply bind_ok in E as (js & Hjs & E). injection E as <-.
    destruct a as [k|i]; [|discriminate]. cbn [lookup] in L. rewrite oget_obj_of in L.
    assert (N : NoDup (map fst (map (fun f => (f_name f, zero_of (f_shape f))) (fields t)))) by (rewrite map_map; exact (fields_nodup' t)).
    destruct (oget k js) as [w|] eqn:Ek; [|discriminate]. pose proof (emit_get _ _ _ Hjs N k) as G.
    destruct (oget k (map (fun f => (f_name f, zero_of (f_shape f))) (fields t))) as [z|] eqn:Ez; [|congruence].
    apply oget_in in Ez. apply in_map_iff in Ez as (f & Ef & If). injection Ef as <- <-. rewrite omitted_spec, zero_empty, andb_true_r in G by exact If.
    destruct (f_omit f) eqn:O; [congruence|]. destruct G as (jz & Ejz & G). assert (w = jz) as -> by congruence.
    destruct q as [|a q]; [|destruct (empty_zero _ _ Ejz a q y L)]. cbn in L. injection L as <-.
    exists [], t, (f_name f), JNull. split; [reflexivity|]. split; [exact (always_zero t f If O _ Ejz)|]. split; [right; apply f_here | now left].
  - destruct s; cbn in D; try discriminate; try (injection D as <-; cbn in E; injection E as <-; destruct a; discriminate).
    apply bind_ok in D as (p & _ & D). injection D as <-. apply ref_shown in E as ->. destruct a; discriminate.
  - destruct s; cbn in D; try discriminate; try (injection D as <-; cbn in E; injection E as <-; destruct a; discriminate).
    + destruct (int_of big n); [|discriminate]. injection D as <-. cbn in E. injection E as <-. destruct a; discriminate.
    + destruct n; try discriminate; injection D as <-.
      * cbn in E. destruct (to_float z); try discriminate; injection E as <-; destruct a; discriminate.
      * cbn in E. injection E as <-; destruct a; discriminate.
    + apply bind_ok in D as (p & _ & D). injection D as <-. apply ref_shown in E as ->. destruct a; discriminate.
  - destruct s; cbn in D; try discriminate; try (injection D as <-; cbn in E; injection E as <-; destruct a; discriminate).
    + apply bind_ok in D as (p & _ & D). injection D as <-. apply ref_shown in E as ->. destruct a; discriminate.
    + injection D as <-. cbn in E. injection E as <-. destruct (String.eqb t ""); destruct a; discriminate.
  - rewrite Forall_forall in IH. destruct s; try (cbn in D; discriminate).
    + cbn in D. injection D as <-. cbn in E. injection E as <-. left. exists SAny, y. split; [now apply f_raw | reflexivity].
    + cbn in D. apply bind_ok in D as (p & _ & D). injection D as <-. apply ref_shown in E as ->. destruct a; discriminate.
    + cbn in D. injection D as <-. cbn in E. injection E as <-. left. exists SAny, y. split; [now apply f_union | reflexivity].
    + rewrite dec_list in D. apply bind_ok in D as (vs & Hvs & D). injection D as <-. rewrite enc_glist in E. apply bind_ok in E as (js & Hjs & E). injection E as <-.
      apply elems_ok in Hvs. apply enc_list_ok in Hjs. destruct a as [k|i]; [discriminate|]. cbn [lookup] in L. destruct (nth_error js i) as [jj|] eqn:Ij; [|discriminate].
      destruct (Forall2_at_r _ _ _ Hjs i jj Ij) as (w & Iw & Ew). destruct (Forall2_at_r _ _ _ Hvs i w Iw) as (x & Ix & Dw).
      destruct (IH x (nth_error_In _ _ Ix) s w jj q y (un_list s l x Oc (nth_error_In _ _ Ix)) Dw Ew L) as [(s' & z & Fz & Sz)|(q0 & t & k & z & -> & Al & Fz & Nz)].
      * left. exists s', z. split; [|exact Sz]. exact (f_elem s l i x q s' z Ix Fz).
      * right. exists (SIdx i :: q0), t, k, z. split; [reflexivity|]. split; [exact Al|]. split; [|exact Nz]. destruct Fz as [Fz|Fz]; [left|right]; exact (f_elem s l i x q0 _ z Ix Fz).
  - rewrite Forall_forall in IH.
    assert (St : forall t vs, (s = SPtr t \/ s = SVal t) -> each (fun k => option_map f_shape (field_of t k)) m = Ok vs -> encode (assemble t vs) = Ok j' ->
      (exists s' x, finds s (JObj m) (a :: q) s' x /\ shows s' x y) \/ added s (JObj m) (a :: q) y).
    { intros t vs Hs Hvs Es. destruct (struct_get raw big t m vs j' Hvs Es) as (m' & -> & _ & Kn & G). destruct a as [k|i]; [|discriminate]. cbn [lookup] in L.
      destruct (oget k m') as [jj|] eqn:Ek; [|discriminate]. destruct (Kn _ _ Ek) as (f & If & <-). destruct (G f If) as (w & Hw & O).
      assert (Fs : forall k0 x q s' z, In (k0, x) m -> same_name k0 (f_name f) -> finds (f_shape f) x q s' z -> finds s (JObj m) (SKey (f_name f) :: q) s' z).
      { intros k0 x q1 s' z I Sn Fz. assert (K : In (f_name f, f_shape f) (known t)) by (apply known_field; eauto).
        destruct Hs as [-> | ->]; [exact (f_ptr t m (f_name f) k0 (f_shape f) x q1 s' z K I Sn Fz) | exact (f_val t m (f_name f) k0 (f_shape f) x q1 s' z K I Sn Fz)]. }
      destruct (f_omit f && is_empty w) eqn:Om; [congruence|]. destruct O as (j2 & Ej & G2). assert (jj = j2) as -> by congruence.
      destruct Hw as [(k0 & x & I & Sn & Dw)|(-> & Nn)].
      - assert (Ux : unambiguous (f_shape f) x).
        { assert (K : In (f_name f, f_shape f) (known t)) by (apply known_field; eauto). destruct Hs as [-> | ->]; [exact (un_ptr t m _ k0 _ x Oc K I Sn) | exact (un_val t m _ k0 _ x Oc K I Sn)]. }
        destruct (IH (k0, x) I (f_shape f) w j2 q y Ux Dw Ej L) as [(s' & z & Fz & Sz)|(q0 & t' & k & z & -> & Al & Fz & Nz)].
        + left. exists s', z. split; [|exact Sz]. exact (Fs _ _ _ _ _ I Sn Fz).
        + right. exists (SKey (f_name f) :: q0), t', k, z. split; [reflexivity|]. split; [exact Al|]. split; [|exact Nz]. destruct Fz as [Fz|Fz]; [left|right]; exact (Fs _ _ _ _ _ I Sn Fz).
      - rewrite zero_empty, andb_true_r in Om. destruct q as [|b q]; [|destruct (empty_zero _ _ Ej b q y L)]. cbn in L. injection L as <-.
        right. exists [], t, (f_name f), (JObj m). split; [reflexivity|]. split; [exact (always_zero t f If Om _ Ej)|]. split; [destruct Hs as [-> | ->]; [left | right]; apply f_here|]. right. exists m. split; [reflexivity | exact Nn]. }
    assert (Mp : forall s0 vs js, (forall k x, In (k, x) m -> unambiguous s0 x) -> each (fun _ => Some s0) m = Ok vs -> enc_map vs = Ok js -> lookup (a :: q) (JObj (obj_of js)) = Some y ->
      (forall k x q s' z, In (k, x) m -> finds s0 x q s' z -> finds s (JObj m) (SKey k :: q) s' z) ->
      (exists s' x, finds s (JObj m) (a :: q) s' x /\ shows s' x y) \/ added s (JObj m) (a :: q) y).
    { clear D E L. intros s0 vs js Ux Hvs Hjs L Fs. destruct a as [k|i]; [|discriminate]. cbn [lookup] in L. rewrite oget_obj_of in L.
      pose proof (enc_map_get _ _ k Hjs) as G. destruct (oget k js) as [jj|] eqn:Ek; [|discriminate]. destruct (oget k vs) as [w|] eqn:Ew; [|congruence].
      destruct G as (j2 & Ej & G). assert (jj = j2) as -> by congruence. apply oget_in in Ew. destruct (each_in _ _ _ _ _ Hvs) as (_ & B & _). destruct (B k w Ew) as (x & s1 & I & [= <-] & Dw).
      destruct (IH (k, x) I s0 w j2 q y (Ux _ _ I) Dw Ej L) as [(s' & z & Fz & Sz)|(q0 & t' & k' & z & -> & Al & Fz & Nz)].
      - left. exists s', z. split; [|exact Sz]. exact (Fs _ _ _ _ _ I Fz).
      - right. exists (SKey k :: q0), t', k', z. split; [reflexivity|]. split; [exact Al|]. split; [|exact Nz]. destruct Fz as [Fz|Fz]; [left|right]; exact (Fs _ _ _ _ _ I Fz). }
    destruct s; try (cbn in D; discriminate).
    + cbn in D. injection D as <-. cbn in E. injection E as <-. left. exists SAny, y. split; [now apply f_raw | reflexivity].
    + cbn in D. apply bind_ok in D as (p & _ & D). injection D as <-. apply ref_shown in E as ->. destruct a; discriminate.
    + cbn in D. injection D as <-. cbn in E. injection E as <-. left. exists SAny, y. split; [now apply f_union | reflexivity].
    + apply call_cases in D; [|exact (ref_good m Oc)]. destruct D as [(k1 & x1 & p & I1 & S1 & N1 & E1 & ->)|(R & vs & Hvs & ->)].
      * cbn in E. apply bind_ok in E as (jr & Er & E). injection E as <-. destruct a as [k|i]; [|discriminate]. cbn [lookup oget] in L.
        destruct (String.eqb_spec k "$ref") as [->|]; [|discriminate]. apply ref_plain in Er as (Pl & ->). destruct q as [|b q]; [|destruct b; discriminate]. cbn in L. injection L as <-.
        left. exists SRef, x1. split; [exact (f_call_ref m k1 x1 I1 S1 N1)|]. destruct x1; cbn; try contradiction; eauto.
      * rewrite enc_gcall in E. apply bind_ok in E as (js & Hjs & E). injection E as <-. apply (Mp (SPtr TPathItem) vs js (fun k x => un_call m k x Oc R) Hvs Hjs L).
        intros k x q1 s' z I Fz. exact (f_call m k x q1 s' z R I Fz).
    + rewrite dec_ptr in D. apply bind_ok in D as (vs & Hvs & D). injection D as <-. exact (St t vs (or_introl eq_refl) Hvs E).
    + rewrite dec_val in D. apply bind_ok in D as (vs & Hvs & D). injection D as <-. exact (St t vs (or_intror eq_refl) Hvs E).
    + rewrite dec_map in D. apply bind_ok in D as (vs & Hvs & D). injection D as <-. rewrite enc_gmap in E. apply bind_ok in E as (js & Hjs & E). injection E as <-.
      apply (Mp s vs js (fun k x => un_map s m k x Oc) Hvs Hjs L). intros k x q1 s' z I Fz. exact (f_entry s m k x q1 s' z I Fz).
Qed.
Lemma dropped s j v j' t q m k : unambiguous s j -> decode j s = Ok v -> encode v = Ok j' ->
  finds s j q (SPtr t) (JObj m) \/ finds s j q (SVal t) (JObj m) -> ~ In k (map fst (known t)) -> lookup (q ++ [SKey k]) j' = None.
Proof.
  intros Oc D E F Nk. destruct (lookup (q ++ [SKey k]) j') as [y|] eqn:L; [|reflexivity]. exfalso.
  destruct (written j s v j' _ y Oc D E L) as [(s' & x & Fx & _)|(q0 & t0 & k0 & x & Eq & Al & Fx & _)].
  - destruct F as [F|F]; apply (finds_fun _ _ _ _ _ F Oc) in Fx; inversion Fx; subst; match goal with K : In (k, _) (known t) |- _ => apply (in_map fst) in K; exact (Nk K) end.
  - apply app_inj_tail in Eq as [<- [= <-]]. apply always_known in Al.
    assert (t0 = t) as ->; [|exact (Nk Al)].
    destruct F as [F|F]; destruct Fx as [Fx|Fx]; rewrite <- (app_nil_r q) in Fx; apply (finds_fun _ _ _ _ _ F Oc) in Fx; inversion Fx; reflexivity.
Qed.
End Api.
