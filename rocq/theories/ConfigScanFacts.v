(** What the configuration's options look like. *)
From Coq Require Import String Ascii List Bool Arith ZArith Lia Permutation.
From Verif Require Import GoStr Json JsonFacts Gabs Container MergeFacts Spec_Clone CloneFacts Url Pointer SchemaJson SchemaJsonFacts SchemaJsonApi
  Spec_Loc LocFacts Spec_Format Root Spec_Root RootFacts Shape Spec_Shape ShapeFacts ShapeApi Types Scan Config ConfigScan.
Import ListNotations.
Local Open Scope string_scope.
Local Open Scope nat_scope.
Local Open Scope list_scope.

(** ** Canonical documents *)
Definition nice (P : string -> Prop) (j : json) : Prop := wf j /\ keys_ok P j /\ fixed j.
Lemma nice_obj P m : sorted m -> (forall k y, oget k m = Some y -> P k /\ nice P y) -> nice P (JObj m).
Proof.
  intros S H. assert (H' : forall k y, In (k, y) m -> P k /\ nice P y) by (intros k y I; apply H; exact (sorted_in_oget _ _ _ S I)). split; [|split].
  - apply wf_obj. split; [exact S|]. apply Forall_forall. intros [k y] I. exact (proj1 (proj2 (H' k y I))).
  - apply keys_ok_obj. apply Forall_forall. intros [k y] I. destruct (H' k y I) as (Pk & _ & K & _). auto.
  - apply fixed_obj; [exact S|]. intros k y E. exact (proj2 (proj2 (proj2 (H k y E)))).
Qed.
Lemma nice_oget P m k y : nice P (JObj m) -> oget k m = Some y -> P k /\ nice P y.
Proof.
  intros (W & K & Fx) E. destruct (keys_ok_oget P m k y K E) as [Pk Ky]. split; [exact Pk|]. split; [exact (wf_oget _ _ _ W E)|]. split; [exact Ky|].
  apply wf_obj in W as [S _]. exact (fixed_oget m k y S Fx E).
Qed.
Lemma nice_in P m k y : nice P (JObj m) -> In (k, y) m -> P k /\ nice P y.
Proof. intros N I. apply (nice_oget P m k y N). destruct N as (W & _). apply wf_obj in W as [S _]. exact (sorted_in_oget _ _ _ S I). Qed.
Lemma fixed_arr l : fixed (JArr l) <-> forall x, In x l -> fixed x.
Proof.
  unfold fixed. rewrite clone_arr_eq. split.
  - intro H. apply bind_ok in H as (l' & Hl & H). injection H as ->. apply clone_list_ok in Hl. intros x I. assert (G : forall a b, Forall2 (fun x y => clone x = Ok y) a b -> a = b -> In x a -> clone x = Ok x).
    { induction 1 as [|u v a b E _ IH]; intros Eq Ia; [destruct Ia|]. injection Eq as <- <-. destruct Ia as [<-|Ia]; auto. }
    exact (G l l Hl eq_refl I).
  - intro H. assert (clone_list l = Ok l) as ->; [|reflexivity]. induction l as [|x l IH]; [reflexivity|]. cbn. fold (clone_list l). rewrite (H x (or_introl eq_refl)). cbn. rewrite IH by (intros; apply H; now right). reflexivity.
Qed.
Lemma nice_arr P l : nice P (JArr l) <-> (Z.of_nat (length l) < 2 ^ 63)%Z /\ forall x, In x l -> nice P x.
Proof.
  unfold nice. rewrite wf_arr, keys_ok_arr, fixed_arr, !Forall_forall. split.
  - intros (A & (L & B) & C). split; [exact L|]. intros x I. auto.
  - intros (L & H). split; [|split; [split; [exact L|]|]]; intros x I; apply (H x I).
Qed.
Lemma nice_str P t : nice P (JStr t). Proof. repeat split. Qed.
Lemma nice_null P : nice P JNull. Proof. repeat split. Qed.
Lemma nice_bool P b : nice P (JBool b). Proof. repeat split. Qed.
Lemma nice_flt P m e : nice P (JNum (NFlt m e)). Proof. repeat split. Qed.
Lemma nice_float P z : nice P (JNum (to_float z)). Proof. destruct (to_float_flt z) as (m & e & ->). apply nice_flt. Qed.

Section Facts.
Context (raw : json -> string) (big : Z -> option Z) (P : string -> Prop).
Hypothesis HP : forall t k, In k (map fst (known t)) -> P k.
Local Notation decode := (decode raw big).
Local Notation each := (each raw big).

Lemma zero_nice s y : encode (zero_of s) = Ok y -> nice P y.
Proof. destruct s; cbn; intros [= <-]; auto using nice_str, nice_null, nice_bool. Qed.
Lemma ref_nice p y : marshal_ptr p = Ok y -> nice P y.
Proof. intro H. apply marshal_ptr_iff in H as (_ & ->). apply nice_str. Qed.
Lemma nice_out j : forall s v y, nice P j -> decode j s = Ok v -> encode v = Ok y -> nice P y.
Proof.
  induction j as [|b|n|t|l IH|m IH] using json_induction; intros s v y N D E.
  - destruct s; cbn in D; injection D as <-; try (cbn in E; injection E as <-; auto using nice_str, nice_null, nice_bool; fail).
    unfold zero_struct in E. rewrite enc_struct in E. apply bind_ok in E as (js & Hjs & E). injection E as <-. apply nice_obj; [apply obj_of_sorted|].
    intros k y Ek. rewrite oget_obj_of in Ek.
    assert (Nd : NoDup (map fst (map (fun f => (Shape.f_name f, zero_of (f_shape f))) (fields t)))) by (rewrite map_map; exact (fields_nodup' t)).
    pose proof (emit_get _ _ _ Hjs Nd k) as G. destruct (oget k (map (fun f => (Shape.f_name f, zero_of (f_shape f))) (fields t))) as [z|] eqn:Ez; [|congruence].
    apply oget_in in Ez. apply in_map_iff in Ez as (f & Ef & If). injection Ef as <- <-. destruct (omitted t (Shape.f_name f) _); [congruence|]. destruct G as (jz & Ejz & G). assert (y = jz) as -> by congruence.
    split; [apply (HP t); rewrite <- fields_known, map_map; exact (in_map Shape.f_name _ _ If) | exact (zero_nice _ _ Ejz)].
  - destruct s; cbn in D; try discriminate; try (injection D as <-; cbn in E; injection E as <-; exact N).
    apply bind_ok in D as (p & _ & D). injection D as <-. exact (ref_nice _ _ E).
  - destruct s; cbn in D; try discriminate; try (injection D as <-; cbn in E; injection E as <-; exact N).
    + destruct (int_of big n); [|discriminate]. injection D as <-. cbn in E. injection E as <-. apply nice_float.
    + destruct n as [z|m0 e0|]; [| |discriminate]; injection D as <-.
      * destruct (to_float_flt z) as (m & e & Ez). rewrite Ez in E. cbn in E. injection E as <-. apply nice_flt.
      * cbn in E. injection E as <-. exact N.
    + apply bind_ok in D as (p & _ & D). injection D as <-. exact (ref_nice _ _ E).
  - destruct s; cbn in D; try discriminate; try (injection D as <-; cbn in E; injection E as <-; exact N).
    + apply bind_ok in D as (p & _ & D). injection D as <-. exact (ref_nice _ _ E).
    + injection D as <-. cbn in E. injection E as <-. destruct (String.eqb t ""); [apply nice_null | exact N].
  - rewrite Forall_forall in IH. destruct s; try (cbn in D; discriminate); try (cbn in D; injection D as <-; cbn in E; injection E as <-; exact N).
    + cbn in D. apply bind_ok in D as (p & _ & D). injection D as <-. exact (ref_nice _ _ E).
    + rewrite dec_list in D. apply bind_ok in D as (vs & Hvs & D). injection D as <-. rewrite enc_glist in E. apply bind_ok in E as (js & Hjs & E). injection E as <-.
      apply elems_ok in Hvs. apply enc_list_ok in Hjs. apply nice_arr in N as (L & N). apply nice_arr. split; [rewrite <- (Forall2_len _ _ _ Hjs), <- (Forall2_len _ _ _ Hvs); exact L|].
      intros x I. apply In_nth_error in I as (i & Ei). destruct (Forall2_at_r _ _ _ Hjs i x Ei) as (w & Iw & Ew). destruct (Forall2_at_r _ _ _ Hvs i w Iw) as (z & Iz & Dz). pose proof (nth_error_In _ _ Iz) as Ix.
      exact (IH z Ix s w x (N z Ix) Dz Ew).
  - rewrite Forall_forall in IH.
    assert (St : forall t vs, each (fun k => option_map f_shape (field_of t k)) m = Ok vs -> encode (assemble t vs) = Ok y -> nice P y).
    { intros t vs Hvs Es. destruct (struct_get raw big t m vs y Hvs Es) as (m' & -> & Sm & Kn & G). apply nice_obj; [exact Sm|]. intros k z Ek. destruct (Kn k z Ek) as (f & If & <-).
      split; [apply (HP t); rewrite <- fields_known, map_map; exact (in_map Shape.f_name _ _ If)|]. destruct (G f If) as (w & Hw & O). destruct (f_omit f && is_empty w); [congruence|].
      destruct O as (jz & Ejz & G2). assert (z = jz) as -> by congruence. destruct Hw as [(k0 & x & I & _ & Dw)|(-> & _)]; [|exact (zero_nice _ _ Ejz)].
      exact (IH (k0, x) I _ w jz (proj2 (nice_in P m k0 x N I)) Dw Ejz). }
    assert (Mp : forall s0 vs js, each (fun _ => Some s0) m = Ok vs -> enc_map vs = Ok js -> nice P (JObj (obj_of js))).
    { intros s0 vs js Hvs Hjs. apply nice_obj; [apply obj_of_sorted|]. intros k z Ek. rewrite oget_obj_of in Ek. pose proof (enc_map_get _ _ k Hjs) as G.
      destruct (oget k vs) as [w|] eqn:Ew; [|congruence]. destruct G as (jz & Ejz & G). assert (z = jz) as -> by congruence. apply oget_in in Ew.
      destruct (each_in _ _ _ _ _ Hvs) as (_ & B & _). destruct (B k w Ew) as (x & s1 & I & [= <-] & Dw). destruct (nice_in P m k x N I) as [Pk Nx]. split; [exact Pk|]. exact (IH (k, x) I _ w jz Nx Dw Ejz). }
    destruct s; try (cbn in D; discriminate); try (cbn in D; injection D as <-; cbn in E; injection E as <-; exact N).
    + cbn in D. apply bind_ok in D as (p & _ & D). injection D as <-. exact (ref_nice _ _ E).
    + rewrite dec_call in D. apply bind_ok in D as (rs & _ & D).
      assert (C : (exists p, v = GCallRef p) \/ exists vs, each (fun _ => Some (SPtr TPathItem)) m = Ok vs /\ v = GCallMap vs).
      { destruct (last (map snd rs) GNil); try (apply bind_ok in D as (vs & Hvs & D); injection D as <-; eauto). injection D as <-. eauto. }
      destruct C as [(p & ->)|(vs & Hvs & ->)].
      * cbn in E. apply bind_ok in E as (jr & Er & E). injection E as <-. apply nice_obj; [repeat constructor|]. intros k z Ek. cbn in Ek. destruct (String.eqb_spec k "$ref") as [->|]; [|discriminate]. injection Ek as <-.
        split; [apply (HP TSchema); now left | exact (ref_nice _ _ Er)].
      * rewrite enc_gcall in E. apply bind_ok in E as (js & Hjs & E). injection E as <-. exact (Mp _ _ _ Hvs Hjs).
    + rewrite dec_ptr in D. apply bind_ok in D as (vs & Hvs & D). injection D as <-. exact (St _ _ Hvs E).
    + rewrite dec_val in D. apply bind_ok in D as (vs & Hvs & D). injection D as <-. exact (St _ _ Hvs E).
    + rewrite dec_map in D. apply bind_ok in D as (vs & Hvs & D). injection D as <-. rewrite enc_gmap in E. apply bind_ok in E as (js & Hjs & E). injection E as <-. exact (Mp _ _ _ Hvs Hjs).
Qed.
End Facts.
