(** Schemas whose references are alone and whose numbers can be written; what
    the schema of a type refers to. *)
From Coq Require Import String Ascii List Bool Arith ZArith Lia.
From Verif Require Import Route GoStr GoStrFacts Json JsonFacts MergeFacts Url Pointer Tag Types Spec_Types TypesFacts CollectFacts SimpleChain Spec_Tag Spec_Schema
  FieldFacts FieldOutcome SchemaFacts SchemaOutcome SchemaRefs SchemaShape JsonText SchemaJson Spec_Loc Spec_Clone LocFacts SchemaJsonFacts SchemaJsonApi Spec_Resolve ConfigApi ScanFacts ScanTypes P_At Scan Spec_Scan Spec_Ends Spec_Kept Spec_ScanOk.
Import ListNotations.
Local Open Scope string_scope.
Local Open Scope nat_scope.
Local Open Scope list_scope.

Section Neat.
  Context {F : Type} (fnum : F -> num).
  Implicit Types s : schema F.
  Definition dry (o : option F) : Prop := forall f, o = Some f -> fnum f <> NBad.
  Inductive neat : schema F -> Prop :=
  | neat_intro s :
      (s_ref s <> None -> s_props s = [] /\ s_items s = None /\ s_addl s = None /\ s_oneof s = []) ->
      dry (s_min s) -> dry (s_max s) -> dry (s_mulof s) ->
      (forall k x, In (k, x) (s_props s) -> neat x) -> (forall x, s_items s = Some x -> neat x) -> (forall x, s_addl s = Some x -> neat x) -> (forall x, In x (s_oneof s) -> neat x) -> neat s.
  Lemma dry_none : dry None. Proof. discriminate. Qed.
  Lemma neat_same s s' : neat s -> s_ref s' = s_ref s -> s_props s' = s_props s -> s_items s' = s_items s -> s_addl s' = s_addl s -> s_oneof s' = s_oneof s ->
    s_min s' = s_min s -> s_max s' = s_max s -> s_mulof s' = s_mulof s -> neat s'.
  Proof. intros H E0 E1 E2 E3 E4 E5 E6 E7. destruct H as [s A1 A2 A3 A4 A5 A6 A7 A8]. apply neat_intro; rewrite ?E0, ?E1, ?E2, ?E3, ?E4, ?E5, ?E6, ?E7; assumption. Qed.
  Lemma neat_bare s : s_props s = [] -> s_items s = None -> s_addl s = None -> s_oneof s = [] -> dry (s_min s) -> dry (s_max s) -> dry (s_mulof s) -> neat s.
  Proof. intros E1 E2 E3 E4 D1 D2 D3. apply neat_intro; rewrite ?E1, ?E2, ?E3, ?E4; try assumption; try (now intros); intros ? []. Qed.
  Lemma nullable_neat b s : neat s -> neat (with_nullable b s).
  Proof. intro H. eapply neat_same; [exact H|..]; reflexivity. Qed.
  Lemma map_neat tg s : neat s -> neat (map_schema tg s).
  Proof. intro H. unfold map_schema, if_some. destruct (t_nullable tg); (apply neat_intro; cbn; try congruence; try exact dry_none; try (intros ? ? []); try (intros ? []); intros x [= <-]; exact H). Qed.
  Lemma slice_neat tg s : neat s -> neat (slice_schema tg s).
  Proof. intro H. unfold slice_schema, if_some. destruct (t_nullable tg); (apply neat_intro; cbn; try congruence; try exact dry_none; try (intros ? ? []); try (intros ? []); intros x [= <-]; exact H). Qed.
  Lemma array_neat n tg s : neat s -> neat (array_schema n tg s).
  Proof. intro H. unfold array_schema, if_some. destruct (t_nullable tg), (n >? 0)%Z; (apply neat_intro; cbn; try congruence; try exact dry_none; try (intros ? ? []); try (intros ? []); intros x [= <-]; exact H). Qed.
  Lemma pointer_neat tg s : neat s -> neat (pointer_schema tg s).
  Proof.
    intro H. unfold pointer_schema. set (s1 := if_some (t_nullable tg) with_nullable (with_nullable true s)).
    assert (H1 : neat s1) by (unfold s1, if_some; destruct (t_nullable tg); repeat apply nullable_neat; exact H).
    destruct (s_ref s1); [|exact H1]. destruct (negb (s_nullable s1)); [exact H1|]. apply neat_intro; cbn; try congruence; try exact dry_none; try (intros ? ? []).
    intros x [<-|[<-|[]]]; [apply nullable_neat, H1 | apply neat_bare; try reflexivity; exact dry_none].
  Qed.
  Lemma wrap_neat tg u s : neat s -> neat (wrap tg u s).
  Proof. destruct u; cbn [wrap]; auto using map_neat, slice_neat, array_neat, pointer_neat. Qed.
  Definition dry_tag (tg : tag F) : Prop := forall f, In (Some f) [t_min tg; t_max tg; t_emin tg; t_emax tg; t_mulof tg] -> fnum f <> NBad.
  Lemma basic_neat zero k (tg : tag F) s : fnum zero <> NBad -> dry_tag tg -> basic2schema zero k tg = Ok s -> neat s.
  Proof.
    intros Hz Ht H. pose proof (basic_bare _ _ _ _ H) as (B1 & B2 & B3 & B4 & B5 & _).
    assert (D : dry (s_min s) /\ dry (s_max s) /\ dry (s_mulof s)).
    { unfold basic2schema in H. destruct (basic_base zero k) as [b|] eqn:E; [|discriminate]. injection H as <-.
      assert (B : dry (s_min b) /\ dry (s_max b) /\ dry (s_mulof b)) by (destruct k; cbn in E; try discriminate; injection E as <-; cbn; repeat split; try exact dry_none; intros f [= <-]; exact Hz).
      destruct B as (C1 & C2 & C3).
      assert (T : forall f, t_min tg = Some f \/ t_max tg = Some f \/ t_emin tg = Some f \/ t_emax tg = Some f \/ t_mulof tg = Some f -> fnum f <> NBad) by (intros f Hf; apply Ht; cbn; tauto).
      destruct (_ || _).
      - unfold number_bounds, if_some. destruct (t_min tg) eqn:E1, (t_max tg) eqn:E2, (t_emin tg) eqn:E3, (t_emax tg) eqn:E4, (t_mulof tg) eqn:E5; cbn;
          (split; [|split]); first [assumption | intros ? [= <-]; apply T; tauto].
      - destruct (String.eqb _ _); [unfold string_bounds, if_some; destruct (t_maxlen tg), (t_minlen tg); cbn; auto | auto]. }
    apply neat_bare; tauto.
  Qed.
  Lemma basic_string_neat zero t (tg : tag F) s : fnum zero <> NBad -> dry_tag tg -> basic_string2schema zero t tg = Ok s -> neat s.
  Proof.
    intros Hz Ht. unfold basic_string2schema. repeat match goal with |- context [if ?b then _ else _] => destruct b end; try (now apply basic_neat); try discriminate;
      try (intro H; apply bind_ok in H as (x & Hx & [= <-]); apply (basic_neat _ _ _ _ Hz Ht) in Hx; eapply neat_same; [exact Hx|..]; reflexivity); intros [= <-]; apply neat_bare; try reflexivity; exact dry_none.
  Qed.
  Lemma attrs_neat tg s : neat s -> neat (field_attrs tg s).
  Proof.
    intro H. unfold field_attrs. destruct (s_ref s) eqn:E; [exact H|]. unfold if_some. destruct (t_nullable tg); (eapply neat_same; [exact H|..]; try reflexivity).
  Qed.
  Lemma tag_zero_dry : dry_tag tag_zero.
  Proof. intros f H. cbn in H. repeat destruct H as [H|H]; try discriminate. destruct H. Qed.

  (** *** Their JSON forms *)
  Lemma lonely_flat m : match oget "$ref" m with Some (JStr _) => False | _ => True end -> (forall k v, In (k, v) m -> lonely v) -> lonely (JObj m).
  Proof.
    intros Hr H q q' t p t' (L & E) L'. destruct q as [|[k|i] q]; try discriminate L; cbn [app lookup] in L, L'.
    - destruct (oget "$ref" m) as [[]|]; try discriminate L. destruct Hr.
    - destruct (oget k m) as [x|] eqn:N; [|discriminate]. exact (H k x (oget_in _ _ _ N) q q' t p t' (conj L E) L').
  Qed.
  Definition no_refs (v : json) : Prop := forall q t, lookup (q ++ [SKey "$ref"]) v <> Some (JStr t).
  Lemma no_refs_scalar v : match v with JArr _ | JObj _ => False | _ => True end -> no_refs v.
  Proof. intros H q t L. destruct v; try destruct H; destruct q as [|[] ?]; discriminate. Qed.
  Lemma no_refs_strs l : no_refs (JArr (map JStr l)).
  Proof. intros q t L. destruct q as [|[k0|i] q]; try discriminate. cbn [app lookup] in L. destruct (nth_error _ i) as [y|] eqn:Ey; [|discriminate]. apply nth_error_In, in_map_iff in Ey as (u & <- & _). exact (no_refs_scalar (JStr u) Logic.I q t L). Qed.
  Lemma no_refs_lonely v : no_refs v -> lonely v.
  Proof. intros H q q' t p t' (L & _) _. destruct (H q t L). Qed.
  Lemma lonely_bare m : (forall k v, In (k, v) m -> no_refs v) -> lonely (JObj m).
  Proof.
    intros H q q' t p t' (L & E) L'. destruct q as [|[k|i] q]; try discriminate L; cbn [app lookup] in L, L'.
    - destruct q' as [|[k|i] q']; [reflexivity | | discriminate L']. cbn [app lookup] in L'. destruct (oget k m) as [x|] eqn:N; [|discriminate]. destruct (H k x (oget_in _ _ _ N) q' t' L').
    - destruct (oget k m) as [x|] eqn:N; [|discriminate]. destruct (H k x (oget_in _ _ _ N) q t L).
  Qed.
  Lemma forall2_in_r {A B} (R : A -> B -> Prop) l l' y : Forall2 R l l' -> In y l' -> exists x, In x l /\ R x y.
  Proof. induction 1 as [|x z l l' H _ IH]; [intros []|]. intros [<-|I]; [exists x; split; [now left | exact H]|]. destruct (IH I) as (w & Iw & Rw). exists w. split; [now right | exact Rw]. Qed.
  Lemma schema_neat s : neat s -> forall j, schema_json fnum s = Ok j -> lonely j /\ ~ In NBad (numbers j).
  Proof.
    induction 1 as [s Hr Dm DM Dd Np IHp Ni IHi Na IHa No IHo]. intros j Hj.
    destruct (schema_json_spec fnum s j Hj) as (r & addl & items & oneof & props & Jr & Ja & Ji & Jo & Jp & ->).
    assert (Mem : forall k v, In (k, v) (flat (members fnum s r addl items oneof props)) ->
      (no_refs v \/ (s_ref s = None /\ lonely v)) /\ ~ In NBad (numbers v)).
    { intros k v I. apply in_flat in I.
      assert (SC : match v with JArr _ | JObj _ | JNum NBad => False | _ => True end -> (no_refs v \/ (s_ref s = None /\ lonely v)) /\ ~ In NBad (numbers v)).
      { intro S. split; [left; apply no_refs_scalar; destruct v; auto; destruct n; auto; destruct S|]. intro X. destruct v as [| |n| | |]; try (now destruct X); try (now destruct S). destruct X as [X|[]]. subst n. destruct S. }
      assert (NR : s_ref s = None \/ s_ref s <> None) by (destruct (s_ref s); [right; discriminate | now left]).
      unfold members, o_bool, o_str, o_int, o_flt in I.
      repeat (destruct I as [E|I]; [injection E as _ E|]); try (destruct I); try (destruct (_ : bool) in E; [injection E as <- | discriminate E]; apply SC; exact Logic.I);
        try (destruct (String.eqb _ _) in E; [discriminate E | injection E as <-]; apply SC; exact Logic.I).
      all: try (match type of E with option_map (fun z => JNum (NInt z)) ?o = _ => destruct o; [injection E as <- | discriminate E] end; apply SC; exact Logic.I).
      all: try (match type of E with option_map _ ?o = _ => destruct o as [f|] eqn:Ef; [injection E as <- | discriminate E] end; apply SC;
        assert (Z : fnum f <> NBad) by auto; destruct (fnum f); congruence || exact Logic.I).
      - subst r. destruct (s_ref s) as [p|]; [|discriminate Jr]. destruct Jr as (y & Hy & [= ->]). apply marshal_str in Hy as (u & ->). now apply SC.
      - subst addl. unfold opt_json in Ja. destruct (s_addl s) as [x|] eqn:Ex; [|discriminate]. destruct Ja as (y & Hy & [= ->]). destruct (IHa x eq_refl y Hy) as (L & N). split; [|exact N]. right. split; [|exact L]. destruct NR as [->|X]; [reflexivity|]. apply Hr in X as (_ & _ & X & _). discriminate.
      - subst items. unfold opt_json in Ji. destruct (s_items s) as [x|] eqn:Ex; [|discriminate]. destruct Ji as (y & Hy & [= ->]). destruct (IHi x eq_refl y Hy) as (L & N). split; [|exact N]. right. split; [|exact L]. destruct NR as [->|X]; [reflexivity|]. apply Hr in X as (_ & X & _). discriminate.
      - assert (E' : v = JArr oneof) by (destruct oneof; [discriminate | now injection E as <-]). subst v. assert (O : forall y, In y oneof -> lonely y /\ ~ In NBad (numbers y)) by (intros y Iy; destruct (forall2_in_r _ _ _ _ Jo Iy) as (x & Ix & Ex); exact (IHo x Ix y Ex)).
        split; [|intro X; apply numbers_arr in X as (y & Iy & X); exact (proj2 (O y Iy) X)]. right. split; [|apply lonely_arr, Forall_forall; intros y Iy; apply (O y Iy)].
        destruct NR as [->|X]; [reflexivity|]. apply Hr in X as (_ & _ & _ & X). rewrite X in Jo. inversion Jo; subst. discriminate E.
      - assert (E' : v = JObj props) by (destruct props; [discriminate | now injection E as <-]). subst v.
        assert (O : forall k0 y, In (k0, y) props -> (lonely y /\ ~ In NBad (numbers y)) /\ exists m, y = JObj m).
        { intros k0 y Iy. destruct (forall2_in_r _ _ _ _ Jp Iy) as ([k1 x] & Ix & Ek & Ex). cbn [fst snd] in *. split; [exact (IHp k1 x Ix y Ex)|]. destruct (schema_json_spec fnum x _ Ex) as (? & ? & ? & ? & ? & _ & _ & _ & _ & _ & ->). eauto. }
        split; [|intro X; apply numbers_obj in X as (k0 & y & Iy & X); exact (proj2 (proj1 (O k0 y Iy)) X)]. right. split.
        + destruct NR as [->|X]; [reflexivity|]. apply Hr in X as (X & _). rewrite X in Jp. inversion Jp; subst. discriminate E.
        + apply lonely_flat; [|intros k0 y Iy; apply (O k0 y Iy)]. destruct (oget "$ref" props) as [y|] eqn:Ey; [|exact Logic.I]. apply oget_in in Ey. destruct (O _ _ Ey) as (_ & m & ->). exact Logic.I.
      - assert (E' : v = JArr (map JStr (s_required s))) by (destruct (s_required s); [discriminate | now injection E as <-]). subst v. split; [left; apply no_refs_strs|]. intro X. apply numbers_arr in X as (y & Iy & X). apply in_map_iff in Iy as (u & <- & _). destruct X. }
    split; [|intro X; apply numbers_obj in X as (k & v & I & X); exact (proj2 (Mem k v I) X)].
    pose proof (schema_json_members fnum s _ Hj) as (_ & Er & _).
    destruct (s_ref s) as [p|] eqn:E.
    - apply lonely_bare. intros k v I. destruct (proj1 (Mem k v I)) as [X|(X & _)]; [exact X | discriminate].
    - apply lonely_flat; [rewrite Er; exact Logic.I|]. intros k v I. destruct (proj1 (Mem k v I)) as [X|(_ & X)]; [now apply no_refs_lonely | exact X].
  Qed.
End Neat.

Section Convert.
  Context {F : Type} (pf : string -> option F) (fnum : F -> num) (zero : F) (env : genv) (std : string -> option (schema F)) (pk : nat -> list ptr -> ptr).
  Context (Hflat : flat_env env) (Hpk : picks_shortest pk) (Hz : fnum zero <> NBad).
  Local Notation conv := (type2schema pf zero env std pk).
  Local Notation has_ref := Spec_Schema.has_ref.
  Hypothesis Hstd : forall t s, std t = Some s -> neat fnum s /\ forall p, ~ has_ref p s.
  Lemma reference_neat n m t s : reference2schema std pk n m t = Ok s -> neat fnum s.
  Proof.
    unfold reference2schema. destruct (pm_at m t) as [|p l]; [discriminate|]. destruct (std _) as [x|] eqn:E; intros [= <-]; [now apply Hstd in E|]. apply neat_bare; try reflexivity; exact (dry_none fnum).
  Qed.
  Lemma conv_in_neat m : forall fuel fuel2 n tp t tg s, conv fuel fuel2 n m tp t tg = Ok s -> (tp <> [] \/ forall fs, under env t <> TStruct fs) -> dry_tag fnum tg -> neat fnum s.
  Proof.
    induction fuel as [|fuel IH]; intros fuel2 n tp t tg s H Ntp Dt; [discriminate|].
    destruct (in_dec gty_dec (under env t) tp) as [V|V]; [rewrite conv_seen in H by exact V; eapply reference_neat; eauto|].
    destruct (conv_cases env t) as [(e & E & He & tok & Hs)|[[k E]|[[fs E]|(E & B & S & X)]]].
    - rewrite (conv_elem pf zero env std pk _ _ _ _ _ _ _ e V E) in H. apply bind_ok in H as (s' & H & [= <-]). apply wrap_neat. eapply IH; eauto. left. destruct tp; discriminate.
    - rewrite (conv_basic pf zero env std pk _ _ _ _ _ _ _ k V E) in H. exact (basic_neat fnum _ _ _ _ Hz Dt H).
    - destruct Ntp as [Ntp|N]; [|now destruct (N fs)]. rewrite (conv_struct_in pf zero env std pk _ _ _ _ _ _ _ fs Ntp E) in H. eapply reference_neat; eauto.
    - rewrite (conv_other pf zero env std pk _ _ _ _ _ _ _ V E B S) in H. discriminate.
  Qed.
  Theorem conv_neat m fuel fuel2 n t tg s : conv fuel fuel2 n m [] t tg = Ok s -> dry_tag fnum tg -> (forall fs x, under env t = TStruct fs -> visible pf env fs x -> dry_tag fnum (sf_tag x)) -> neat fnum s.
  Proof.
    intros H Dt Dx. destruct (conv_cases env t) as [(e & E & _)|[[k E]|[[fs E]|(E & B & S & X)]]];
      try (eapply conv_in_neat; [exact H| |exact Dt]; right; intros fs' E'; rewrite E' in E; discriminate); [|eapply conv_in_neat; [exact H | right; exact S | exact Dt]].
    destruct (struct_schema pf zero env std pk _ _ _ _ _ _ fs s E H) as (xs & Hp & Hv & Hs & Ep & Er & Eo).
    apply neat_intro; try (rewrite (Eo _ s_min) by reflexivity; exact (dry_none fnum)); try (rewrite (Eo _ s_max) by reflexivity; exact (dry_none fnum)); try (rewrite (Eo _ s_mulof) by reflexivity; exact (dry_none fnum)).
    - rewrite (Eo _ s_ref) by reflexivity. cbn. congruence.
    - intros k p I. rewrite Ep in I. apply fold_in in I as [[]|(x & a & Ix & _ & ->)]. apply attrs_neat.
      assert (Dxx : dry_tag fnum (sf_tag x)) by (apply (Dx fs x E), Hv; now apply (in_map fst) in Ix).
      destruct (Hs x a Ix) as [(_ & Hb)|(_ & f & k' & Hc)]; [exact (basic_string_neat fnum _ _ _ _ Hz Dxx Hb)|].
      eapply conv_in_neat; [exact Hc | left; discriminate | exact Dxx].
    - intros x Ex. rewrite (Eo _ s_items) in Ex by reflexivity. discriminate.
    - intros x Ex. rewrite (Eo _ s_addl) in Ex by reflexivity. discriminate.
    - intros x Ex. rewrite (Eo _ s_oneof) in Ex by reflexivity. destruct Ex.
  Qed.

  (** *** References *)
  Definition leads (m : pmap) (t : gty) (p : ptr) : Prop := exists t', elem_reach env t t' /\ In p (pm_at m (under env t')).
  Lemma reference_leads n m t s p : reference2schema std pk n m (under env t) = Ok s -> has_ref p s -> leads m t p.
  Proof.
    intros H Hr. destruct (reference_cases std pk n m (under env t)) as [[_ E]|[N E]]; rewrite E in H; [discriminate|]. injection H as <-. destruct (std _) as [o|] eqn:Es; [destruct (proj2 (Hstd _ _ Es) p Hr)|].
    exists t. split; [constructor|]. apply has_ref_flat in Hr. cbn in Hr. destruct Hr as [[= <-]|[(k & x & [] & _)|[(x & X & _)|[(x & X & _)|(x & [] & _)]]]]; try discriminate. now apply Hpk.
  Qed.
  Lemma conv_in_leads m p : forall fuel fuel2 n tp t tg s, conv fuel fuel2 n m tp t tg = Ok s -> (tp <> [] \/ forall fs, under env t <> TStruct fs) -> has_ref p s -> leads m t p.
  Proof.
    induction fuel as [|fuel IH]; intros fuel2 n tp t tg s H Ntp Hr; [discriminate|].
    destruct (in_dec gty_dec (under env t) tp) as [V|V]; [rewrite conv_seen in H by exact V; eapply reference_leads; eauto|].
    destruct (conv_cases env t) as [(e & E & He & tok & Hs)|[[k E]|[[fs E]|(E & B & S & X)]]].
    - rewrite (conv_elem pf zero env std pk _ _ _ _ _ _ _ e V E) in H. apply bind_ok in H as (s' & H & [= <-]). apply wrap_ref in Hr.
      destruct (IH _ _ _ _ _ _ H) as (t' & R & I); [left; destruct tp; discriminate | exact Hr|]. exists t'. split; [|exact I]. eapply er_step; [exact He | exact R].
    - rewrite (conv_basic pf zero env std pk _ _ _ _ _ _ _ k V E) in H. now apply basic_no_ref with (p := p) in H.
    - destruct Ntp as [Ntp|N]; [|now destruct (N fs)]. rewrite (conv_struct_in pf zero env std pk _ _ _ _ _ _ _ fs Ntp E) in H. eapply reference_leads; eauto.
    - rewrite (conv_other pf zero env std pk _ _ _ _ _ _ _ V E B S) in H. discriminate.
  Qed.
  Lemma elem_under t t' : elem_reach env (under env t) t' -> exists t2, elem_reach env t t2 /\ under env t2 = under env t'.
  Proof.
    intro H. inversion H as [|? e ? Hs Hr]; subst.
    - exists t. split; [constructor | symmetry; now apply under_flat].
    - exists t'. split; [|reflexivity]. eapply er_step; [|exact Hr]. eapply elem_step_under; [|exact Hs]. now apply under_flat.
  Qed.
  Lemma leads_under m t p : leads m (under env t) p -> leads m t p.
  Proof. intros (t' & R & I). destruct (elem_under _ _ R) as (t2 & R2 & E). exists t2. rewrite E. auto. Qed.
  Theorem conv_leads m p fuel fuel2 n t tg s : conv fuel fuel2 n m [] t tg = Ok s -> has_ref p s ->
    (exists fs x, under env t = TStruct fs /\ visible pf env fs x /\ t_type (sf_tag x) = "" /\ leads m (sf_type x) p) \/
    ((forall fs, under env t <> TStruct fs) /\ leads m t p).
  Proof.
    intros H Hr. destruct (under env t) eqn:Eu; try (right; split; [discriminate|]; eapply conv_in_leads; [exact H | right; intros; congruence | exact Hr]).
    left. destruct fuel as [|fuel]; [discriminate|]. rewrite (conv_struct pf zero env std pk _ _ _ _ _ _ fs Eu) in H. apply bind_ok in H as (l & El & H).
    apply (struct_fields_ref p) in H as [H|(k & x & ps & Hx & Hc & Hp)]; try reflexivity; [exfalso; revert H; now apply bare_no_ref | | exact Hr].
    apply (collect_fields_visible pf env _ _ _ El) in Hx. exists fs, x. split; [reflexivity|]. split; [exact Hx|]. unfold field_conv in Hc.
    destruct (String.eqb_spec (t_type (sf_tag x)) "") as [Et|Nt]; cbn [negb] in Hc; [|now apply basic_string_no_ref with (p := p) in Hc]. split; [exact Et|].
    assert (G : conv fuel fuel2 k m [TStruct fs] (under env (sf_type x)) (sf_tag x) = Ok ps -> leads m (sf_type x) p).
    { intro G. apply leads_under. eapply conv_in_leads; [exact G | left; discriminate | exact Hp]. }
    destruct (under env (sf_type x)) eqn:Ex; auto. eapply reference_leads; [rewrite Ex; exact Hc | exact Hp].
  Qed.
End Convert.
