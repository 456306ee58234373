(** Where the parts of the document that Scan builds come from (proofs). *)
From Coq Require Import String Ascii List Bool Arith ZArith Lia Permutation.
From Verif Require Import GoStr GoStrFacts Json JsonFacts Gabs Container Url Pointer Spec_Clone Spec_Merge CloneFacts MergeFacts ConfigApi
  Spec_Loc LocFacts Spec_Resolve ResolverFacts ResolverFrame ResolverAt Path Resolver ScanFn Cmds Spec_Cmds CmdFacts Specs Spec_Specs SpecFacts Pkgs Spec_Pkgs PkgFacts Types Root RootFacts Spec_Root PathsFacts
  SchemaJson Scan ScanFacts Spec_Types Spec_Schema ScanTypes Spec_Scan ScanInv ScanRefs ScanEnd ScanKept ScanKept2 Spec_Kept ScanKept3 CollectApi ScanStages ScanAdds Route P_Root ScanOk Spec_Ptr Spec_Origin.
Import ListNotations.
Local Open Scope string_scope.
Local Open Scope nat_scope.
Local Open Scope list_scope.

(** v is an object, or comes from v' unchanged, or both are arrays. *)
Definition weakly (v v' : json) : Prop := is_obj v = true \/ v' = v \/ exists l l', v = JArr l /\ v' = JArr l'.
Lemma weakly_refl v : weakly v v. Proof. now right; left. Qed.
Lemma like_weakly v v' : like v v' -> weakly v v'.
Proof. intros (_ & E). destruct (is_obj v) eqn:B; [now left | right; left; auto]. Qed.
Lemma weakly_trans a b c : (is_obj b = true -> is_obj a = true) -> weakly a b -> weakly b c -> weakly a c.
Proof.
  intros Hb [A|[-> |(l & l' & -> & ->)]] B; [now left | exact B|]. destruct B as [B|[-> |(m & m' & [= ->] & ->)]]; [discriminate B | right; right; eauto | right; right; eauto].
Qed.
Lemma weakly_obj a b : weakly a b -> is_obj b = true -> is_obj a = true.
Proof. intros [A|[-> |(l & l' & -> & ->)]] B; auto. Qed.
Lemma weakly_comp a b c : weakly a b -> weakly b c -> weakly a c.
Proof. intros A B. exact (weakly_trans a b c (weakly_obj a b A) A B). Qed.
Lemma clone_written q x v' v : clone x = Ok v' -> weakly v v' -> is_obj v = true \/ written None q x v.
Proof.
  intros C W. destruct (is_obj v) eqn:B; [now left|]. right. destruct W as [W|W]; [congruence|].
  destruct x as [|b|n|t|l|m]; cbn [written].
  - cbn in C. injection C as <-. destruct W as [E|(l & l' & _ & E)]; [now rewrite E | discriminate].
  - cbn in C. injection C as <-. destruct W as [E|(l & l' & _ & E)]; [now rewrite E | discriminate].
  - apply clone_same in C. inversion C as [| |n0 n' R| | |]; subst. destruct W as [E|(l & l' & _ & E)]; [exists n'; now rewrite E | discriminate].
  - cbn in C. injection C as <-. destruct W as [E|(l & l' & _ & E)]; [now rewrite E | discriminate].
  - rewrite clone_arr_eq in C. apply bind_ok in C as (l' & _ & C). injection C as <-. destruct W as [E|(l0 & l1 & E & _)]; eauto.
  - destruct (clone_obj_inv _ _ C) as (m' & -> & _). destruct W as [E|(l0 & l1 & _ & E)]; [subst v; discriminate | discriminate].
Qed.

(** *** Default operations *)
Lemma with_default_from o v x r y : with_default o v x -> lookup r x = Some y -> exists y', (lookup r v = Some y' \/ lookup r o = Some y') /\ like y y'.
Proof.
  intros D L. inversion D as [o0 a0 r0 M|o0 No|v0 N0]; subst.
  - refine (merged_from (fun d _ => Some d) _ r _ _ _ _ M L). intros d0 s0 r1 H. left. congruence.
  - exists y. split; [now right | apply like_refl].
  - exists y. split; [now left | apply like_refl].
Qed.
Lemma with_defaults_from os : forall v x r y, with_defaults os v x -> lookup r x = Some y -> exists y', (lookup r v = Some y' \/ exists o, In o os /\ lookup r o = Some y') /\ like y y'.
Proof.
  induction os as [|o os IH]; intros v x r y D L; inversion D as [|o0 os0 v0 v1 v2 H2 H4]; subst.
  - exists y. split; [now left | apply like_refl].
  - destruct (IH _ _ _ _ H4 L) as (y' & [L1|(o' & I & L1)] & E).
    + destruct (with_default_from _ _ _ _ _ H2 L1) as (y2 & [L2|L2] & E2); exists y2; (split; [|eapply like_trans; eassumption]); [now left | right; exists o; split; [now left | exact L2]].
    + exists y'. split; [right; exists o'; split; [now right | exact L1] | exact E].
Qed.
Lemma key_split (q : loc) : exists ks rest, q = map SKey ks ++ rest /\ (rest = [] \/ exists i r, rest = SIdx i :: r).
Proof.
  induction q as [|[k|i] q (ks & rest & -> & H)]; [exists [], []; auto | exists (k :: ks), rest; auto | exists [], (SIdx i :: map SKey ks ++ rest); eauto].
Qed.
Lemma node_like ks rest j j' v : node_at ks j' = node_at ks j -> (rest = [] \/ exists i r, rest = SIdx i :: r) -> lookup (map SKey ks ++ rest) j' = Some v ->
  exists v', lookup (map SKey ks ++ rest) j = Some v' /\ like v v'.
Proof.
  intros N H L. rewrite lookup_keys in *. unfold node_at in N. destruct (at_path ks j') as [x|]; [|discriminate]. destruct (at_path ks j) as [y|]; [|destruct x; discriminate].
  destruct (is_obj x) eqn:Bx.
  - destruct x; try discriminate. destruct y; try discriminate. destruct H as [-> |(i & r & ->)]; [|discriminate]. cbn [lookup] in *. injection L as <-. eexists. split; [reflexivity|]. split; [reflexivity | discriminate].
  - assert (y = x) as -> by (destruct x, y; try discriminate; congruence). exists v. split; [exact L | apply like_refl].
Qed.

Section Origin.
  Context {F : Type} (pf : string -> option F) (zero : F) (fnum : F -> num) (a : around) (ch : choices) (de : depths).
  Context (o : options) (ss : list source) (roots : list nat).
  Local Notation vis s := (visited a ss roots s).
  Local Notation stages := (stages pf zero fnum a ch de o ss roots).
  Hypothesis Ho : any_order ch.
  Hypothesis Hdef : Forall ok_default (op_defops o).
  Hypothesis Himp : forall s, vis s -> import_path (so_path s).

  Lemma end_from d3 c : wf d3 -> pure d3 -> set_paths_defaults (ch_paths ch) (ch_ops ch) (ch_defs ch) (ch_def ch) (op_defops o) (Some d3) = Ok c ->
    forall q v, lookup q (c_data c) = Some v -> (exists v', lookup q d3 = Some v' /\ like v v') \/
      exists pat op p m r x w, In (pat, op) (op_defops o) /\ route_match pat m p = Ok true /\ q = [SKey "paths"; SKey p; SKey m] ++ r /\ lookup r op = Some x /\ like v x /\ lookup [SKey "paths"; SKey p; SKey m] d3 = Some w.
  Proof.
    intros W P H q v L. assert (At : forall p m j y, lookup [SKey "paths"; SKey p; SKey m] j = Some y <-> operation p m j y).
    { intros p m j y. unfold operation. change [SKey "paths"; SKey p; SKey m] with (map SKey ["paths"; p; m] ++ []). rewrite lookup_keys. now destruct (at_path ["paths"; p; m] j). }
    assert (Dec : (exists p m r v0, q = [SKey "paths"; SKey p; SKey m] ++ r /\ operation p m d3 v0) \/ forall p m r v0, operation p m d3 v0 -> q <> [SKey "paths"; SKey p; SKey m] ++ r).
    { destruct q as [|[k0|] [|[k1|] [|[k2|] r]]]; try (right; intros p m r' v0 _ E; discriminate E). destruct (string_dec k0 "paths") as [-> |N]; [|right; intros p m r' v0 _ E; injection E as E _; congruence].
      destruct (at_path ["paths"; k1; k2] d3) as [v0|] eqn:E0; [left; exists k1, k2, r, v0; split; [reflexivity | exact E0]|]. right. intros p m r' v0 Op E. injection E as <- <- _. unfold operation in Op. congruence. }
    pose proof Ho as ((M1 & M2 & M3 & M4 & M5) & O1 & O2 & O3 & O4 & O5).
    destruct Dec as [(p & m & r & v0 & -> & Op)|Nop].
    - rewrite lookup_app in L. destruct (lookup [SKey "paths"; SKey p; SKey m] (c_data c)) as [x|] eqn:Lx; [|discriminate].
      destruct (end_ops ch o Ho Hdef d3 c W P H p m x Lx) as (v3 & L3 & D). destruct (with_defaults_from _ _ _ _ _ D L) as (y' & [Ly|(op & I & Ly)] & E).
      + left. exists y'. rewrite lookup_app, L3. auto.
      + right. unfold chosen in I. apply in_map_iff in I as ([pat op'] & Eop & I). cbn [snd] in Eop. subst op'. apply filter_In in I as (I & Sel). exists pat, op, p, m, r, y', v3.
        split; [eapply Permutation_in; [apply O5 | exact I]|]. split; [unfold selects in Sel; cbn [fst snd] in Sel; now destruct (route_match pat m p) as [[]| | |]|]. auto.
    - left. destruct P as (Nd & Fd). assert (Hdot : forall p m v, operation p m d3 v -> has_char "." p = false /\ has_char "." m = false).
      { unfold operation. intros p0 m0 v1 Lv. destruct d3 as [| | | | |dm]; try discriminate. cbn [at_path] in Lv. destruct (oget "paths" dm) as [y|] eqn:E1; [|discriminate]. destruct y as [| | | | |pm]; try discriminate.
        destruct (oget p0 pm) as [y|] eqn:E2; [|discriminate]. destruct y as [| | | | |mm]; try discriminate. destruct (oget m0 mm) as [z|] eqn:E3; [|discriminate]. apply oget_in in E1, E2, E3.
        split; apply Nd; [eapply kin_obj; [exact E1|]; eapply kin_here; exact E2 | eapply kin_obj; [exact E1|]; eapply kin_obj; [exact E2|]; eapply kin_here; exact E3]. }
      destruct (defaults_spec _ _ _ _ _ d3 c M3 M4 O5 M5 W Fd Hdot Hdef H) as (d4 & -> & _ & B). cbn [c_data] in L.
      destruct (key_split q) as (ks & rest & -> & Hr). refine (node_like ks rest d3 d4 v _ Hr L). apply B. intros p m v0 Op (r & E). apply (Nop p m (map SKey r ++ rest) v0 Op). rewrite E, map_app, <- app_assoc. reflexivity.
  Qed.

  Lemma stages_origin c : stages c -> forall q v, lookup q (c_data c) = Some v -> c <> None -> origin a o ss roots q v.
  Proof.
    intros [es pp os pts d1 r d2 c3 Hrefs K1 Hfrom Hroot Wr Hoth Hsec K2 D2 F2 Tfn Hc3 W3 P3 Gn Hc Hes Hes2 Nes _ _ _ Hcoll Hos].
    pose proof Ho as ((M1 & M2 & M3 & M4 & M5) & O1 & O2 & O3 & O4 & O5).
    pose proof (resolve_framed (ch_resolve ch) es _ _ (JObj d2) c3 O3 (proj1 D2) (proj1 (proj2 D2)) F2 Gn Hc3) as (Sh & Out).
    (* what the composed document has *)
    assert (Comp : forall q v v2, q <> [] -> lookup q (JObj d2) = Some v2 -> weakly v v2 -> source_of a o ss roots q v).
    { intros q v v2 Nq L2 Wk.
      assert (FromFile : forall v1, lookup q (JObj d1) = Some v1 -> weakly v v1 -> source_of a o ss roots q v).
      { intros v1 L1 W1. destruct (Hfrom q v1 Nq L1) as (s & doc & y & v' & Vs & Hd & Ey & Ly & Lk). pose proof (clone_lookup q _ _ Ey) as C. rewrite Ly in C.
        destruct (lookup q (kept_doc s doc)) as [w|] eqn:Lw; [|destruct C]. unfold kept_doc in Lw. rewrite map_refs_lookup in Lw. destruct (lookup q doc) as [x|] eqn:Lx; [|discriminate]. injection Lw as <-.
        apply (org_file a o ss roots q v s doc x Vs Hd Lx). destruct (clone_written q _ _ v C (weakly_comp _ _ _ W1 (like_weakly _ _ Lk))) as [B|Wr']; [now left|]. right.
        destruct x as [|b|n|t|l|m]; try exact Wr'. cbn [at_loc written] in Wr' |- *. destruct (ends_ref q) eqn:Er; cbn [written] in Wr'.
        - left. destruct (proj1 (ends_ref_iff q) Er) as (q0 & Eq). exists q0, (new_text (so_path s) t). split; [exact Eq|]. split; [|exact Wr']. apply new_text_absolute; [exact (Himp s Vs)|]. subst q. exact (Hrefs s doc q0 t Vs Hd Lx).
        - right. split; [|exact Wr']. intros q0 ->. rewrite ends_ref_snoc in Er. discriminate. }
      assert (FromRoot : forall v1, lookup q (JObj r) = Some v1 -> weakly v v1 -> source_of a o ss roots q v).
      { intros v1 L1 W1. pose proof (clone_lookup q _ _ Hroot) as C. rewrite L1 in C. destruct (lookup q (op_root o)) as [x|] eqn:Lx; [|destruct C].
        exact (org_root a o ss roots q v x Lx (clone_written q _ _ v C W1)). }
      destruct (root_from r d1 d2 Hsec q v2 Hoth Nq L2) as [(k & -> & Ik)|(v' & [X|X] & Lk)]; [|exact (FromFile v' X (weakly_comp _ _ _ Wk (like_weakly _ _ Lk))) | exact (FromRoot v' X (weakly_comp _ _ _ Wk (like_weakly _ _ Lk)))].
      apply in_map_iff in Ik as ([coll k0] & E & Ik). cbn in E. subst k0. rewrite Forall_forall in Hsec. specialize (Hsec _ Ik). cbn [fst snd] in Hsec. destruct Hsec as [(_ & _ & E3)|(Nn & M)].
      - apply (FromFile v2); [|exact Wk]. apply (at_path_lookup [k]). apply (at_path_lookup [k]) in L2. congruence.
      - destruct (merged_objs _ _ _ _ M) as (_ & _ & e & _ & _ & Ee). assert (E2 : v2 = JObj e) by (cbn [lookup] in L2; unfold section in Ee; destruct (oget k d2); congruence).
        assert (Bv : is_obj v = true) by (apply (weakly_obj _ _ Wk); now rewrite E2).
        destruct (oget k d1) as [y|] eqn:E1; [apply (FromFile y); [cbn [lookup]; now rewrite E1 | now left]|]. destruct (oget k r) as [y|] eqn:Er; [apply (FromRoot y); [cbn [lookup]; now rewrite Er | now left]|].
        exfalso. apply Nn. unfold section. now rewrite E1, Er. }
    (* what resolving leaves *)
    assert (Res : forall q v v3, lookup q (c_data c3) = Some v3 -> weakly v v3 -> source_of a o ss roots q v).
    { intros q v v3 L3 Wk.
      assert (Cl : clear_of (excluded (JObj d2) es) q \/ exists e, excluded (JObj d2) es e = true /\ above e q).
      { clear. induction q as [|st q IH] using rev_ind.
        - destruct (excluded (JObj d2) es []) eqn:E; [right; exists []; split; [exact E | exists []; reflexivity]|]. left. intros e Xe (z & A). symmetry in A. apply app_eq_nil in A as (-> & _). congruence.
        - destruct IH as [IH|(e & Xe & z & ->)]; [|right; exists e; split; [exact Xe | exists (z ++ [st]); now rewrite app_assoc]].
          destruct (excluded (JObj d2) es (q ++ [st])) eqn:E; [right; exists (q ++ [st]); split; [exact E | exists []; now rewrite app_nil_r]|]. left. intros e Xe (z & A).
          destruct z as [|st' z] using rev_ind; [rewrite app_nil_r in A; congruence|]. rewrite app_assoc in A. apply app_inj_tail in A as (A & _). apply (IH e Xe). now exists z. }
      assert (Named : forall e, In e es -> exists s, vis s /\ exports_name s (e_name e) /\ comp_of e = [SKey "components"; SKey "schemas"; SKey (e_name e)]).
      { intros e Ie. destruct (Hes e Ie) as (Ek & s & Vs & Es). exists s. split; [exact Vs|]. split; [apply exports_type_name; eauto|]. unfold comp_of. now rewrite Ek. }
      destruct Cl as [Cl|(e & Xe & z & ->)].
      - destruct (Sh q Cl) as (S1 & S2).
        assert (Oth : match lookup q (JObj d2) with Some (JObj _) | Some (JArr _) => False | _ => True end -> q <> [] -> source_of a o ss roots q v).
        { intros Nl Nq. destruct (in_dec loc_dec q [[SKey "components"]; [SKey "components"; SKey "schemas"]]) as [I|NI].
          - destruct es as [|e es'].
            + apply (Comp q v v3 Nq); [|exact Wk]. rewrite <- Out; [exact L3|]. intros e Xe. split; [exact (Cl e Xe)|]. intros (z & E). unfold excluded in Xe. cbn [existsb] in Xe. rewrite orb_false_r in Xe. apply ext_at_spec in Xe as (t & p & X & _). subst e. rewrite <- app_assoc, lookup_app in X.
              destruct (lookup q (JObj d2)) as [w|]; [|discriminate]. destruct w; try (now destruct Nl); destruct z as [|[] ?]; discriminate X.
            + destruct (Named e (or_introl eq_refl)) as (s & Vs & En & _). exact (org_component a o ss roots q v s _ Vs En (or_intror I)).
          - apply (Comp q v v3 Nq); [|exact Wk]. rewrite <- Out; [exact L3|]. intros e Xe. split; [exact (Cl e Xe)|]. intros (z & E). unfold excluded in Xe. apply orb_true_iff in Xe as [Xe|Xe].
            + apply ext_at_spec in Xe as (t & p & X & _). subst e. rewrite <- app_assoc, lookup_app in X. destruct (lookup q (JObj d2)) as [w|]; [|discriminate]. destruct w; try (now destruct Nl); destruct z as [|[] ?]; discriminate X.
            + apply existsb_exists in Xe as (e0 & Ie & Xe). destruct (loc_dec (comp_of e0) e) as [Ec|]; [|discriminate Xe]. destruct (Named e0 Ie) as (s0 & _ & _ & En). assert (E0 : [SKey "components"; SKey "schemas"; SKey (Resolver.e_name e0)] = q ++ z) by congruence.
              destruct q as [|? [|? [|? q]]]; [congruence | | |]; cbn [app] in E0; injection E0.
              * intros. subst. apply NI. cbn. auto.
              * intros. subst. apply NI. cbn. auto.
              * intros Hz <- <- <-. symmetry in Hz. apply app_eq_nil in Hz as (-> & ->). apply (Cl (comp_of e0)); [now apply excluded_comp|]. rewrite En. exists []. reflexivity. }
        destruct (lookup q (JObj d2)) as [[| | | |l|m]|] eqn:L2; try (destruct q as [|st q]; [discriminate L2 | apply Oth; [exact Logic.I | discriminate]]).
        + destruct (S2 l eq_refl) as (l' & El). assert (v3 = JArr l') as -> by congruence. destruct q as [|st q]; [discriminate L2|]. apply (Comp _ v (JArr l)); [discriminate | exact L2|]. eapply weakly_comp; [exact Wk|]. right. right. eauto.
        + destruct (S1 m eq_refl) as (m' & Em). assert (v3 = JObj m') as -> by congruence. assert (Bv : is_obj v = true) by (apply (weakly_obj _ _ Wk); reflexivity).
          destruct q as [|st q]; [exact (org_top a o ss roots [] v eq_refl Bv)|]. apply (Comp _ v (JObj m)); [discriminate | exact L2 | now left].
      - unfold excluded in Xe. apply orb_true_iff in Xe as [Xe|Xe].
        + apply ext_at_spec in Xe as (t & p & X & Pt & Et). refine (org_reference a o ss roots _ v e z _ eq_refl). exists t, p. split; [exact Pt|]. split; [exact Et|].
          destruct (d2_refs a o ss roots d1 r d2 Hfrom Hroot Hoth Hsec e t X) as [(s & doc & t0 & Vs & Hd & L0 & Ex)|L0]; [right | now left]. exists s, doc, t0. split; [exact Vs|]. split; [exact Hd|]. split; [exact L0|]. subst t. apply new_text_absolute; [exact (Himp s Vs) | exact (Hrefs s doc e t0 Vs Hd L0)].
        + apply existsb_exists in Xe as (e0 & Ie & Xe). destruct (loc_dec (comp_of e0) e) as [<-|]; [|discriminate Xe]. destruct (Named e0 Ie) as (s & Vs & En & Ec). rewrite Ec. apply (org_component a o ss roots _ v s (e_name e0) Vs En). left. now exists z. }
    destruct c3 as [d3|]; intros q v L Nc.
    - destruct (end_from d3 c W3 P3 Hc q v L) as [(v' & L3 & Lk)|(pat & op & p & m & rr & x & w & I & Hm & Eq & Lx & Lk & Lw)].
      + left. exact (Res q v v' L3 (like_weakly _ _ Lk)).
      + right. exists pat, op, p, m, rr, x, w. split; [exact I|]. split; [exact Hm|]. split; [exact Eq|]. split; [exact Lx|]. split; [destruct (is_obj v) eqn:B; [now left | right; symmetry; now apply (proj2 Lk)]|]. exact (Res _ w w Lw (weakly_refl w)).
    - exfalso. unfold set_paths_defaults in Hc. cbn [c_data] in *. apply bind_ok in Hc as (ff & Hff & Hc). change (paths_of (ch_paths ch) (ch_ops ch) None) with (items_of (ch_ops ch) (ch_paths ch [])) in Hff. rewrite (Permutation_nil (Permutation_sym (M3 []))) in Hff.
      injection Hff as <-. rewrite loop_nothing in Hc. injection Hc as <-. now apply Nc.
  Qed.
End Origin.
