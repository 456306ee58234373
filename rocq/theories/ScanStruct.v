(** The schema of a struct type in the document that Scan builds (proofs). *)
From Coq Require Import String Ascii List Bool Arith ZArith Lia Permutation.
From Verif Require Import GoStr GoStrFacts Json JsonFacts Gabs Container Url Pointer Spec_Ptr FragFacts PtrFacts Spec_Clone Spec_Merge CloneFacts MergeFacts ConfigApi
  Spec_Loc LocFacts Spec_Resolve ResolverFacts ResolverFrame ResolverAt Path Resolver ScanFn Cmds Spec_Cmds CmdFacts Specs Spec_Specs SpecFacts Pkgs Spec_Pkgs PkgFacts Tag Types Root RootFacts Spec_Root PathsFacts
  SchemaJson SchemaJsonFacts SchemaJsonApi Scan ScanFacts Spec_Types Spec_Schema SchemaShape ScanTypes Spec_Scan ScanInv ScanRefs ScanEnd ScanKept ScanKept2 Spec_Kept ScanKept3 TypesFacts SchemaFacts CollectFacts CollectApi DenoteFacts ScanStages Route P_Root ScanAdds P_Types.
Import ListNotations.
Local Open Scope string_scope.
Local Open Scope nat_scope.
Local Open Scope list_scope.

(** *** One schema *)
Section Struct.
  Context {F : Type} (pf : string -> option F) (zero : F) (fnum : F -> num) (env : genv) (std : string -> option (schema F)) (pk : nat -> list ptr -> ptr).
  Local Notation convert := (type2schema pf zero env std pk).
  Lemma shows_last (l : list (sfield F)) x : In x l -> (forall x', In x' l -> prop_name x' = prop_name x -> x' = x) ->
    exists l1 l2, l = l1 ++ x :: l2 /\ ~ In (prop_name x) (map prop_name l2).
  Proof.
    induction l as [|y l IH]; intros I U; [destruct I|]. destruct (in_dec string_dec (prop_name x) (map prop_name l)) as [J|J].
    - apply in_map_iff in J as (z & Ez & Iz). assert (z = x) as -> by (apply U; [now right | exact Ez]). destruct IH as (l1 & l2 & -> & N); [exact Iz | intros x' I'; apply U; now right|]. exists (y :: l1), l2. auto.
    - destruct I as [-> |I]; [now exists [], l|]. elim J. apply in_map. exact I.
  Qed.
  Lemma apart_leaf j rr : (forall v, lookup rr j = Some v -> is_obj v = false /\ forall l, v <> JArr l) -> (forall q1 q2, rr = q1 ++ q2 -> q2 <> [] -> forall t, lookup (q1 ++ [SKey "$ref"]) j <> Some (JStr t)) ->
    forall q t p, ext_ref j q t p -> Spec_Loc.apart q rr.
  Proof.
    intros Hl Hp q t p (L & _). split.
    - intros (u & ->). destruct u as [|s u]; [|exact (Hp q (s :: u) eq_refl ltac:(discriminate) t L)].
      rewrite app_nil_r in Hl. rewrite lookup_app in L. destruct (lookup q j) as [v|]; [|discriminate]. destruct (Hl v eq_refl) as (A & _). destruct v; discriminate.
    - intros (u & ->). rewrite <- app_assoc, lookup_app in L. destruct (lookup rr j) as [v|]; [|discriminate]. destruct (Hl v eq_refl) as (A & B). destruct v as [| | | |l|]; try discriminate; destruct u as [|[] u]; try discriminate; now elim (B l).
  Qed.
  (** A struct's JSON, where it has no references. *)
  Lemma struct_json fuel fuel2 n m t tg fs s x : under env t = TStruct fs -> convert fuel fuel2 n m [] t tg = Ok s -> schema_json fnum s = Ok x ->
    forall at_, ((forall rr w, (forall q t p, ext_ref x q t p -> Spec_Loc.apart q rr) -> lookup rr x = Some (JStr w) -> at_ rr = Some (JStr w)) -> shows_struct pf env fs at_) /\
    ((forall rr, (forall q t p, ext_ref x q t p -> Spec_Loc.apart q rr) -> lookup rr x = None -> at_ rr = None) -> shows_only pf env fs at_).
  Proof.
    intros E H Hx.
    destruct (C52_names F pf zero env std pk _ _ _ _ _ _ _ _ E H) as (Ty & Rf & _ & _ & _ & _ & Nd & Nm). destruct (C52_fields F pf zero env std pk _ _ _ _ _ _ _ _ E H) as (l & _ & Hl & Hf).
    destruct (schema_json_noref fnum s x Hx Rf) as (mx & -> & Er). destruct (schema_json_members fnum s mx Hx) as (_ & _ & Mt & _ & _ & _ & _ & _ & _ & _ & _ & _ & _ & _ & _ & _ & _ & _ & _ & _ & _ & _ & _ & _ & _ & Mp).
    rewrite Ty in Mt. cbn in Mt.
    assert (Pr : forall k j, lookup [SKey "properties"; SKey k] (JObj mx) = Some j -> exists p, In (k, p) (s_props s) /\ schema_json fnum p = Ok j).
    { intros k j L. cbn [lookup] in L. destruct (oget "properties" mx) as [[| | | | |js]|] eqn:Ep; try discriminate L. destruct (oget k js) as [j'|] eqn:Ek; [|discriminate]. injection L as ->.
      apply oget_in in Ek. assert (Mp' : Forall2 (fun kx kj => fst kj = fst kx /\ schema_json fnum (snd kx) = Ok (snd kj)) (s_props s) js) by (destruct (s_props s); exact Mp). clear -Mp' Ek. induction Mp' as [|kx kj l js (Ea & Eb) _ IH]; [destruct Ek|]. destruct Ek as [-> |Ek].
      - cbn [fst snd] in *. exists (snd kx). split; [left; destruct kx; cbn [fst snd] in *; congruence | exact Eb].
      - destruct (IH Ek) as (p & I & J). exists p. split; [now right | exact J]. }
    assert (Ps : forall k p, oget k (s_props s) = Some p -> exists j, lookup [SKey "properties"; SKey k] (JObj mx) = Some j /\ schema_json fnum p = Ok j).
    { intros k p Ep. assert (Q : exists js, oget "properties" mx = Some (JObj js) /\ Forall2 (fun kx kj => fst kj = fst kx /\ schema_json fnum (snd kx) = Ok (snd kj)) (s_props s) js).
      { destruct (s_props s) as [|b c]; [discriminate|]. destruct (oget "properties" mx) as [[| | | | |js]|]; try (now elim Mp). eauto. }
      destruct Q as (js & Eq & Mp'). cbn [lookup]. rewrite Eq. clear -Mp' Ep. induction Mp' as [|[k1 p1] [k2 j2] l js (Ea & Eb) _ IH]; [discriminate|]. cbn [fst snd oget] in *. subst k2. destruct (String.eqb k k1); [injection Ep as ->; eauto | exact (IH Ep)]. }
    assert (Ob : forall (p : schema F) j, schema_json fnum p = Ok j -> exists mj, j = JObj mj) by (intros p j Hj; destruct (schema_json_spec fnum p j Hj) as (? & ? & ? & ? & ? & _ & _ & _ & _ & _ & ->); eauto).
    assert (R0 : forall t, lookup ([] ++ [SKey "$ref"]) (JObj mx) <> Some (JStr t)) by (intros t0 L; cbn in L; rewrite Er in L; discriminate).
    assert (R1 : forall t, lookup ([SKey "properties"] ++ [SKey "$ref"]) (JObj mx) <> Some (JStr t)). { intros t0 L. cbn [app] in L. destruct (Pr _ _ L) as (p & _ & Hp). destruct (Ob _ _ Hp) as (? & [=]). }
    assert (Fd : forall y ty fmt u, visible pf env fs y -> (forall x', visible pf env fs x' -> prop_name x' = prop_name y -> x' = y) ->
       (t_type (sf_tag y) = "" /\ (exists k, under env (sf_type y) = TBasic k /\ In (k, (ty, fmt, u)) kind_table)) \/ In (trim is_sp (t_type (sf_tag y)), (ty, fmt, u)) name_table ->
       exists p j, oget (prop_name y) (s_props s) = Some p /\ s_ref p = None /\ s_type p = ty /\ ty <> "" /\ schema_json fnum p = Ok j /\ lookup [SKey "properties"; SKey (prop_name y)] (JObj mx) = Some j).
    { intros y ty fmt u Hv Hu Hk. destruct (shows_last l y) as (l1 & l2 & El & Nl); [now apply Hl | intros x' I'; apply Hu; now apply Hl|]. destruct (Hf l1 y l2 El Nl) as (a & p & Ep & Ov & Ha). destruct (Ps _ _ Ep) as (j & Lj & Hj).
      assert (Ta : s_ref a = None /\ s_type a = ty /\ ty <> "").
      { destruct Hk as [(Et & k & Ek & Ik)|In_].
        - destruct Ha as [(Nt & _)|(_ & fuel' & k' & Ha)]; [congruence|]. rewrite Ek in Ha. destruct fuel' as [|fuel']; [discriminate|].
          assert (Nk0 : ~ In (TBasic k) [TStruct fs]) by (intros [X|[]]; discriminate). pose proof (proj1 (C51_basic F pf zero env std pk fuel' fuel2 k' m [TStruct fs] (TBasic k) (sf_tag y) k a eq_refl Nk0) Ha) as (ty' & fmt' & u' & I' & ->).
          assert (Q : (ty', fmt', u') = (ty, fmt, u)) by (clear -Ik I'; cbn in Ik, I'; repeat (destruct Ik as [Q|Ik]; [repeat (destruct I' as [Q'|I']; [congruence|]); destruct I'|]); destruct Ik). injection Q as -> -> ->.
          split; [reflexivity|]. split; [reflexivity|]. clear -Ik. cbn in Ik. intuition congruence.
        - destruct Ha as [(_ & Ha)|(Et & _)].
          + apply (proj1 (C51_named F zero _ _ _)) in Ha as [(ty' & fmt' & u' & I' & ->)|(ty' & I' & E' & ->)].
            * assert (Q : (ty', fmt', u') = (ty, fmt, u)) by (clear -In_ I'; cbn in In_, I'; repeat (destruct In_ as [Q|In_]; [repeat (destruct I' as [Q'|I']; [congruence|]); destruct I'|]); destruct In_). injection Q as -> -> ->.
              split; [reflexivity|]. split; [reflexivity|]. clear -In_. cbn in In_. intuition congruence.
            * exfalso. rewrite E' in In_. clear -In_ I'. cbn in I', In_. intuition congruence.
          + exfalso. rewrite Et in In_. cbn in In_. clear -In_. intuition congruence. }
      destruct Ta as (A1 & A2 & A3). exists p, j. split; [exact Ep|]. destruct Ov as [(N & _)|(_ & ->)]; [congruence|]. cbn [s_ref s_type]. auto. }
    assert (Ft : forall y ty fmt u, visible pf env fs y -> (forall x', visible pf env fs x' -> prop_name x' = prop_name y -> x' = y) ->
       (t_type (sf_tag y) = "" /\ (exists k, under env (sf_type y) = TBasic k /\ In (k, (ty, fmt, u)) kind_table)) \/ In (trim is_sp (t_type (sf_tag y)), (ty, fmt, u)) name_table ->
       lookup [SKey "properties"; SKey (prop_name y); SKey "type"] (JObj mx) = Some (JStr ty) /\ forall t, lookup ([SKey "properties"; SKey (prop_name y)] ++ [SKey "$ref"]) (JObj mx) <> Some (JStr t)).
    { intros y ty fmt u Hv Hu Hk. destruct (Fd y ty fmt u Hv Hu Hk) as (p & j & Ep & Rp & Tp & Nt & Hj & Lj). destruct (schema_json_noref fnum p j Hj Rp) as (mj & -> & Ej).
      destruct (schema_json_members fnum p mj Hj) as (_ & _ & Mj & _). rewrite Tp in Mj. destruct (String.eqb_spec ty "") as [|_]; [contradiction|].
      change [SKey "properties"; SKey (prop_name y); SKey "type"] with ([SKey "properties"; SKey (prop_name y)] ++ [SKey "type"]). split; [|intro t0]; rewrite lookup_app, Lj; cbn [lookup]; [now rewrite Mj | now rewrite Ej]. }
    assert (Nk : forall k, (forall y, visible pf env fs y -> prop_name y <> k) -> lookup [SKey "properties"; SKey k] (JObj mx) = None).
    { intros k N. destruct (lookup [SKey "properties"; SKey k] (JObj mx)) as [j|] eqn:L; [|reflexivity]. destruct (Pr _ _ L) as (p & I & _). apply (in_map fst) in I. apply Nm in I as (y & Hy & Ey). now elim (N y Hy). }
    assert (Sh : shows_struct pf env fs (fun rr => lookup rr (JObj mx))).
    { split; [cbn [lookup]; now rewrite Mt|]. intros y ty fmt u Hv Hu Hk. apply (Ft y ty fmt u Hv Hu Hk). }
    intros at_. destruct Sh as (S1 & S2). pose proof Nk as S3. split; [intro Hat; split | intro Hat].
    - apply Hat; [|exact S1]. apply apart_leaf; [intros v L; rewrite S1 in L; injection L as <-; split; [reflexivity | discriminate]|].
      intros q1 q2 Eq Nq. destruct q1 as [|k1 q1]; [exact R0|]. destruct q1; [|discriminate]. destruct q2; [congruence | discriminate].
    - intros y ty fmt u Hv Hu Hk. destruct (Ft y ty fmt u Hv Hu Hk) as (L & R2). apply Hat; [|exact L]. apply apart_leaf; [intros v Lv; rewrite L in Lv; injection Lv as <-; split; [reflexivity | discriminate]|].
      intros q1 q2 Eq Nq. destruct q1 as [|k1 q1]; [exact R0|]. injection Eq as <- Eq. destruct q1 as [|k1 q1]; [exact R1|]. injection Eq as <- Eq. destruct q1 as [|k1 q1]; [exact R2|]. injection Eq as <- Eq. destruct q1; [|discriminate]. destruct q2; [congruence | discriminate].
    - intros k N. apply Hat; [|exact (S3 k N)]. apply apart_leaf; [intros v Lv; pose proof (S3 k N) as X; cbn beta in X; congruence|].
      intros q1 q2 Eq Nq. destruct q1 as [|k1 q1]; [exact R0|]. injection Eq as <- Eq. destruct q1 as [|k1 q1]; [exact R1|]. injection Eq as <- Eq. destruct q1; [|discriminate]. destruct q2; [congruence | discriminate].
  Qed.
End Struct.

Lemma same_none (P : list string -> Prop) j j' : (forall ks, P ks -> node_at ks j' = node_at ks j) -> forall q, (forall ks rest, q = map SKey ks ++ rest -> (rest = [] \/ exists i r, rest = SIdx i :: r) -> P ks) -> lookup q j = None -> lookup q j' = None.
Proof.
  intros H q HP L. assert (E : exists ks rest, q = map SKey ks ++ rest /\ (rest = [] \/ exists i r, rest = SIdx i :: r)).
  { clear. induction q as [|[k|i] q IH]; [|destruct IH as (ks & rest & -> & R)|]; [exists [], []; auto | exists (k :: ks), rest; auto | exists [], (SIdx i :: q); split; [reflexivity | right; eauto]]. }
  destruct E as (ks & rest & -> & R). specialize (H ks (HP ks rest eq_refl R)). rewrite lookup_keys in *. unfold node_at in H. destruct (at_path ks j') as [v'|]; [|reflexivity].
  destruct R as [-> |(i & r & ->)].
  - destruct (at_path ks j) as [v|]; [discriminate|]. destruct v'; discriminate.
  - destruct v' as [| | | |l|]; try reflexivity. destruct (at_path ks j) as [v|]; [|discriminate]. assert (v = JArr l) as -> by (destruct v; congruence). exact L.
Qed.
Section Whole.
  Context {F : Type} (pf : string -> option F) (zero : F) (fnum : F -> num) (a : around) (ch : choices) (de : depths).
  Context (o : options) (ss : list Scan.source) (roots : list nat).
  Local Notation vis s := (visited a ss roots s).
  Local Notation stages := (stages pf zero fnum a ch de o ss roots).
  Hypothesis Ho : any_order ch.
  Hypothesis Hdef : Forall ok_default (op_defops o).
  Lemma end_none c3 c k q : wf (c_data c3) -> pure (c_data c3) -> set_paths_defaults (ch_paths ch) (ch_ops ch) (ch_defs ch) (ch_def ch) (op_defops o) c3 = Ok c ->
    k <> "paths" -> lookup (SKey k :: q) (c_data c3) = None -> lookup (SKey k :: q) (c_data c) = None.
  Proof.
    intros W (Nd & Fd) H Nk L. destruct Ho as ((M1 & M2 & M3 & M4 & M5) & O1 & O2 & O3 & O4 & O5).
    destruct c3 as [d3|].
    2: { unfold set_paths_defaults in H. cbn [c_data] in *. apply bind_ok in H as (ff & Hff & H). change (paths_of (ch_paths ch) (ch_ops ch) None) with (items_of (ch_ops ch) (ch_paths ch [])) in Hff. rewrite (Permutation_nil (Permutation_sym (M3 []))) in Hff.
      injection Hff as <-. rewrite loop_nothing in H. injection H as <-. reflexivity. }
    cbn [c_data] in *.
    assert (Hdot : forall p m v, operation p m d3 v -> has_char "." p = false /\ has_char "." m = false).
    { unfold operation. intros p0 m0 v Lv. destruct d3 as [| | | | |dm]; try discriminate. cbn [at_path] in Lv. destruct (oget "paths" dm) as [y|] eqn:E1; [|discriminate]. destruct y as [| | | | |pm]; try discriminate.
      destruct (oget p0 pm) as [y|] eqn:E2; [|discriminate]. destruct y as [| | | | |mm]; try discriminate. destruct (oget m0 mm) as [z|] eqn:E3; [|discriminate]. apply oget_in in E1, E2, E3.
      split; apply Nd.
      - eapply kin_obj; [exact E1|]. eapply kin_here; exact E2.
      - eapply kin_obj; [exact E1|]. eapply kin_obj; [exact E2|]. eapply kin_here; exact E3. }
    destruct (defaults_spec _ _ _ _ _ d3 c M3 M4 O5 M5 W Fd Hdot Hdef H) as (d4 & -> & _ & B). cbn [c_data].
    refine (same_none (fun ks => hd "" ks <> "paths") d3 d4 _ (SKey k :: q) _ L).
    - intros ks N. apply B. intros p m v _ (r & E). apply N. now rewrite E.
    - intros ks rest E R. destruct ks as [|k0 ks]; [discriminate|]. cbn [map app] in E. injection E as <- _. exact Nk.
  Qed.
  Lemma denoted pts os p x : sound_scopes (ar_env a) ss -> (forall ob, In ob os -> exists s h, In s ss /\ so_scope s h = Some ob) ->
    collect_all (ar_env a) (de_walk de) os [] = Ok pts -> go_types pf zero fnum std_mapping a ch de pts p = Ok x ->
    forall pk name t toks ts t', declared (ar_env a) t pk name -> trail (ar_env a) t toks ts t' -> ptr_string p = loc_text pk (name :: toks) ->
    exists std s, type2schema pf zero (ar_env a) std (ch_pick ch) (de_type de) (de_fields de) 0 pts [] (under (ar_env a) t') tag_zero = Ok s /\ schema_json fnum s = Ok x.
  Proof.
    intros (He & Hf & Hd & Hob & Hu) Hos Hc H pk name t toks ts t' Dc Tr Ep. destruct Ho as (_ & O1 & O2 & O3 & O4 & O5).
    assert (Ok' : Forall obj_ok os) by (apply Forall_forall; intros ob I; destruct (Hos ob I) as (s & h & Is & Eh); apply (Hob s h ob Is Eh)).
    assert (Fd : Forall (fun o => fields_distinct (o_type o)) os) by (apply Forall_forall; intros ob I; destruct (Hos ob I) as (s & h & Is & Eh); apply (Hob s h ob Is Eh)).
    unfold go_types in H. apply bind_ok in H as (s & Hs & H). unfold scanner_resolve in Hs. destruct (pm_find (ch_points ch) pts p) as [T|] eqn:Ef; [|discriminate].
    assert (R : exists T', registered pts T' (ptr_string p)).
    { unfold pm_find in Ef. destruct (find _ _) as [[T0 l]|] eqn:Ee; [|discriminate]. injection Ef as <-. apply find_some in Ee as (I & E). apply (Permutation_in _ (O4 _)) in I. apply existsb_exists in E as (p' & Ip & E). apply String.eqb_eq in E.
      exists T0, p'. split; [|now symmetry]. rewrite (pm_at_in pts T0 l (proj1 (collect_all_good (ar_env a) He (de_walk de) os [] pts Ok' pm_good_nil Hc)) I). exact Ip. }
    destruct R as (T' & R). pose proof (find_unique (ar_env a) He Hd os Ok' Fd (Hu os Hos) (de_walk de) pts Hc (ch_points ch) p T' (O4 _) R) as E. rewrite Ef in E. injection E as <-.
    rewrite Ep in R. pose proof (registered_unique (ar_env a) He Hd os Ok' Fd (Hu os Hos) (de_walk de) pts Hc T pk name t toks ts t' (or_introl Dc) Tr R) as ->. eexists. exists s. split; [exact Hs | exact H].
  Qed.
  Lemma struct_shown c3 c q q1 x y v fs std s pts t' k : wf (c_data c3) -> pure (c_data c3) -> set_paths_defaults (ch_paths ch) (ch_ops ch) (ch_defs ch) (ch_def ch) (op_defops o) c3 = Ok c -> q = SKey k :: q1 ->
    type2schema pf zero (ar_env a) std (ch_pick ch) (de_type de) (de_fields de) 0 pts [] t' tag_zero = Ok s -> under (ar_env a) t' = TStruct fs -> schema_json fnum s = Ok x ->
    clone x = Ok y -> lookup q (c_data c3) = Some v -> (forall rr, (forall q t p0, ext_ref x q t p0 -> Spec_Loc.apart q rr) -> lookup rr v = lookup rr y) ->
    shows_struct pf (ar_env a) fs (fun rr => lookup (q ++ rr) (c_data c)) /\ (k <> "paths" -> shows_only pf (ar_env a) fs (fun rr => lookup (q ++ rr) (c_data c))).
  Proof.
    intros W P Hc -> Hs Et Hx Hy L Fr. destruct (struct_json pf zero fnum (ar_env a) std (ch_pick ch) _ _ _ _ _ _ fs s x Et Hs Hx (fun rr => lookup ((SKey k :: q1) ++ rr) (c_data c))) as (A & B). split.
    - apply A. intros rr w Ap Lw. apply (end_leaf ch o Ho Hdef c3 c _ _ W P Hc); [|reflexivity | discriminate]. rewrite lookup_app, L, (Fr rr Ap). now apply (clone_lookup_str _ _ _ _ Hy).
    - intro Nk. apply B. intros rr Ap Lw. apply (end_none c3 c _ _ W P Hc Nk). change (lookup ((SKey k :: q1) ++ rr) (c_data c3) = None). rewrite lookup_app, L, (Fr rr Ap). pose proof (clone_lookup rr _ _ Hy) as C. rewrite Lw in C. destruct (lookup rr y); [destruct C | reflexivity].
  Qed.
  Lemma named_in_scope (pp : pointers) ob : named_by a ss roots (fun p => exists k, oget k pp = Some p) ob -> exists s h, In s ss /\ so_scope s h = Some ob.
  Proof. intros (s & p & h & r & (r0 & i & _ & _ & En) & _ & _ & _ & _ & Sc). exists s, h. split; [eapply nth_error_In; exact En | exact Sc]. Qed.
  (** A reference to a struct type that is not exported. *)
  Theorem stages_struct c : stages c -> sound_scopes (ar_env a) ss -> forall s k q p pk name t toks ts t' fs, vis s -> ref_of_file a s k q p ->
    declared (ar_env a) t pk name -> trail (ar_env a) t toks ts t' -> under (ar_env a) t' = TStruct fs -> ptr_string p = loc_text pk (name :: toks) ->
    oget (ptr_string p) (op_override o) = None -> (forall s n p', vis s -> exports_type s n p' -> ptr_string p' <> ptr_string p) ->
    (forall s doc, vis s -> spec_doc_of a s doc -> only_ref_at doc (SKey k :: q)) -> only_ref_at (op_root o) (SKey k :: q) ->
    (forall s name, vis s -> exports_name s name -> Spec_Loc.apart (comp_loc "schemas" name) (SKey k :: q)) ->
    shows_struct pf (ar_env a) fs (fun rr => lookup ((SKey k :: q) ++ rr) (c_data c)) /\ (k <> "paths" -> shows_only pf (ar_env a) fs (fun rr => lookup ((SKey k :: q) ++ rr) (c_data c))).
  Proof.
    intros [es pp os pts d1 r d2 c3 Hrefs K1 Hfrom Hroot Wr Hoth Hsec K2 D2 F2 Tfn Hc3 W3 P3 Gn Hc Hes _ _ _ _ _ Hcoll Hos] Hss s k q p pk name t toks ts t' fs Vs Hr Dc Tr Et Ep Nov Ne Lf Lr Ex.
    pose proof Ho as ((M1 & M2 & M3 & M4 & M5) & O1 & O2 & O3 & O4 & O5).
    destruct (stage_ref a ss roots d1 d2 s k q p Vs Hr K1 K2) as (tx & Ht).
    destruct (resolve_at (ch_resolve ch) es _ _ (JObj d2) c3 (SKey k :: q) tx p O3 (proj1 D2) (proj1 (proj2 D2)) Gn Hc3 Ht) as (d2' & x & y & _ & Hx & Hy & Out); [discriminate | | |].
    - exact (d2_others a o ss roots d1 r d2 _ Hfrom Hroot Hoth Hsec Hrefs Lf Lr).
    - intros e Ie. destruct (Hes e Ie) as (Ek & s' & Vs' & Es). rewrite Ek. apply (Ex s' _ Vs'). apply exports_type_name. eauto.
    - rewrite (exports_get_of a ss roots es p Hes Ne) in Out. destruct Out as (v & Lv & _ & Fr & _). destruct (Tfn p x Hx) as (Wx & Kx & _). unfold scan_fn in Hx. rewrite Nov in Hx. destruct (String.eqb _ "go"); [|discriminate].
      assert (Hin : forall ob, In ob os -> exists s h, In s ss /\ so_scope s h = Some ob) by (intros ob I; apply (named_in_scope pp); now apply Hos).
      destruct (denoted pts os p x Hss Hin Hcoll Hx pk name t toks ts t' Dc Tr Ep) as (std & sc & Hs & Hj).
      refine (struct_shown c3 c (SKey k :: q) q x y v fs std sc pts _ k W3 P3 Hc eq_refl Hs _ Hj Hy Lv (Fr Wx Kx)). rewrite <- Et. destruct Hss as (_ & Hf & _). now apply under_flat.
  Qed.
  (** The component of an exported struct type. *)
  Theorem stages_struct_exported c : stages c -> sound_scopes (ar_env a) ss -> NoDup (map so_path ss) -> forall s k q p s' n p' pk name t toks ts t' fs, vis s -> ref_of_file a s k q p ->
    vis s' -> exports_type s' n p' -> ptr_string p' = ptr_string p -> (forall s0 p0, vis s0 -> exports_type s0 n p0 -> ptr_string p0 = ptr_string p) ->
    declared (ar_env a) t pk name -> trail (ar_env a) t toks ts t' -> under (ar_env a) t' = TStruct fs -> ptr_string p = loc_text pk (name :: toks) ->
    oget (ptr_string p) (op_override o) = None ->
    (forall s doc, vis s -> spec_doc_of a s doc -> only_local_refs doc (comp_loc "schemas" n)) -> only_local_refs (op_root o) (comp_loc "schemas" n) ->
    shows_struct pf (ar_env a) fs (fun rr => lookup (comp_loc "schemas" n ++ rr) (c_data c)) /\ shows_only pf (ar_env a) fs (fun rr => lookup (comp_loc "schemas" n ++ rr) (c_data c)).
  Proof.
    intros [es pp os pts d1 r d2 c3 Hrefs K1 Hfrom Hroot Wr Hoth Hsec K2 D2 F2 Tfn Hc3 W3 P3 Gn Hc Hes Hes2 Nes _ _ _ Hcoll Hos] Hss Nd s k q p s' n p' pk name t toks ts t' fs Vs Hr Vs' Es Ep' Un Dc Tr Et Ep Nov Lf Lr.
    pose proof Ho as ((M1 & M2 & M3 & M4 & M5) & O1 & O2 & O3 & O4 & O5).
    destruct (stage_ref a ss roots d1 d2 s k q p Vs Hr K1 K2) as (tx & Ht).
    pose proof (exports_get_is es p n p' Nes (Hes2 Nd s' n p' Vs' Es) Ep') as Eg.
    destruct (resolve_component (ch_resolve ch) es _ _ (JObj d2) c3 (SKey k :: q) tx p _ O3 (proj1 D2) (proj1 (proj2 D2)) Gn Hc3 Ht Eg) as (pp0 & p0 & e0 & x & y & v & Eg0 & Ec0 & Hx & Hy & (_ & Fr & _) & Lv).
    - exact (d2_apart a o ss roots d1 r d2 Hfrom Hroot Hoth Hsec Hrefs _ Lf Lr).
    - cbn [e_kind e_name kind_key] in *. unfold exports_get in Eg0. apply find_some in Eg0 as (Ie & Ee). apply String.eqb_eq in Ee. destruct (Hes e0 Ie) as (Ek & s0 & Vs0 & Es0).
      assert (En : e_name e0 = n) by (rewrite Ek in Ec0; unfold comp_loc in Ec0; congruence). rewrite En in Es0. pose proof (Un s0 _ Vs0 Es0) as E0. destruct (Tfn p0 x Hx) as (Wx & Kx & _). unfold scan_fn in Hx. rewrite <- Ee, E0, Nov in Hx. destruct (String.eqb _ "go"); [|discriminate].
      assert (Hin : forall ob, In ob os -> exists s h, In s ss /\ so_scope s h = Some ob) by (intros ob I; apply (named_in_scope pp); now apply Hos).
      assert (Ep0 : ptr_string p0 = loc_text pk (name :: toks)) by congruence.
      destruct (denoted pts os p0 x Hss Hin Hcoll Hx pk name t toks ts t' Dc Tr Ep0) as (std & sc & Hs & Hj).
      destruct (struct_shown c3 c (comp_loc "schemas" n) [SKey "schemas"; SKey n] x y v fs std sc pts _ "components" W3 P3 Hc eq_refl Hs ltac:(rewrite <- Et; destruct Hss as (_ & Hf & _); now apply under_flat) Hj Hy Lv (Fr Wx Kx)) as (A & B).
      split; [exact A | apply B; discriminate].
  Qed.
  Lemma resolve_leaf ord es fn fuel doc c : (forall pos l, Permutation (ord pos l) l) -> leaf_entity doc -> clone doc = Ok doc -> resolve ord es fn fuel (Some doc) = Ok c -> c = Some doc.
  Proof.
    intros Hord (W & K & N) Cd H. apply resolve_inv in H as (doc' & f & refs & -> & Cd' & He & s' & Hl & ->). rewrite Cd in Cd'. injection Cd' as <-.
    destruct (extract_refs (ord []) doc refs (Hord []) W K He) as (_ & Hre & _). clear He.
    enough (s' = (Some doc, None)) as -> by reflexivity. revert Hl. generalize 0 as i. induction Hre as [|[key v] refs (q & E1 & L1 & _) Hre IH]; intros i H; cbn [rloop] in H; [now injection H as <-|].
    apply bind_ok in H as (s1 & Hs & H). cbn [fst snd] in *. assert (s1 = (Some doc, None)) as ->; [|exact (IH _ H)].
    unfold rstep in Hs. destruct v as [| | |t| |]; try (now injection Hs as <-). apply bind_ok in Hs as (p & Hp & Hs). destruct (is_external p) eqn:Hx; cbn [negb] in Hs; [|now injection Hs as <-].
    exfalso. apply (N q t p). split; auto.
  Qed.
  (** Without external references, only what the files and the root hold. *)
  Theorem stages_no_refs c : stages c -> (forall s doc q t, vis s -> spec_doc_of a s doc -> lookup (q ++ [SKey "$ref"]) doc = Some (JStr t) -> exists r, t = "#" +++ r) -> no_ext (op_root o) ->
    forall q, q <> [] -> (forall s doc, vis s -> spec_doc_of a s doc -> lookup (SKey "components" :: q) doc = None) -> lookup (SKey "components" :: q) (op_root o) = None ->
    lookup (SKey "components" :: q) (c_data c) = None.
  Proof.
    intros [es pp os pts d1 r d2 c3 Hrefs K1 Hfrom Hroot Wr Hoth Hsec K2 D2 F2 Tfn Hc3 W3 P3 Gn Hc Hes Hes2 Nes _ _ _ Hcoll Hos] Nf Nr q Nq Lf Lr.
    pose proof Ho as ((M1 & M2 & M3 & M4 & M5) & O1 & O2 & O3 & O4 & O5). apply (end_none c3 c "components" q W3 P3 Hc); [discriminate|].
    assert (Ne : no_ext (JObj d2)).
    { intros q0 t p (L & Pt & Et). destruct (d2_refs a o ss roots d1 r d2 Hfrom Hroot Hoth Hsec q0 t L) as [(s & doc & t0 & Vs & Hd & L0 & Ex)|L0].
      - destruct (Nf s doc q0 t0 Vs Hd L0) as (x & Er). subst t0. destruct (hash_new_text (so_path s) x (Hrefs s doc q0 _ Vs Hd L0)) as (_ & X). rewrite <- Ex in X. rewrite (X p Pt) in Et. discriminate.
      - exact (Nr q0 t p (conj L0 (conj Pt Et))). }
    rewrite (resolve_leaf _ es _ _ (JObj d2) c3 O3 (conj (proj1 D2) (conj (proj1 (proj2 D2)) Ne)) F2 Hc3). cbn [c_data].
    destruct (lookup (SKey "components" :: q) (JObj d2)) as [y|] eqn:L2; [|reflexivity]. exfalso. destruct (root_from r d1 d2 Hsec (SKey "components" :: q) y Hoth) as [(k0 & E & _)|(v' & [X|X] & _)]; [discriminate | exact L2 | now injection E as _ -> | |].
    - destruct (file_has a ss roots d1 Hfrom (SKey "components" :: q) v') as (s & doc & w & Vs & Hd & Lw & _); [discriminate | exact X|]. rewrite (Lf s doc Vs Hd) in Lw. discriminate.
    - pose proof (clone_lookup (SKey "components" :: q) _ _ Hroot) as C. rewrite Lr, X in C. exact C.
  Qed.
End Whole.
