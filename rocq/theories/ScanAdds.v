(** What the root configuration, the default operations, overrides and Go types
    add to the document that Scan builds (proofs). *)
From Coq Require Import String Ascii List Bool Arith ZArith Lia Permutation.
From Verif Require Import GoStr GoStrFacts Json JsonFacts Gabs Container Url Pointer Spec_Clone Spec_Merge CloneFacts MergeFacts ConfigApi
  Spec_Loc LocFacts Spec_Resolve ResolverFacts ResolverFrame ResolverAt Path Resolver ScanFn Cmds Spec_Cmds CmdFacts Specs Spec_Specs SpecFacts Pkgs Spec_Pkgs PkgFacts Types Root RootFacts Spec_Root PathsFacts
  SchemaJson Scan ScanFacts Spec_Types Spec_Schema ScanTypes Spec_Scan ScanInv ScanRefs ScanEnd ScanKept ScanKept2 Spec_Kept ScanKept3 CollectApi ScanStages Route P_Root.
Import ListNotations.
Local Open Scope string_scope.
Local Open Scope nat_scope.
Local Open Scope list_scope.

(** *** References of the merged document *)
Lemma like_str v' t : like (JStr t) v' -> v' = JStr t.
Proof. intros (_ & E). exact (E eq_refl). Qed.
Section Adds.
  Context (a : around) (o : options) (ss : list source) (roots : list nat).
  Local Notation vis s := (visited a ss roots s).
  Context (d1 r d2 : list (string * json)).
  Hypothesis Hfrom : forall q v, q <> [] -> lookup q (JObj d1) = Some v -> exists s doc y v', vis s /\ spec_doc_of a s doc /\ clone (kept_doc s doc) = Ok y /\ lookup q y = Some v' /\ like v v'.
  Hypothesis Hroot : clone (op_root o) = Ok (JObj r).
  Hypothesis Hoth : forall k, ~ In k section_names -> oget k d2 = oget k d1.
  Hypothesis Hsec : Forall (fun x => section_result (fst x) (snd x) (JObj d1) (JObj r) (JObj d2)) sections.

  (** What is at a location of the merged files is, up to its contents, there in a file. *)
  Lemma file_has q v : q <> [] -> lookup q (JObj d1) = Some v -> exists s doc v', vis s /\ spec_doc_of a s doc /\ lookup q doc = Some v' /\ is_obj v' = is_obj v.
  Proof.
    intros N L. destruct (Hfrom q v N L) as (s & doc & y & v' & Vs & Hd & Ey & Ly & Lk & _). pose proof (clone_lookup q _ _ Ey) as C. rewrite Ly in C.
    destruct (lookup q (kept_doc s doc)) as [w|] eqn:Lw; [|destruct C]. unfold kept_doc in Lw. rewrite map_refs_lookup in Lw. destruct (lookup q doc) as [x|] eqn:Lx; [|discriminate]. injection Lw as <-.
    exists s, doc, x. split; [exact Vs|]. split; [exact Hd|]. split; [exact Lx|]. rewrite <- Lk. assert (Ew : is_obj (at_loc (new_text (so_path s)) q x) = is_obj x) by (destruct x; try reflexivity; cbn; destruct (ends_ref q); reflexivity).
    rewrite <- Ew. destruct (is_obj v') eqn:B1, (is_obj (at_loc (new_text (so_path s)) q x)) eqn:B2; try reflexivity.
    - destruct v'; try discriminate. apply clone_same in C. inversion C; subst; destruct (at_loc _ _ _); discriminate.
    - destruct (at_loc (new_text (so_path s)) q x) eqn:Ea; try discriminate. destruct (clone_obj_inv _ _ C) as (m' & -> & _). discriminate.
  Qed.
  Lemma d2_refs q0 t : lookup (q0 ++ [SKey "$ref"]) (JObj d2) = Some (JStr t) ->
    (exists s doc t0, vis s /\ spec_doc_of a s doc /\ lookup (q0 ++ [SKey "$ref"]) doc = Some (JStr t0) /\ t = new_text (so_path s) t0) \/ lookup (q0 ++ [SKey "$ref"]) (op_root o) = Some (JStr t).
  Proof.
    intro L. assert (N : q0 ++ [SKey "$ref"] <> []) by (destruct q0; discriminate).
    destruct (root_from r d1 d2 Hsec _ _ Hoth N L) as [(k & E & I)|(v' & X & Lk)].
    - destruct q0 as [|? [|? ?]]; try discriminate. injection E as <-. cbn in I. intuition discriminate.
    - apply like_str in Lk. subst v'. destruct X as [X|X].
      + left. destruct (Hfrom _ _ N X) as (s & doc & y & v' & Vs & Hd & Ey & Ly & Lk). apply like_str in Lk. subst v'. apply (clone_lookup_str _ _ _ _ Ey) in Ly.
        unfold kept_doc in Ly. rewrite map_refs_lookup in Ly. destruct (lookup (q0 ++ [SKey "$ref"]) doc) as [x|] eqn:Lx; [|discriminate]. injection Ly as Ly.
        unfold at_loc in Ly. destruct x; try discriminate Ly. rewrite ends_ref_snoc in Ly. cbn in Ly. injection Ly as Ly. exists s, doc, s0. split; [exact Vs|]. split; [exact Hd|]. split; [exact Lx | now symmetry].
      + right. now apply (clone_lookup_str _ _ _ _ Hroot) in X.
  Qed.
  (** Locations that no external reference is at, above or below. *)
  Hypothesis Hrefs : forall s doc q t, vis s -> spec_doc_of a s doc -> lookup (q ++ [SKey "$ref"]) doc = Some (JStr t) -> ref_ok t.
  Lemma d2_apart q : (forall s doc, vis s -> spec_doc_of a s doc -> only_local_refs doc q) -> only_local_refs (op_root o) q ->
    forall q0 t p, ext_ref (JObj d2) q0 t p -> Spec_Loc.apart q0 q.
  Proof.
    intros Lf Lr q0 t p (L & Pt & Et). destruct (d2_refs q0 t L) as [(s & doc & t0 & Vs & Hd & L0 & Ex)|L0].
    - destruct (Lf s doc Vs Hd q0 t0 L0) as [A|(x & Er)]; [exact A|]. exfalso. subst t0. destruct (hash_new_text (so_path s) x (Hrefs s doc q0 _ Vs Hd L0)) as (_ & X). rewrite <- Ex in X. rewrite (X p Pt) in Et. discriminate.
    - destruct (Lr q0 t L0) as [A|(x & Er)]; [exact A|]. exfalso. subst t. rewrite (hash_local _ _ Pt) in Et. discriminate.
  Qed.
  Lemma d2_clear k q : (forall s doc, vis s -> spec_doc_of a s doc -> clear_way (SKey k :: q) doc) -> (exists k' q', q = SKey k' :: q') -> clear_way q (obj_part (section k (JObj d1))).
  Proof.
    intros C (k' & q' & ->) q1 q2 v E L. destruct q1 as [|st q1].
    - cbn [app] in E. subst q2. split; [|eauto]. assert (Ev : v = obj_part (section k (JObj d1))) by (unfold lookup in L; congruence). rewrite Ev. clear. destruct (section k (JObj d1)); reflexivity.
    - cbn [app] in E. injection E as <- ->. apply (proj1 (obj_part_lookup (SKey k' :: q1) _ v ltac:(discriminate) ltac:(eauto))) in L. apply section_lookup in L; [|discriminate].
      destruct (file_has (SKey k :: SKey k' :: q1) v) as (s & doc & v' & Vs & Hd & Lv & Eb); [discriminate | exact L|].
      destruct (C s doc Vs Hd (SKey k :: SKey k' :: q1) q2 v' eq_refl Lv) as (O & X). rewrite <- Eb. auto.
  Qed.
End Adds.
Lemma carried q v v' d : clone v = Ok v' -> lookup q d = Some v' -> carried_at q v d.
Proof.
  intros C L. destruct v as [|b|n|t|l|m]; cbn [carried_at]; try (cbn in C; injection C as <-; exact L); try exact Logic.I.
  - apply clone_same in C. inversion C as [| |n0 n' R| | |]; subst. eauto.
  - rewrite clone_arr_eq in C. apply bind_ok in C as (l' & Hl & C). injection C as <-. exists l'. split; [exact L|]. apply clone_list_ok in Hl. clear - Hl.
    assert (G : forall x y : list json, Forall2 (fun x y => clone x = Ok y) x y -> length y = length x) by (induction 1; cbn; congruence). now rewrite (G _ _ Hl).
Qed.

(** *** Default operations *)
Definition lacks (k : string) (j : json) : Prop := forall m, j = JObj m -> oget k m = None.
Lemma with_default_lacks k o v v' : with_default o v v' -> lacks k o -> lacks k v -> lacks k v'.
Proof.
  intros D Lo Lv. inversion D as [o0 x r M|o0 No|v0 N0]; subst; [|exact Lo | exact Lv]. destruct (merged_inv _ _ _ _ M) as (m & -> & _ & K). intros m0 [= <-]. specialize (K k). rewrite (Lv x eq_refl), (Lo o0 eq_refl) in K. now inversion K.
Qed.
Lemma with_default_stays k o v v' x : with_default o v v' -> (exists m, v = JObj m /\ oget k m = Some x) -> lacks k o \/ is_obj x = false -> exists m, v' = JObj m /\ oget k m = Some x.
Proof.
  intros D (m & -> & E) C. inversion D as [o0 y r M|o0 No|v0 N0]; subst; [|discriminate]. destruct (merged_inv _ _ _ _ M) as (m' & -> & _ & K). exists m'. split; [reflexivity|].
  specialize (K k). rewrite E in K. destruct C as [C|C].
  - rewrite (C o0 eq_refl) in K. inversion K. reflexivity.
  - inversion K as [| | |d0 s r0 B1 B2 _ E1 E2 E3|d0 s r0 B1 B2 E1 E2 E3]; subst; [reflexivity|congruence|exact (eq_sym B2)].
Qed.
Lemma with_defaults_stay k os : forall v v' x, with_defaults os v v' -> (exists m, v = JObj m /\ oget k m = Some x) -> Forall (lacks k) os \/ is_obj x = false -> exists m, v' = JObj m /\ oget k m = Some x.
Proof.
  induction os as [|o os IH]; intros v v' x D E C; inversion D as [|o0 os0 v0 v1 v2 H2 H4]; subst; [exact E|]. apply (IH _ _ x H4).
  - apply (with_default_stays k o v v1 x H2 E). destruct C as [C|C]; [left; exact (Forall_inv C) | now right].
  - destruct C as [C|C]; [left; exact (Forall_inv_tail C) | now right].
Qed.
Lemma with_defaults_lack k os : forall v v', with_defaults os v v' -> Forall (lacks k) os -> lacks k v -> lacks k v'.
Proof.
  induction os as [|o os IH]; intros v v' D C L; inversion D as [|o0 os0 v0 v1 v2 H2 H4]; subst; [exact L|]. apply (IH _ _ H4 (Forall_inv_tail C)). exact (with_default_lacks k o v v1 H2 (Forall_inv C) L).
Qed.
Lemma with_default_adds k o v v' x : with_default (JObj o) v v' -> lacks k v -> oget k o = Some x -> exists m, v' = JObj m /\ oget k m = Some x.
Proof.
  intros D L E. inversion D as [o0 y r M|o0 No|v0 N0]; subst; [|exists o; auto | discriminate].
  destruct (merged_inv _ _ _ _ M) as (m' & -> & _ & K). exists m'. split; [reflexivity|]. specialize (K k). rewrite E, (L y eq_refl) in K. inversion K. reflexivity.
Qed.
Lemma with_defaults_unique k os1 o os2 v v' x : with_defaults (os1 ++ JObj o :: os2) v v' -> Forall (lacks k) os1 -> Forall (lacks k) os2 -> lacks k v -> oget k o = Some x -> exists m, v' = JObj m /\ oget k m = Some x.
Proof.
  revert v. induction os1 as [|o1 os1 IH]; intros v D L1 L2 L E; cbn [app] in D; inversion D as [|o0 os0 v0 v1 v2 H2 H4]; subst.
  - apply (with_defaults_stay k os2 v1 v' x H4); [exact (with_default_adds k o v v1 x H2 L E) | now left].
  - apply (IH v1 H4 (Forall_inv_tail L1) L2); [|exact E]. exact (with_default_lacks k o1 v v1 H2 (Forall_inv L1) L).
Qed.
Lemma with_defaults_some k os : forall v v', with_defaults os v v' -> lacks k v -> (exists o, In (JObj o) os /\ oget k o <> None) -> Forall (fun j => exists o, j = JObj o) os ->
  (forall o x, In (JObj o) os -> oget k o = Some x -> is_obj x = false) -> exists m o x, v' = JObj m /\ oget k m = Some x /\ In (JObj o) os /\ oget k o = Some x.
Proof.
  induction os as [|j os IH]; intros v v' D L (o & I & E) Fo Lf; [destruct I|]. inversion D as [|o0 os0 v0 v1 v2 H2 H4]; subst. destruct (Forall_inv Fo) as (o1 & ->). destruct (oget k o1) as [x|] eqn:E1.
  - destruct (with_defaults_stay k os v1 v' x H4 (with_default_adds k o1 v v1 x H2 L E1)) as (m & -> & Em); [right; exact (Lf o1 x (or_introl eq_refl) E1)|]. exists m, o1, x. split; [reflexivity|]. split; [exact Em|]. split; [now left | exact E1].
  - destruct I as [[= ->]|I]; [congruence|]. assert (L1 : lacks k v1) by (apply (with_default_lacks k (JObj o1) v v1 H2); [intros m [= <-]; exact E1 | exact L]).
    destruct (IH v1 v' H4 L1) as (m & o2 & x & A & B & C & G); [exists o; auto | exact (Forall_inv_tail Fo) | intros o3 x I3; apply Lf; now right|]. exists m, o2, x. split; [exact A|]. split; [exact B|]. split; [now right | exact G].
Qed.

Section Whole.
  Context {F : Type} (pf : string -> option F) (zero : F) (fnum : F -> num) (a : around) (ch : choices) (de : depths).
  Context (o : options) (ss : list source) (roots : list nat).
  Local Notation vis s := (visited a ss roots s).
  Local Notation stages := (stages pf zero fnum a ch de o ss roots).
  Hypothesis Ho : any_order ch.
  Hypothesis Hdef : Forall ok_default (op_defops o).
  Lemma end_leaf c3 c q v : wf (c_data c3) -> pure (c_data c3) -> set_paths_defaults (ch_paths ch) (ch_ops ch) (ch_defs ch) (ch_def ch) (op_defops o) c3 = Ok c ->
    lookup q (c_data c3) = Some v -> is_obj v = false -> v <> JNull -> lookup q (c_data c) = Some v.
  Proof.
    intros W P H L N Nn. destruct Ho as ((M1 & M2 & M3 & M4 & M5) & O1 & O2 & O3 & O4 & O5). destruct c3 as [d3|]; [|destruct q as [|[] ?]; cbn in L; try discriminate; now injection L as <-].
    destruct (defaults_keep_at _ _ _ _ _ _ _ M3 M4 O5 M5 W P Hdef H) as (d4 & -> & K4). exact (K4 _ _ L N Nn).
  Qed.
  (** *** The root configuration *)
  Theorem stages_root c : stages c -> forall k q v, lookup (SKey k :: q) (op_root o) = Some v -> v <> JNull ->
    In k ["info"; "components"; "paths"; "externalDocs"; "security"; "servers"; "tags"] -> (exists k' q', q = SKey k' :: q') ->
    (~ In k ["info"; "components"] -> forall s doc, vis s -> spec_doc_of a s doc -> clear_way (SKey k :: q) doc) ->
    (forall s doc, vis s -> spec_doc_of a s doc -> only_local_refs doc (SKey k :: q)) -> only_local_refs (op_root o) (SKey k :: q) ->
    (forall s name, vis s -> exports_name s name -> Spec_Loc.apart (comp_loc "schemas" name) (SKey k :: q)) ->
    carried_at (SKey k :: q) v (c_data c).
  Proof.
    intros [es pp os pts d1 r d2 c3 Hrefs _ Hfrom Hroot Wr Hoth Hsec _ D2 F2 _ Hc3 W3 P3 Gn Hc Hes _ _ _ _ _ _ _] k q v L Nn Ik Hq Cl Lf Lr Ex.
    destruct (is_obj v) eqn:N; [destruct v; try discriminate; exact Logic.I|].
    pose proof (clone_lookup (SKey k :: q) _ _ Hroot) as C. rewrite L in C. destruct (lookup (SKey k :: q) (JObj r)) as [v'|] eqn:Lr'; [|destruct C].
    destruct (clone_leaf_kind _ _ C N Nn) as (N' & Nn'). apply (carried _ _ v' _ C).
    refine (end_leaf c3 c _ v' W3 P3 Hc _ N' Nn'). destruct Ho as (_ & _ & _ & O3 & _ & _).
    destruct (resolve_frame (ch_resolve ch) es _ _ (JObj d2) c3 O3 (proj1 D2) (proj1 (proj2 D2)) Gn Hc3) as (d2' & Ec2 & R3). rewrite F2 in Ec2. injection Ec2 as <-.
    rewrite R3.
    - destruct Ik as [<-|[<-|Ik]]; [exact (root_info r d1 d2 Hsec q v' Hq Lr' N') | exact (root_components r d1 d2 Hsec q v' Hq Lr' N')|].
      assert (Nk : ~ In k ["info"; "components"]) by (intros [<-|[<-|[]]]; cbn in Ik; intuition discriminate).
      exact (root_default r d1 d2 Hsec k q v' Ik Hq Lr' N' (d2_clear a ss roots d1 Hfrom k q (Cl Nk) Hq)).
    - exact (d2_apart a o ss roots d1 r d2 Hfrom Hroot Hoth Hsec Hrefs _ Lf Lr).
    - intros e Ie. destruct (Hes e Ie) as (Ek & s & Vs & Es). rewrite Ek. apply (Ex s _ Vs). apply exports_type_name. eauto.
  Qed.
  (** *** Default operations *)
  Lemma end_ops d3 c : wf d3 -> pure d3 -> set_paths_defaults (ch_paths ch) (ch_ops ch) (ch_defs ch) (ch_def ch) (op_defops o) (Some d3) = Ok c ->
    forall p m x, lookup [SKey "paths"; SKey p; SKey m] (c_data c) = Some x ->
    exists v, lookup [SKey "paths"; SKey p; SKey m] d3 = Some v /\ with_defaults (chosen (p, m) (ch_defs ch (op_defops o))) v x.
  Proof.
    intros W (Nd & Fd) H p m x L. destruct Ho as ((M1 & M2 & M3 & M4 & M5) & O1 & O2 & O3 & O4 & O5).
    assert (Hdot : forall p m v, operation p m d3 v -> has_char "." p = false /\ has_char "." m = false).
    { unfold operation. intros p0 m0 v Lv. destruct d3 as [| | | | |dm]; try discriminate. cbn [at_path] in Lv. destruct (oget "paths" dm) as [y|] eqn:E1; [|discriminate]. destruct y as [| | | | |pm]; try discriminate.
      destruct (oget p0 pm) as [y|] eqn:E2; [|discriminate]. destruct y as [| | | | |mm]; try discriminate. destruct (oget m0 mm) as [z|] eqn:E3; [|discriminate]. apply oget_in in E1, E2, E3.
      split; apply Nd.
      - eapply kin_obj; [exact E1|]. eapply kin_here; exact E2.
      - eapply kin_obj; [exact E1|]. eapply kin_obj; [exact E2|]. eapply kin_here; exact E3. }
    destruct (defaults_spec _ _ _ _ _ d3 c M3 M4 O5 M5 W Fd Hdot Hdef H) as (d4 & -> & A & _).
    destruct (defaults_keep _ _ _ _ _ d3 (Some d4) M3 M4 O5 M5 W Fd Hdot Hdef H) as (d4' & [= <-] & _ & _ & B). cbn [c_data] in L.
    assert (At : forall j y, lookup [SKey "paths"; SKey p; SKey m] j = Some y <-> operation p m j y).
    { intros j y. unfold operation. change [SKey "paths"; SKey p; SKey m] with (map SKey ["paths"; p; m] ++ []). rewrite lookup_keys. now destruct (at_path ["paths"; p; m] j). }
    apply (proj1 (At _ _)) in L. destruct (B p m x L) as (v & Hv). destruct (A p m v Hv) as (v' & Hv' & D). exists v. split; [exact (proj2 (At _ _) Hv)|]. unfold operation in *. assert (v' = x) as <- by congruence. exact D.
  Qed.
  Theorem stages_defaults c : stages c -> forall pat op p m k v x, In (pat, JObj op) (op_defops o) -> route_match pat m p = Ok true -> oget k op = Some v ->
    lookup [SKey "paths"; SKey p; SKey m] (c_data c) = Some x ->
    (forall s doc, vis s -> spec_doc_of a s doc -> lookup [SKey "paths"; SKey p; SKey m; SKey k] doc = None) -> lookup [SKey "paths"; SKey p; SKey m; SKey k] (op_root o) = None ->
    (forall s doc, vis s -> spec_doc_of a s doc -> only_local_refs doc [SKey "paths"; SKey p; SKey m; SKey k]) -> only_local_refs (op_root o) [SKey "paths"; SKey p; SKey m; SKey k] ->
    (NoDup (map fst (op_defops o)) -> (forall pat' op', In (pat', JObj op') (op_defops o) -> route_match pat' m p = Ok true -> pat' <> pat -> oget k op' = None) ->
       lookup [SKey "paths"; SKey p; SKey m; SKey k] (c_data c) = Some v) /\
    ((forall pat' op' v', In (pat', JObj op') (op_defops o) -> route_match pat' m p = Ok true -> oget k op' = Some v' -> is_obj v' = false) ->
       exists pat' op' v', In (pat', JObj op') (op_defops o) /\ route_match pat' m p = Ok true /\ oget k op' = Some v' /\ lookup [SKey "paths"; SKey p; SKey m; SKey k] (c_data c) = Some v').
  Proof.
    intros [es pp os pts d1 r d2 c3 Hrefs _ Hfrom Hroot Wr Hoth Hsec _ D2 F2 _ Hc3 W3 P3 Gn Hc Hes _ _ _ _ _ _ _] pat op p m k v x Ip Hm Ek Lx Nf Nr Lf Lr.
    pose proof Ho as ((M1 & M2 & M3 & M4 & M5) & O1 & O2 & O3 & O4 & O5).
    destruct (resolve_frame (ch_resolve ch) es _ _ (JObj d2) c3 O3 (proj1 D2) (proj1 (proj2 D2)) Gn Hc3) as (d2' & Ec2 & R3). rewrite F2 in Ec2. injection Ec2 as <-.
    set (q := [SKey "paths"; SKey p; SKey m; SKey k]) in *.
    assert (N3 : lookup q (c_data c3) = None).
    { rewrite R3.
      - destruct (lookup q (JObj d2)) as [y|] eqn:L2; [|reflexivity]. exfalso. destruct (root_from r d1 d2 Hsec q y Hoth) as [(k0 & E & _)|(v' & [X|X] & _)]; [discriminate | exact L2 | discriminate | |].
        + destruct (file_has a ss roots d1 Hfrom q v') as (s & doc & w & Vs & Hd & Lw & _); [discriminate | exact X|]. rewrite (Nf s doc Vs Hd) in Lw. discriminate.
        + pose proof (clone_lookup q _ _ Hroot) as C. rewrite Nr, X in C. exact C.
      - exact (d2_apart a o ss roots d1 r d2 Hfrom Hroot Hoth Hsec Hrefs q Lf Lr).
      - intros e Ie. split; intros (z & E); [unfold q, comp_loc in E; discriminate | discriminate]. }
    destruct c3 as [d3|].
    2: { exfalso. unfold set_paths_defaults in Hc. cbn [c_data] in *. apply bind_ok in Hc as (ff & Hff & Hc). change (paths_of (ch_paths ch) (ch_ops ch) None) with (items_of (ch_ops ch) (ch_paths ch [])) in Hff. rewrite (Permutation_nil (Permutation_sym (M3 []))) in Hff.
      injection Hff as <-. rewrite loop_nothing in Hc. injection Hc as <-. discriminate. }
    destruct (end_ops d3 c W3 P3 Hc p m x Lx) as (v3 & L3 & D). cbn [c_data] in N3.
    assert (Lk : lacks k v3). { intros mm ->. unfold q in N3. change [SKey "paths"; SKey p; SKey m; SKey k] with ([SKey "paths"; SKey p; SKey m] ++ [SKey k]) in N3. rewrite lookup_app, L3 in N3. cbn [lookup] in N3. now destruct (oget k mm). }
    assert (End : forall mm y, x = JObj mm -> oget k mm = Some y -> lookup q (c_data c) = Some y).
    { intros mm y -> E. unfold q. change [SKey "paths"; SKey p; SKey m; SKey k] with ([SKey "paths"; SKey p; SKey m] ++ [SKey k]). rewrite lookup_app, Lx. cbn [lookup]. now rewrite E. }
    assert (Ch : forall j, In j (chosen (p, m) (ch_defs ch (op_defops o))) <-> exists pat', In (pat', j) (op_defops o) /\ route_match pat' m p = Ok true).
    { intro j. unfold chosen. rewrite in_map_iff. split.
      - intros ([pat' j'] & <- & I). apply filter_In in I as (I & S). exists pat'. split; [eapply Permutation_in; [apply O5 | exact I]|]. unfold selects in S. cbn [fst snd] in S. now destruct (route_match pat' m p) as [[]| | |].
      - intros (pat' & I & E). exists (pat', j). split; [reflexivity|]. apply filter_In. split; [eapply Permutation_in; [apply Permutation_sym, O5 | exact I]|]. unfold selects. cbn [fst snd]. now rewrite E. }
    split.
    - intros Nd U. unfold chosen in D. assert (I : In (pat, JObj op) (filter (fun kv => selects (fst kv) (p, m)) (ch_defs ch (op_defops o)))).
      { apply filter_In. split; [eapply Permutation_in; [apply Permutation_sym, O5 | exact Ip]|]. unfold selects. cbn [fst snd]. now rewrite Hm. }
      assert (Nd' : NoDup (map fst (filter (fun kv => selects (fst kv) (p, m)) (ch_defs ch (op_defops o))))).
      { assert (G : forall (f : string * json -> bool) l, NoDup (map fst l) -> NoDup (map fst (filter f l))).
        { intros f l. induction l as [|y l IH]; cbn; intro H; [constructor|]. inversion H as [|? ? A B]; subst. destruct (f y); [|auto]. cbn. constructor; [|auto]. intro X. apply A. apply in_map_iff in X as (z & E & Iz). apply filter_In in Iz as (Iz & _). apply in_map_iff. eauto. }
        apply G. eapply Permutation_NoDup; [apply Permutation_map, Permutation_sym, O5 | exact Nd]. }
      apply in_split in I as (l1 & l2 & El). rewrite El, map_app in D. cbn [map snd] in D.
      assert (La : forall y, In y (l1 ++ l2) -> lacks k (snd y)).
      { intros [pat' j] Iy m0 Ej. cbn [snd] in Ej. subst j. assert (Iy' : In (pat', JObj m0) (filter (fun kv => selects (fst kv) (p, m)) (ch_defs ch (op_defops o)))) by (rewrite El; apply in_app_or in Iy as [Iy|Iy]; apply in_or_app; [now left | right; now right]).
        apply filter_In in Iy' as (Iy' & S). unfold selects in S. cbn [fst snd] in S. apply (U pat' m0); [eapply Permutation_in; [apply O5 | exact Iy'] | now destruct (route_match pat' m p) as [[]| | |]|].
        intros ->. rewrite El, map_app in Nd'. cbn [map fst] in Nd'. apply NoDup_remove_2 in Nd'. apply Nd'. rewrite <- map_app. apply in_map_iff. now exists (pat, JObj m0). }
      destruct (with_defaults_unique k _ op _ v3 x v D) as (mm & Ex & Em); [ | | exact Lk | exact Ek|exact (End mm v Ex Em)].
      + apply Forall_forall. intros j Ij. apply in_map_iff in Ij as (y & <- & Iy). apply La, in_or_app. now left.
      + apply Forall_forall. intros j Ij. apply in_map_iff in Ij as (y & <- & Iy). apply La, in_or_app. now right.
    - intro Lf'. destruct (with_defaults_some k _ v3 x D Lk) as (mm & op' & v' & Ex & Em & I' & E').
      + exists op. split; [apply Ch; eauto | congruence].
      + apply Forall_forall. intros j Ij. apply Ch in Ij as (pat' & I' & _). rewrite Forall_forall in Hdef. destruct (Hdef _ I') as (o' & E & _). eauto.
      + intros op' v' I' E'. apply Ch in I' as (pat' & I' & M'). exact (Lf' pat' op' v' I' M' E').
      + apply Ch in I' as (pat' & I' & M'). exists pat', op', v'. split; [exact I'|]. split; [exact M'|]. split; [exact E'|]. exact (End mm v' Ex Em).
  Qed.
  (** *** References *)
  Definition ref_of_file (s : source) (k : string) (q : loc) (p : ptr) : Prop :=
    exists doc t, spec_doc_of a s doc /\ ~ In NBad (numbers doc) /\ lookup ((SKey k :: q) ++ [SKey "$ref"]) doc = Some (JStr t) /\ ptr_parse (new_text (so_path s) t) = Ok p /\ is_external p = true /\
    ~ In k ["info"; "security"; "servers"; "tags"] /\ (In k ["components"; "paths"; "externalDocs"] -> exists k' q', q ++ [SKey "$ref"] = SKey k' :: q').
  Lemma exports_get_of es p : (forall e, In e es -> e_kind e = KSchema /\ exists s, vis s /\ exports_type s (e_name e) (e_ptr e)) ->
    (forall s n p', vis s -> exports_type s n p' -> ptr_string p' <> ptr_string p) -> exports_get es p = None.
  Proof.
    intros He N. unfold exports_get. destruct (find _ es) as [e|] eqn:Ef; [|reflexivity]. apply find_some in Ef as (Ie & Ee). apply String.eqb_eq in Ee. destruct (He e Ie) as (_ & s & Vs & Es). now elim (N s _ _ Vs Es).
  Qed.
  Lemma exports_get_is es p n p' : NoDup (map (fun e => ptr_string (e_ptr e)) es) -> In {| e_kind := KSchema; e_name := n; e_ptr := p' |} es -> ptr_string p' = ptr_string p ->
    exports_get es p = Some {| e_kind := KSchema; e_name := n; e_ptr := p' |}.
  Proof.
    intros Nd I E. unfold exports_get. revert Nd I. induction es as [|e es IH]; intros Nd I; [destruct I|]. destruct I as [->|I].
    - cbn [find e_ptr]. now rewrite E, String.eqb_refl.
    - cbn [find map] in *. inversion Nd as [|? ? A B]; subst. destruct (String.eqb_spec (ptr_string (e_ptr e)) (ptr_string p)) as [X|_]; [|exact (IH B I)].
      exfalso. apply A. rewrite X, <- E. apply in_map_iff. exists {| e_kind := KSchema; e_name := n; e_ptr := p' |}. auto.
  Qed.
  (** What is known of a reference of a file before resolving. *)
  Lemma stage_ref d1 d2 s k q p : vis s -> ref_of_file s k q p ->
    (forall s doc y q v, vis s -> spec_doc_of a s doc -> clone (kept_doc s doc) = Ok y -> lookup q y = Some v -> is_obj v = false -> lookup q (JObj d1) = Some v) ->
    (forall k q v, lookup (SKey k :: q) (JObj d1) = Some v -> is_obj v = false -> ~ In k ["info"; "security"; "servers"; "tags"] ->
         (In k ["components"; "paths"; "externalDocs"] -> is_obj (section k (JObj d1)) = true) -> lookup (SKey k :: q) (JObj d2) = Some v) ->
    exists t, ext_ref (JObj d2) (SKey k :: q) t p.
  Proof.
    intros Vs (doc & t & Hd & Nb & L & Pt & Ex & N4 & N3) K1 K2. exists (new_text (so_path s) t). split; [|auto].
    assert (Lk : lookup ((SKey k :: q) ++ [SKey "$ref"]) (kept_doc s doc) = Some (JStr (new_text (so_path s) t))) by (unfold kept_doc; rewrite map_refs_lookup, L; unfold at_loc; cbn [option_map]; now rewrite ends_ref_snoc).
    destruct (clone_cases (kept_doc s doc)) as [(y & Ey)|Ey]; [|exfalso; apply clone_fails in Ey; unfold kept_doc in Ey; rewrite map_refs_numbers in Ey; now apply Nb].
    apply (clone_lookup_str _ _ _ _ Ey) in Lk. pose proof (K1 s doc y _ _ Vs Hd Ey Lk eq_refl) as L1. cbn [app] in *. apply K2; [exact L1 | reflexivity | exact N4|].
    intro I3. destruct (N3 I3) as (k' & q' & E). rewrite E in L1. cbn [lookup] in L1. unfold section. destruct (oget k d1) as [[| | | | |mm]|]; try discriminate. reflexivity.
  Qed.
  Lemma d2_others d1 r d2 q :
    (forall q v, q <> [] -> lookup q (JObj d1) = Some v -> exists s doc y v', vis s /\ spec_doc_of a s doc /\ clone (kept_doc s doc) = Ok y /\ lookup q y = Some v' /\ like v v') ->
    clone (op_root o) = Ok (JObj r) -> (forall k, ~ In k section_names -> oget k d2 = oget k d1) -> Forall (fun x => section_result (fst x) (snd x) (JObj d1) (JObj r) (JObj d2)) sections ->
    (forall s doc q t, vis s -> spec_doc_of a s doc -> lookup (q ++ [SKey "$ref"]) doc = Some (JStr t) -> ref_ok t) ->
    (forall s doc, vis s -> spec_doc_of a s doc -> only_ref_at doc q) -> only_ref_at (op_root o) q ->
    forall q0 t p, ext_ref (JObj d2) q0 t p -> q0 = q \/ Spec_Loc.apart q0 q.
  Proof.
    intros Hfrom Hroot Hoth Hsec Hrefs Lf Lr q0 t p (L & Pt & Et). destruct (d2_refs a o ss roots d1 r d2 Hfrom Hroot Hoth Hsec q0 t L) as [(s & doc & t0 & Vs & Hd & L0 & Ex)|L0].
    - destruct (Lf s doc Vs Hd q0 t0 L0) as [A|[A|(x & Er)]]; [auto | auto|]. exfalso. subst t0. destruct (hash_new_text (so_path s) x (Hrefs s doc q0 _ Vs Hd L0)) as (_ & X). rewrite <- Ex in X. rewrite (X p Pt) in Et. discriminate.
    - destruct (Lr q0 t L0) as [A|[A|(x & Er)]]; [auto | auto|]. exfalso. subst t. rewrite (hash_local _ _ Pt) in Et. discriminate.
  Qed.
  Lemma end_leaves c3 c q j y rr w : wf (c_data c3) -> pure (c_data c3) -> set_paths_defaults (ch_paths ch) (ch_ops ch) (ch_defs ch) (ch_def ch) (op_defops o) c3 = Ok c ->
    lookup q (c_data c3) = Some y -> clone j = Ok y -> lookup rr j = Some w -> w <> JNull -> carried_at (q ++ rr) w (c_data c).
  Proof.
    intros W P H L C Lw Nw. destruct (is_obj w) eqn:N; [destruct w; try discriminate; exact Logic.I|]. pose proof (clone_lookup rr _ _ C) as Cl. rewrite Lw in Cl. destruct (lookup rr y) as [w'|] eqn:Lw'; [|destruct Cl].
    destruct (clone_leaf_kind _ _ Cl N Nw) as (N' & Nn'). apply (carried _ _ w' _ Cl). refine (end_leaf c3 c _ w' W P H _ N' Nn'). now rewrite lookup_app, L.
  Qed.
  (** A reference to an override that is not exported. *)
  Theorem stages_override c : stages c -> forall s k q p j, vis s -> ref_of_file s k q p -> oget (ptr_string p) (op_override o) = Some j -> tidy j -> no_ext j ->
    (forall s n p', vis s -> exports_type s n p' -> ptr_string p' <> ptr_string p) ->
    (forall s doc, vis s -> spec_doc_of a s doc -> only_ref_at doc (SKey k :: q)) -> only_ref_at (op_root o) (SKey k :: q) ->
    (forall s name, vis s -> exports_name s name -> Spec_Loc.apart (comp_loc "schemas" name) (SKey k :: q)) ->
    forall rr w, lookup rr j = Some w -> w <> JNull -> carried_at ((SKey k :: q) ++ rr) w (c_data c).
  Proof.
    intros [es pp os pts d1 r d2 c3 Hrefs K1 Hfrom Hroot Wr Hoth Hsec K2 D2 F2 _ Hc3 W3 P3 Gn Hc Hes _ _ _ _ _ _ _] s k q p j Vs Hr Hj Tj Nj Ne Lf Lr Ex rr w Lw Nw.
    pose proof Ho as ((M1 & M2 & M3 & M4 & M5) & O1 & O2 & O3 & O4 & O5).
    destruct (stage_ref d1 d2 s k q p Vs Hr K1 K2) as (t & Ht).
    destruct (resolve_at (ch_resolve ch) es _ _ (JObj d2) c3 (SKey k :: q) t p O3 (proj1 D2) (proj1 (proj2 D2)) Gn Hc3 Ht) as (d2' & x & y & _ & Hx & Hy & Out); [discriminate | | |].
    - exact (d2_others d1 r d2 _ Hfrom Hroot Hoth Hsec Hrefs Lf Lr).
    - intros e Ie. destruct (Hes e Ie) as (Ek & s' & Vs' & Es). rewrite Ek. apply (Ex s' _ Vs'). apply exports_type_name. eauto.
    - rewrite (exports_get_of es p Hes Ne) in Out. destruct Out as (v & Lv & Ov & _). unfold scan_fn in Hx. rewrite Hj in Hx. injection Hx as <-.
      assert (v = y) as -> by (apply Ov; split; [apply Tj|]; split; [apply Tj | exact Nj]).
      exact (end_leaves c3 c (SKey k :: q) j y rr w W3 P3 Hc Lv Hy Lw Nw).
  Qed.
  (** A reference to an exported pointer. *)
  Theorem stages_exported c : stages c -> NoDup (map so_path ss) -> forall s k q p s' n p', vis s -> ref_of_file s k q p -> vis s' -> exports_type s' n p' -> ptr_string p' = ptr_string p ->
    (forall s doc, vis s -> spec_doc_of a s doc -> only_ref_at doc (SKey k :: q)) -> only_ref_at (op_root o) (SKey k :: q) ->
    (forall s name, vis s -> exports_name s name -> Spec_Loc.apart (comp_loc "schemas" name) (SKey k :: q)) ->
    lookup ((SKey k :: q) ++ [SKey "$ref"]) (c_data c) = Some (JStr ("#/components/schemas/" +++ n)).
  Proof.
    intros [es pp os pts d1 r d2 c3 Hrefs K1 Hfrom Hroot Wr Hoth Hsec K2 D2 F2 _ Hc3 W3 P3 Gn Hc Hes Hes2 Nes _ _ _ _ _] Nd s k q p s' n p' Vs Hr Vs' Es Ep Lf Lr Ex.
    pose proof Ho as ((M1 & M2 & M3 & M4 & M5) & O1 & O2 & O3 & O4 & O5).
    destruct (stage_ref d1 d2 s k q p Vs Hr K1 K2) as (t & Ht).
    destruct (resolve_at (ch_resolve ch) es _ _ (JObj d2) c3 (SKey k :: q) t p O3 (proj1 D2) (proj1 (proj2 D2)) Gn Hc3 Ht) as (d2' & x & y & _ & Hx & Hy & Out); [discriminate | | |].
    - exact (d2_others d1 r d2 _ Hfrom Hroot Hoth Hsec Hrefs Lf Lr).
    - intros e Ie. destruct (Hes e Ie) as (Ek & s0 & Vs0 & Es0). rewrite Ek. apply (Ex s0 _ Vs0). apply exports_type_name. eauto.
    - rewrite (exports_get_is es p n p' Nes (Hes2 Nd s' n p' Vs' Es) Ep) in Out. destruct Out as (m & _ & Lm). apply (end_leaf c3 c _ _ W3 P3 Hc); [|reflexivity | discriminate].
      rewrite lookup_app, Lm. cbn [lookup]. rewrite oget_oset_same. reflexivity.
  Qed.
  (** The component of an exported override. *)
  Theorem stages_exported_override c : stages c -> NoDup (map so_path ss) -> forall s k q p s' n p' j, vis s -> ref_of_file s k q p -> vis s' -> exports_type s' n p' -> ptr_string p' = ptr_string p ->
    (forall s0 p0, vis s0 -> exports_type s0 n p0 -> ptr_string p0 = ptr_string p) ->
    oget (ptr_string p) (op_override o) = Some j -> tidy j -> no_ext j ->
    (forall s doc, vis s -> spec_doc_of a s doc -> only_local_refs doc (comp_loc "schemas" n)) -> only_local_refs (op_root o) (comp_loc "schemas" n) ->
    forall rr w, lookup rr j = Some w -> w <> JNull -> carried_at (comp_loc "schemas" n ++ rr) w (c_data c).
  Proof.
    intros [es pp os pts d1 r d2 c3 Hrefs K1 Hfrom Hroot Wr Hoth Hsec K2 D2 F2 _ Hc3 W3 P3 Gn Hc Hes Hes2 Nes _ _ _ _ _] Nd s k q p s' n p' j Vs Hr Vs' Es Ep Un Hj Tj Nj Lf Lr rr w Lw Nw.
    pose proof Ho as ((M1 & M2 & M3 & M4 & M5) & O1 & O2 & O3 & O4 & O5).
    destruct (stage_ref d1 d2 s k q p Vs Hr K1 K2) as (t & Ht).
    pose proof (exports_get_is es p n p' Nes (Hes2 Nd s' n p' Vs' Es) Ep) as Eg.
    destruct (resolve_component (ch_resolve ch) es _ _ (JObj d2) c3 (SKey k :: q) t p _ O3 (proj1 D2) (proj1 (proj2 D2)) Gn Hc3 Ht Eg) as (pp0 & p0 & e0 & x & y & v & Eg0 & Ec0 & Hx & Hy & (Ov & _) & Lv).
    - exact (d2_apart a o ss roots d1 r d2 Hfrom Hroot Hoth Hsec Hrefs _ Lf Lr).
    - cbn [e_kind e_name kind_key] in *. unfold exports_get in Eg0. apply find_some in Eg0 as (Ie & Ee). apply String.eqb_eq in Ee. destruct (Hes e0 Ie) as (Ek & s0 & Vs0 & Es0).
      assert (En : e_name e0 = n) by (rewrite Ek in Ec0; unfold comp_loc in Ec0; congruence). rewrite En in Es0. pose proof (Un s0 _ Vs0 Es0) as E0. unfold scan_fn in Hx. rewrite <- Ee, E0, Hj in Hx. injection Hx as <-.
      assert (v = y) as -> by (apply Ov; split; [apply Tj|]; split; [apply Tj | exact Nj]).
      exact (end_leaves c3 c _ j y rr w W3 P3 Hc Lv Hy Lw Nw).
  Qed.
  (** *** Commands are followed even when no file refers to them *)
  Theorem stages_followed c : stages c -> NoDup (map so_path ss) -> forall s n p s2 h rr ob, vis s -> exports_type s n p -> vis s2 -> u_scheme (p_url p) = "go" -> pkg_path p = so_types s2 -> p_frag p = h :: rr -> so_scope s2 h = Some ob ->
    (forall s doc q t, vis s -> spec_doc_of a s doc -> lookup (q ++ [SKey "$ref"]) doc = Some (JStr t) -> new_text (so_path s) t <> ptr_string p) ->
    (forall s' n' p', vis s' -> exports_type s' n' p' -> ptr_string p' = ptr_string p -> p' = p) ->
    forall L, env_ok (ar_env a) -> obj_ok ob -> o_pkg ob <> None -> closed_types (ar_env a) (o_type ob) L -> length L < de_walk de ->
    ~ reaches_universe (ar_env a) (o_type ob).
  Proof.
    intros [es pp os pts d1 r d2 c3 Hrefs K1 Hfrom Hroot Wr Hoth Hsec K2 D2 F2 _ Hc3 W3 P3 Gn Hc Hes Hes2 Nes Hpp Hpf Hpc Hcoll Hos] Nd s n p s2 h rr ob Vs Es Vs2 Sp Pp Fr Sc Nf Un L He Hob Hpk HL Hl R.
    assert (I : In ob os).
    { apply Hos. exists s2, p, h, rr. split; [exact Vs2|]. split; [|auto]. exists (ptr_string p). destruct (oget (ptr_string p) pp) as [p1|] eqn:Ep; [|now elim (Hpc Nd p (ex_intro _ s (ex_intro _ n (conj Vs Es))))].
      destruct (Hpp _ _ Ep) as (E1 & [(s0 & doc & q & t & p0 & Vs0 & Hd & Lt & Pt & E)|(_ & s0 & n0 & Vs0 & Es0)]).
      - exfalso. apply (Nf s0 doc q t Vs0 Hd Lt). unfold new_text. rewrite Pt, <- E. exact E1.
      - now rewrite (Un s0 n0 p1 Vs0 Es0 E1). }
    apply in_split in I as (o1 & o2 & ->). rewrite collect_all_app in Hcoll. apply bind_ok in Hcoll as (m1 & _ & Hcoll). cbn [collect_all] in Hcoll. apply bind_ok in Hcoll as (m2 & Hm2 & _).
    destruct (o_pkg ob) as [pk|] eqn:Epk; [|congruence]. destruct (collect_outcome _ He _ ob m1 pk L Hob Epk HL Hl) as (A & _). apply A in R. congruence.
  Qed.
End Whole.
