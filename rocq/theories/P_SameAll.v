(** C98: the whole document does not depend on the order of maps. *)
From Coq Require Import String Ascii List Bool Arith ZArith Lia Permutation.
From Verif Require Import GoStr Json Gabs Container Url Pointer PtrFacts Spec_Ptr Spec_Clone Spec_Merge MergeLaws
  Spec_Loc Spec_Resolve Spec_ResolveOk ResolverOk Path Route Spec_Route Resolver ScanFn Cmds Spec_Cmds Specs Spec_Specs Pkgs Spec_Pkgs PkgFacts Types TypesFacts DenoteFacts Root Spec_Root SchemaJson Tag Spec_Tag
  Spec_Types Spec_Schema Spec_Format Scan ScanInv ScanFacts Spec_Scan Spec_Kept P_ScanAll P_Kept P_Types P_Adds Spec_Ends ScanDepth ScanEnds P_Ends Spec_ScanOk ScanOk P_ScanOk Spec_Same Spec_SameAll ScanSame4 ScanSame5 P_Same.
Import ListNotations.
Local Open Scope string_scope.
Local Open Scope nat_scope.
Local Open Scope list_scope.

Section Same.
Context {F : Type} (pf : string -> option F) (zero : F) (fnum : F -> num).
Local Notation scan := (scan pf zero fnum std_mapping).

Lemma same_scans : forall a ch1 ch2 l o ss roots, any_choices ch1 -> any_choices ch2 -> apply_opts l no_options = Ok o ->
  sound_input pf a o ss roots -> references_manageable a o ss roots -> in_order pf fnum zero a o ss roots -> one_place a ss roots -> one_default a o ss roots ->
  exports_cycles pf a o ss roots -> names_apart a ss roots ->
  exists de m, wf (JObj m) /\ forall de',
    de_pkgs de <= de_pkgs de' -> de_walk de <= de_walk de' -> de_type de <= de_type de' -> de_fields de <= de_fields de' -> de_resolve de <= de_resolve de' ->
    scan a ch1 de' l = Ok (Some (JObj m), true) /\ scan a ch2 de' l = Ok (Some (JObj m), true).
Proof.
  intros a ch1 ch2 l o ss roots HO1 HO2 Eo Hs S8 Ho Hpl Hde Hcy Hna.
  destruct Hs as ((H1 & H2 & H3 & H4 & H5 & H6) & Hur & (dir & Hdir & Hld & L1 & L2) & S1 & S2 & S3 & S4 & S5 & S6 & S7).
  destruct Ho as (I1 & dd1 & dd2 & I2 & I3 & I4 & I5 & I6 & I7).
  assert (Ends : forall ch, any_choices ch -> exists de0, PathsFacts.ok_or_err (scan_doc pf zero fnum std_mapping a ch de0 o ss (map Some roots))).
  { intros ch (O1 & O2 & O3 & O4). exact (scan_doc_ends pf zero fnum a ch o ss roots O1 O2 O3 O4 (H2 _ _ _ Hld) H3 H4 Hur H5 L1 L2 S1 S2 S3 S4 S5 S6 S7 S8). }
  destruct (Ends ch1 HO1) as (dA & EA). destruct (Ends ch2 HO2) as (dB & EB).
  set (de := {| de_pkgs := de_pkgs dA + de_pkgs dB + S (length ss); de_walk := de_walk dA + de_walk dB; de_type := de_type dA + de_type dB; de_fields := de_fields dA + de_fields dB; de_resolve := de_resolve dA + de_resolve dB |}).
  assert (Made : forall ch de0, any_choices ch -> PathsFacts.ok_or_err (scan_doc pf zero fnum std_mapping a ch de0 o ss (map Some roots)) -> no_shallower de0 de ->
    exists c, scan_doc pf zero fnum std_mapping a ch de o ss (map Some roots) = Ok c /\ made_of pf zero fnum a ch de o ss roots dd2 c).
  { intros ch de0 (O1 & O2 & O3 & O4) R Ns. pose proof (scan_doc_deeper pf zero fnum std_mapping a ch de0 de o ss (map Some roots) Ns) as Dp.
    assert (Hlt : length ss < de_pkgs de) by (unfold de; cbn; lia).
    pose proof (scan_doc_made pf zero fnum a ch de o ss roots dd1 dd2 O1 O2 O3 O4 (H2 _ _ _ Hld) H3 H4 Hur H5 L1 L2 S1 S2 S3 S4 S5 S7 I1 I2 I3 I4 I5 I6 I7 Hlt) as N.
    assert (Ng : scan_doc pf zero fnum std_mapping a ch de0 o ss (map Some roots) <> OutOfFuel) by (intro E; rewrite E in R; exact R). pose proof (deeper_eq _ _ Dp Ng) as E. rewrite E in N. rewrite E.
    destruct (scan_doc pf zero fnum std_mapping a ch de0 o ss (map Some roots)) as [c| | |]; try destruct R; [now exists c | destruct N]. }
  destruct (Made ch1 dA HO1 EA) as (c1 & D1 & M1); [unfold no_shallower, de; cbn; lia|]. destruct (Made ch2 dB HO2 EB) as (c2 & D2 & M2); [unfold no_shallower, de; cbn; lia|].
  destruct HO1 as (O1 & O2 & O3 & O4). destruct HO2 as (Q1 & Q2 & Q3 & Q4).
  destruct (same_all pf zero fnum a ch1 ch2 de o ss roots dd1 dd2 c1 c2 O1 Q1 O3 Q3 O4 Q4 S5 I2 I3 I4 I5 I6 I7 Hpl Hde Hcy Hna M1 M2) as (W & Same).
  destruct (scan_of_doc pf zero fnum a ch1 de l o ss roots dir c1 Eo Hdir Hld O1 D1) as (d1 & -> & X1). destruct (scan_of_doc pf zero fnum a ch2 de l o ss roots dir c2 Eo Hdir Hld Q1 D2) as (d2 & -> & X2). cbn [c_data] in Same, W.
  rewrite <- Same in X2. exists de, d1. split; [exact W|]. intros de' A1 A2 A3 A4 A5. rewrite <- X1 at 1. rewrite <- X2. split; apply (C91_depths_do_not_show pf zero fnum); try assumption; [rewrite X1 | rewrite X2]; discriminate.
Qed.

(** ** C98 *)
(** If, besides what C95 asks, everything on a cycle of references with an
    exported type is exported, and no name is exported for two pointers, then the
    document is the same whatever the order of the maps, its components included. *)
Theorem C98_order_does_not_show : forall a ch1 ch2 l o ss roots, any_choices ch1 -> any_choices ch2 -> apply_opts l no_options = Ok o ->
  sound_input pf a o ss roots -> references_manageable a o ss roots -> in_order pf fnum zero a o ss roots -> one_place a ss roots -> one_default a o ss roots ->
  exports_cycles pf a o ss roots -> names_apart a ss roots ->
  exists de d, forall de',
    de_pkgs de <= de_pkgs de' -> de_walk de <= de_walk de' -> de_type de <= de_type de' -> de_fields de <= de_fields de' -> de_resolve de <= de_resolve de' ->
    scan a ch1 de' l = Ok (Some d, true) /\ scan a ch2 de' l = Ok (Some d, true).
Proof. intros a ch1 ch2 l o ss roots H1 H2 H3 H4 H5 H6 H7 H8 H9 H10. destruct (same_scans a ch1 ch2 l o ss roots H1 H2 H3 H4 H5 H6 H7 H8 H9 H10) as (de & m & _ & H). exists de, (JObj m). exact H. Qed.
End Same.
Print Assumptions C98_order_does_not_show.

(** *** Example: the world of C94, whose exported type refers to itself. *)
Example C98_example : exists o, apply_opts v_options2 no_options = Ok o /\ exports_cycles no_float (v_around v_cmd v_doc) o [w_source v_cmd] [0] /\ names_apart (v_around v_cmd v_doc) [w_source v_cmd] [0] /\
  exported_text (v_around v_cmd v_doc) [w_source v_cmd] [0] (loc_text "ex.org/m/api" ["Pet"]) /\
  leads_far no_float (v_around v_cmd v_doc) o [w_source v_cmd] [0] (loc_text "ex.org/m/api" ["Pet"]) (loc_text "ex.org/m/api" ["Pet"]).
Proof.
  eexists. split; [reflexivity|]. assert (Ig : In v_cmd [[]; v_cmd]) by (right; now left).
  assert (Et : loc_text "ex.org/m/api" ["Pet"] = "go://ex.org/m/api#/Pet") by reflexivity.
  assert (Ex : forall s n p, visited (v_around v_cmd v_doc) [w_source v_cmd] [0] s -> exports_type s n p -> ptr_string p = loc_text "ex.org/m/api" ["Pet"]).
  { intros s n p V X. rewrite Et. now destruct (v_names v_cmd s n p Ig (v_visited _ _ _ V) X) as (_ & _ & ->). }
  assert (Xp : exported_text (v_around v_cmd v_doc) [w_source v_cmd] [0] (loc_text "ex.org/m/api" ["Pet"])).
  { destruct C85_example_exported as (o1 & d1 & o2 & d2 & p & _ & _ & _ & _ & _ & X & E & _). exists (w_source v_cmd), "Pet", p. split; [apply v_visits|]. split; [exact X | rewrite E; exact Et]. }
  split; [|split; [|split; [exact Xp|]]].
  - intros t t' _ L _. assert (Q : t' = loc_text "ex.org/m/api" ["Pet"]); [|now rewrite Q].
    assert (One : forall u u', leads_to no_float (v_around v_cmd v_doc) {| op_dir := None; op_root := k_root; op_defops := [("/pets", JObj [("x-def", JStr "v")])]; op_override := [] |} [w_source v_cmd] [0] u u' -> u' = loc_text "ex.org/m/api" ["Pet"]).
    { intros u u' [(x & q & r & p & E & _)|(_ & T & T' & p & _ & _ & B & N & ->)]; [discriminate E | exact (s_nearest v_cmd T' p Ig B N)]. }
    destruct L as [t' L|t1 t' L1 L]; exact (One _ _ L).
  - intros s s' n p p' V V' X X'. now rewrite (Ex s n p V X), (Ex s' n p' V' X').
  - apply lf_one. right. split; [reflexivity|]. destruct (s_pet v_cmd Ig) as (p0 & E0 & L0 & P0 & K0).
    assert (Vis : exists x, visible no_float w_env o_fields x /\ t_type (sf_tag x) = "" /\ sf_type x = TPtr (TNamed 0)).
    { destruct (collect_fields no_float w_env 5 [] o_fields) as [fl| | |] eqn:El; try (vm_compute in El; discriminate El). pose proof (FieldFacts.collect_fields_visible no_float w_env 5 o_fields fl El) as G.
      vm_compute in El. injection El as El. subst fl. eexists. split; [apply G; right; left; reflexivity | split; reflexivity]. }
    destruct Vis as (x & V & Tt & Tx). exists (TStruct o_fields), (TStruct o_fields), p0. rewrite Et. rewrite E0 in K0.
    split; [exact K0|]. split; [left; exists o_fields, x, (TNamed 0); split; [reflexivity|]; split; [exact V|]; split; [exact Tt|]; split; [rewrite Tx; eapply er_step; [apply es_ptr; reflexivity | constructor] | reflexivity]|].
    split; [left; now exists o_fields|]. split; [|now rewrite E0]. split; [now rewrite E0|]. split; [exact P0|]. intros p' K' P'. rewrite L0.
    destruct (s_named v_cmd v_doc _ _ Ig (or_introl eq_refl) K' P') as (toks & _ & ->). cbn. lia.
Qed.

(** *** The conditions matter *)
(** Two types exported under one name: which of them becomes the component
    depends on the order.  (For a type that is not exported, on a cycle with one
    that is, see C95_conditions.) *)
Definition t_two : genv := [t_decl "A" [("ID", TBasic KString)]; t_decl "B" [("Name", TBasic KString)]; t_decl "C" []].
Theorem C98_one_name_refuted : forall de', de_pkgs w_depths <= de_pkgs de' -> de_walk w_depths <= de_walk de' -> de_type w_depths <= de_type de' -> de_fields w_depths <= de_fields de' -> de_resolve w_depths <= de_resolve de' ->
  let run back := scan no_float 0%Z NInt std_mapping (t_around t_two [["//openapi:schema X A"]; ["//openapi:schema X B"]] (t_doc [("a", "go://#/A"); ("b", "go://#/B")])) (t_choices back "") de' [] in
  (forall back, any_choices (t_choices back "")) /\
  (exists d, run false = Ok (Some d, true) /\ at_path ["components"; "schemas"; "X"; "properties"; "Name"; "type"] d = Some (JStr "string")) /\
  (exists d, run true = Ok (Some d, true) /\ at_path ["components"; "schemas"; "X"; "properties"; "Name"; "type"] d = None).
Proof.
  intros de' A1 A2 A3 A4 A5 run. split; [intro; apply t_any|]. unfold run. cbv zeta.
  split; (eapply t_shown; [vm_compute; reflexivity | assumption | assumption | assumption | assumption | assumption]).
Qed.
Print Assumptions C98_one_name_refuted.
