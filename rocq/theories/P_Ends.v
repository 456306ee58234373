(** C91: Scan comes to an end, with a document or with an error. *)
From Coq Require Import String Ascii List Bool Arith ZArith Lia Permutation.
From Verif Require Import GoStr Json Gabs Container Url Pointer Spec_Ptr Spec_Clone Spec_Merge
  Spec_Loc Spec_Resolve Path Route Spec_Route P_Route Resolver ScanFn Cmds Spec_Cmds Specs Spec_Specs SpecFacts Pkgs Spec_Pkgs PkgFacts PathsFacts Types Root Spec_Root SchemaJson Tag Spec_Tag
  Spec_Types Spec_Schema Spec_Format Scan ScanInv ScanFacts Spec_Scan Spec_Kept ScanKept3 P_ScanAll P_Kept P_Types P_Adds Spec_Ends ScanDepth ScanEnds.
Import ListNotations.
Local Open Scope string_scope.
Local Open Scope nat_scope.
Local Open Scope list_scope.

(** The packages that the options make Scan load. *)
Definition loads_packages (a : around) (o : options) (ss : list source) (roots : list nat) : Prop :=
  exists dir, (op_dir o = Some dir \/ op_dir o = None /\ ar_cwd a = Ok dir) /\ ar_load a dir = Ok (ss, map Some roots) /\
    loaded (map so_pkg ss) /\ forall i, In i roots -> i < length ss.
(** What Scan is given, and its options: see Spec_Ends. *)
Definition sound_input {F} (pf : string -> option F) (a : around) (o : options) (ss : list source) (roots : list nat) : Prop :=
  usual_input pf a o /\ usual_root (op_root o) /\ loads_packages a o ss roots /\
  sound_scopes (ar_env a) ss /\ packages_sound a ss roots /\ files_sound a ss roots /\ starts_sound a ss roots /\
  defaults_sound o /\ tags_readable pf a ss /\ one_meaning a ss roots.
(** Maps in any order; of several places of a type one with a shortest fragment. *)
Definition any_choices (ch : choices) : Prop :=
  any_order ch /\ visiting_in_any_order ch /\ collecting_in_any_order ch /\ picks_shortest (ch_pick ch).

Section Ends.
Context {F : Type} (pf : string -> option F) (zero : F) (fnum : F -> num).
Local Notation scan := (scan pf zero fnum std_mapping).

(** ** C91 *)
(** The recursion depths that the model puts on Scan do not show: what Scan does
    within some depths, it does within all greater ones. *)
Theorem C91_depths_do_not_show : forall a ch de de' l,
  de_pkgs de <= de_pkgs de' -> de_walk de <= de_walk de' -> de_type de <= de_type de' -> de_fields de <= de_fields de' -> de_resolve de <= de_resolve de' ->
  scan a ch de l <> OutOfFuel -> scan a ch de' l = scan a ch de l.
Proof.
  intros a ch de de' l H1 H2 H3 H4 H5 N. apply (deeper_eq _ _ (scan_deeper pf zero fnum std_mapping a ch de de' l (conj H1 (conj H2 (conj H3 (conj H4 H5)))))). exact N.
Qed.
(** Scan comes to an end, with a document or an error, whatever the order of the
    maps: it does not crash and does not run forever. *)
Theorem C91_comes_to_an_end : forall a ch l o ss roots, any_choices ch -> apply_opts l no_options = Ok o ->
  sound_input pf a o ss roots -> references_manageable a o ss roots ->
  exists de c e, forall de',
    de_pkgs de <= de_pkgs de' -> de_walk de <= de_walk de' -> de_type de <= de_type de' -> de_fields de <= de_fields de' -> de_resolve de <= de_resolve de' ->
    scan a ch de' l = Ok (c, e).
Proof.
  intros a ch l o ss roots (O1 & O2 & O3 & O4) Eo ((H1 & H2 & H3 & H4 & H5 & H6) & Hur & (dir & Hdir & Hld & L1 & L2) & S1 & S2 & S3 & S4 & S5 & S6 & S7) S8.
  destruct (scan_doc_ends pf zero fnum a ch o ss roots O1 O2 O3 O4 (H2 _ _ _ Hld) H3 H4 Hur H5 L1 L2 S1 S2 S3 S4 S5 S6 S7 S8) as (de & Hd).
  assert (X : exists c e, scan a ch de l = Ok (c, e)).
  { unfold Scan.scan. rewrite Eo. cbn [on_err]. assert (Ed : match op_dir o with Some d0 => Ok d0 | None => ar_cwd a end = Ok dir) by (destruct Hdir as [-> |(-> & E)]; [reflexivity | exact E]). rewrite Ed. cbn [on_err]. rewrite Hld. cbn [on_err fst snd].
    destruct (scan_doc _ _ _ _ _ _ _ _ _ _) as [c| | |]; try destruct Hd; cbn [on_err]; [destruct (new_oapi c) as (c', e); now exists c', e | now exists None, true]. }
  destruct X as (c & e & X). exists de, c, e. intros de' A1 A2 A3 A4 A5. rewrite <- X. apply C91_depths_do_not_show; try assumption. rewrite X. discriminate.
Qed.
(** Options that cannot be taken and packages that cannot be loaded are errors. *)
Theorem C91_failing_start_is_an_error : forall a ch de l,
  apply_opts l no_options = Err \/ (exists o, apply_opts l no_options = Ok o /\ (op_dir o = None /\ ar_cwd a = Err \/ exists dir, (op_dir o = Some dir \/ op_dir o = None /\ ar_cwd a = Ok dir) /\ ar_load a dir = Err)) ->
  scan a ch de l = Ok (None, true).
Proof.
  intros a ch de l [E|(o & E & [(E1 & E2)|(dir & Hd & E2)])]; unfold Scan.scan; rewrite E; cbn [on_err]; [reflexivity | rewrite E1, E2; reflexivity|].
  assert (Ed : match op_dir o with Some d0 => Ok d0 | None => ar_cwd a end = Ok dir) by (destruct Hd as [-> |(-> & X)]; [reflexivity | exact X]). rewrite Ed. cbn [on_err]. now rewrite E2.
Qed.
End Ends.
Print Assumptions C91_depths_do_not_show.
Print Assumptions C91_comes_to_an_end.
Print Assumptions C91_failing_start_is_an_error.

(** *** Examples *)
Definition e_choices : choices :=
  {| ch_imports := fun _ _ l => l; ch_strings := sort_s; ch_cmds1 := fun l => l; ch_cmds2 := fun l => l; ch_p1 := fun l => l; ch_p2 := fun l => l; ch_refs := fun _ _ l => l; ch_files := fun l => l; ch_merge := fun _ _ l => l;
     ch_types := fun _ l => l; ch_root := fun _ _ l => l; ch_resolve := fun _ l => l; ch_points := fun l => l; ch_pick := prefer ""; ch_paths := fun l => l; ch_ops := fun _ l => l; ch_defs := fun l => l; ch_def := fun _ _ _ l => l |}.
Lemma e_any_choices : any_choices e_choices.
Proof.
  split; [repeat split; intros; cbn; try (intros ? ?); apply Permutation_refl|]. split; [split; [intros; apply Permutation_refl|]; split; [exact sort_s_ok | intros; apply Permutation_refl]|].
  split; [repeat split; intros; apply Permutation_refl | exact (prefer_picks "")].
Qed.
Lemma e_given groups doc p : In groups [[]; v_cmd] -> In doc [v_doc; v_plain] -> given_ptr (v_around groups doc) [w_source groups] [0] p ->
  ptr_string p = "go://ex.org/m/api#/Pet" /\ u_scheme (p_url p) = "go" /\ pkg_path p = "ex.org/m/api" /\ p_frag p = ["Pet"].
Proof.
  intros Ig Id [(s & n & Vs & g & t & b & Hg & Ht & C & D)|(s & d & q & t & Vs & Sd & L & p0 & P0 & ->)].
  - rewrite (v_visited _ _ _ Vs) in *. destruct Ig as [<-|[<-|[]]]; [destruct Hg|]. destruct Hg as [<-|[]]. destruct Ht as [<-|[]].
    assert (X : parse_comment_group ["//openapi:schema Pet"] = Ok [b]) by (apply CmdFacts.comment_group_spec; constructor 3; [exact C | constructor]). vm_compute in X. injection X as <-.
    apply CmdFacts.parse_cmd_spec in D. vm_compute in D. injection D as <- <-. repeat split.
  - pose proof (v_visited _ _ _ Vs) as Es. rewrite (v_docs groups doc s d Es Sd) in L. subst s. destruct Id as [<-|[<-|[]]].
    + apply refs_of_all in L. vm_compute in L. destruct L as [[= <- <-]|[]]. vm_compute in P0. injection P0 as <-. vm_compute. auto.
    + apply refs_of_all in L. destruct L.
Qed.
Lemma e_starts groups doc ob : In groups [[]; v_cmd] -> In doc [v_doc; v_plain] -> starts_at (v_around groups doc) [w_source groups] [0] ob -> ob = {| o_pkg := Some "ex.org/m/api"; o_name := "Pet"; o_type := TNamed 0 |}.
Proof.
  intros Ig Id (s & p & h & r & Vs & Gp & _ & _ & Fr & Sc). rewrite (v_visited _ _ _ Vs) in *. destruct (e_given _ _ _ Ig Id Gp) as (_ & _ & _ & F'). rewrite F' in Fr. injection Fr as <- <-. now injection Sc as <-.
Qed.
Lemma e_trail t0 toks ts t : trail w_env t0 toks ts t -> t0 = TNamed 0 -> ~ universe_type w_env t.
Proof.
  intros R ->. apply w_trail in R; [|now left]. intros (i & d & -> & E & N). destruct R as [R|[R|[R|[]]]]; try discriminate R. injection R as <-. injection E as <-. discriminate N.
Qed.
Lemma e_sound groups doc l o : In groups [[]; v_cmd] -> In doc [v_doc; v_plain] -> In l [v_options; v_options2] -> apply_opts l no_options = Ok o ->
  sound_input no_float (v_around groups doc) o [w_source groups] [0].
Proof.
  intros Ig Id Il Eo. destruct (v_usual groups doc l o Ig Id Il Eo) as (_ & _ & _ & _ & Hi & Hur & Hdef & (dir & L1 & L2 & L3 & L4 & _) & Hn).
  split; [exact Hi|]. split; [exact Hur|]. split; [exists dir; auto|]. split; [apply v_sound|]. split.
  { split; [repeat constructor; intros []|]. split; [|exact Hn]. intros s Vs. rewrite (v_visited _ _ _ Vs). split; [split; [discriminate | reflexivity]|]. destruct Ig as [<-|[<-|[]]]; cbn; repeat constructor. }
  split.
  { split.
    - intros path x E. cbn in E. unfold k_files in E. destruct (String.eqb path _); [injection E as <-; left; eauto|]. destruct (String.eqb path _); discriminate E.
    - intros s d Vs Sd. rewrite (v_docs groups doc s d (v_visited _ _ _ Vs) Sd). destruct Id as [<-|[<-|[]]]; intros k I S; repeat (destruct I as [<-|I]; [exact S|]); destruct I. }
  split.
  { intros ob Hob. rewrite (e_starts _ _ _ Ig Id Hob). split; [discriminate|]. intros (toks & ts & t' & _ & R & _ & U). exact (e_trail _ _ _ _ R eq_refl U). }
  split.
  { split; [exact Hdef|]. intros pat op m path I. assert (E : pat = pattern_text [] "/pets") by (destruct Il as [<-|[<-|[]]]; injection Eo as <-; destruct I as [[= <- <-]|[]]; reflexivity). subst pat.
    destruct (C37_pattern_match [] "/pets" path m) as (b & E & _); [constructor | reflexivity | apply (C37_slash "pets") |]. left. now exists b. }
  split.
  { intros fs fs' i t (s & name & ob & t0 & Is & Es & (toks & ts & R) & U) La I.
    destruct Is as [<-|[]]. cbn in Es. destruct (String.eqb name "Pet"); [|discriminate]. injection Es as <-. cbn [o_type] in R. apply w_trail in R; [|now left].
    destruct R as [<-|[<-|[<-|[]]]]; try discriminate U. injection U as <-.
    assert (Ef : fs' = [({| f_name := "ID"; f_tag := ""; f_emb := false |}, TBasic KString); ({| f_name := "Next"; f_tag := ""; f_emb := false |}, TPtr (TNamed 0))]).
    { inversion La as [|? i0 t0 tg fs1 ? I0 K J]; subst; [reflexivity|]. destruct (w_tag i0 t0 tg I0 K) as (A & _). now elim (A fs1). }
    subst fs'. destruct I as [[= <- <-]|[[= <- <-]|[]]]; auto. }
  intros p p' Gp Gp' _. destruct (e_given _ _ _ Ig Id Gp) as (_ & A & B & C), (e_given _ _ _ Ig Id Gp') as (_ & A' & B' & C'). rewrite A, B, C, A', B', C'. auto.
Qed.
Lemma e_manageable groups doc l o : In groups [[]; v_cmd] -> In doc [v_doc; v_plain] -> In l [v_options; v_options2] -> apply_opts l no_options = Ok o ->
  references_manageable (v_around groups doc) o [w_source groups] [0].
Proof.
  intros Ig Id Il Eo. split; [|split].
  - intros s d q t p Vs Sd L (t' & M & Pt & Ex). pose proof (v_visited _ _ _ Vs) as Es. pose proof (v_docs groups doc s d Es Sd) as Ed. rewrite Ed in Sd, L. clear Ed. destruct Id as [<-|[<-|[]]]; apply refs_of_all in L; vm_compute in L; [|destruct L]. destruct L as [[= <- <-]|[]].
    right. right. exists {| o_pkg := Some "ex.org/m/api"; o_name := "Pet"; o_type := TNamed 0 |}, "ex.org/m/api", (under w_env (TNamed 0)).
    destruct M as (p0 & P0 & M). vm_compute in P0. injection P0 as <-. subst s.
    assert (T : t' = "go://ex.org/m/api#/Pet"). { destruct M as [(_ & _ & ->)|(N & _)]; [reflexivity|]. elim N. split; reflexivity. } subst t'. vm_compute in Pt. injection Pt as <-.
    split; [|split; [reflexivity|left; exists [], [], (TNamed 0); split; [constructor|]; split; [constructor|]; split; reflexivity]].
    eexists _, _, "Pet", []. split; [exact Vs|]. split; [right; exists (w_source groups), v_doc, (SKey "paths" :: v_at), "go://#/Pet"; split; [exact Vs|]; split; [exact Sd|]; split; [reflexivity|]; eexists; split; [vm_compute; reflexivity | reflexivity]|].
    repeat split.
  - intros q t p (L & _). assert (E : op_root o = k_root) by (destruct Il as [<-|[<-|[]]]; now injection Eo as <-). rewrite E in L. now apply v_root_refs in L.
  - intros k j q t p I (L & _). destruct Il as [<-|[<-|[]]]; injection Eo as <-; [|destruct I]. destruct I as [[= <- <-]|[]]. apply refs_of_all in L. destruct L.
Qed.
(** All is met by a package with a struct that refers to itself, by a reference to
    it and by a default operation, with and without a command and an override;
    and Scan comes to a document. *)
Example C91_example : forall groups doc l, In groups [[]; v_cmd] -> In doc [v_doc; v_plain] -> In l [v_options; v_options2] ->
  exists o, any_choices e_choices /\ apply_opts l no_options = Ok o /\ sound_input no_float (v_around groups doc) o [w_source groups] [0] /\ references_manageable (v_around groups doc) o [w_source groups] [0].
Proof.
  intros groups doc l Ig Id Il. assert (E : exists o, apply_opts l no_options = Ok o) by (destruct Il as [<-|[<-|[]]]; eexists; reflexivity). destruct E as (o & E). exists o.
  split; [exact e_any_choices|]. split; [exact E|]. split; [exact (e_sound groups doc l o Ig Id Il E) | exact (e_manageable groups doc l o Ig Id Il E)].
Qed.
Example C91_example_run : exists d, scan no_float 0%Z NInt std_mapping (v_around [] v_doc) e_choices w_depths v_options2 = Ok (Some d, true) /\
  lookup ((SKey "paths" :: v_at) ++ [SKey "properties"; SKey "ID"; SKey "type"]) d = Some (JStr "string").
Proof. eexists. split; [vm_compute; reflexivity | reflexivity]. Qed.
(** The condition on references is needed: a reference of the root configuration
    to a Go type of the package, which is in no file and no command, makes Scan
    crash, although nothing else is amiss. *)
Definition e_root : json := JObj [("info", JObj [("title", JStr "T"); ("x-pet", JObj [("$ref", JStr "go://ex.org/m/api#/Pet")])])].
Theorem C91_root_reference_refuted : exists a l o ss roots, any_choices e_choices /\ apply_opts l no_options = Ok o /\ sound_input no_float a o ss roots /\
  exists de, forall de', de_pkgs de <= de_pkgs de' -> de_walk de <= de_walk de' -> de_type de <= de_type de' -> de_fields de <= de_fields de' -> de_resolve de <= de_resolve de' ->
    scan no_float 0%Z NInt std_mapping a e_choices de' l = Panic.
Proof.
  exists (v_around [] v_plain), [WithRootSchema e_root], {| op_dir := None; op_override := []; op_defops := []; op_root := e_root |}, [w_source []], [0].
  split; [exact e_any_choices|]. split; [reflexivity|]. split.
  - destruct (e_sound [] v_plain v_options2 _ (or_introl eq_refl) (or_intror (or_introl eq_refl)) (or_intror (or_introl eq_refl)) eq_refl) as ((I1 & I2 & I3 & _) & _ & (dir & [X|(_ & L1)] & L2) & S1 & S2 & S3 & S4 & _ & S6 & S7); [discriminate X|].
    split; [split; [exact I1|]; split; [exact I2|]; split; [exact I3|]; split; [|split; constructor]; split; [vm_compute; tauto|]; split; [vm_compute; repeat split; discriminate | eexists; reflexivity]|].
    split; [intros k I S; repeat (destruct I as [<-|I]; [exact S|]); destruct I|]. split; [exists dir; split; [right; split; [reflexivity | exact L1] | exact L2]|].
    split; [exact S1|]. split; [exact S2|]. split; [exact S3|]. split; [exact S4|]. split; [split; [constructor | intros ? ? ? ? []]|]. split; [exact S6 | exact S7].
  - exists w_depths. intros de' A1 A2 A3 A4 A5. rewrite (C91_depths_do_not_show no_float 0%Z NInt (v_around [] v_plain) e_choices w_depths de' _ A1 A2 A3 A4 A5); [vm_compute; reflexivity | vm_compute; discriminate].
Qed.
Print Assumptions C91_root_reference_refuted.
(** So does a reference in a file to a name that its package does not have. *)
Definition e_typo : json := JObj [("openapi", JStr "3.0.2"); ("paths", JObj [("/pets", JObj [("get", JObj [("schema", JObj [("$ref", JStr "go://#/Pets")])])])])].
Theorem C91_unknown_type_refuted : so_scope (w_source []) "Pets" = None /\
  forall de', de_pkgs w_depths <= de_pkgs de' -> de_walk w_depths <= de_walk de' -> de_type w_depths <= de_type de' -> de_fields w_depths <= de_fields de' -> de_resolve w_depths <= de_resolve de' ->
    scan no_float 0%Z NInt std_mapping (v_around [] e_typo) e_choices de' [] = Panic.
Proof.
  split; [reflexivity|]. intros de' A1 A2 A3 A4 A5. rewrite (C91_depths_do_not_show no_float 0%Z NInt (v_around [] e_typo) e_choices w_depths de' _ A1 A2 A3 A4 A5); [vm_compute; reflexivity | vm_compute; discriminate].
Qed.
Print Assumptions C91_unknown_type_refuted.
