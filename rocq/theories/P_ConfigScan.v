(** C90: from the configuration file to the document (cmd/oapi/scan.go). *)
From Coq Require Import String Ascii List Bool Arith ZArith Lia Permutation.
From Verif Require Import GoStr Json JsonFacts Gabs Container MergeFacts Url Pointer Spec_Ptr Spec_Clone Spec_Merge
  Spec_Loc LocFacts Spec_Resolve Path Route Resolver ScanFn Cmds Spec_Cmds Specs Spec_Specs SpecFacts Pkgs Spec_Pkgs PkgFacts Types Root Spec_Root SchemaJson Tag
  Spec_Types Spec_Schema Spec_Format Scan ScanInv ScanFacts Spec_Scan Spec_Kept ScanKept3 P_ScanAll P_Kept P_Adds
  Shape Spec_Shape ShapeFacts ShapeApi P_Shape Config ConfigScan Spec_ConfigScan ConfigScanFacts ConfigScanApi ConfigScanRun.
Import ListNotations.
Local Open Scope string_scope.
Local Open Scope nat_scope.
Local Open Scope list_scope.

Lemma null_dec (y : json) : {y = JNull} + {y <> JNull}. Proof. destruct y; [now left|..]; right; discriminate. Qed.
Section ConfigScan.
Context (raw : json -> string) (big : Z -> option Z) (partial : json -> gval) {F : Type} (pf : string -> option F) (zero : F) (fnum : F -> num).
(** main.go: the configuration is read (full), then scanned with (scan). *)
Local Notation full := (full (other_member raw big)).
Local Notation cli_scan := (cli_scan raw big partial pf zero fnum).

(** The configuration is accepted exactly when each of its values is of its kind. *)
Theorem C90_configuration_accepted : forall cx c bad x, unmarshal_config (other_member raw big) cx = (c, bad) -> clone (c_data cx) = Ok x -> unambiguous (SVal TConfig) x ->
  (bad = false <-> fits raw (int64_number big) (SVal TConfig) x) /\ (bad = false -> cf_doc c = x).
Proof.
  intros cx c bad x Hu Ec U. destruct (unmarshal_ok raw big cx c bad Hu) as (A & B & _). split.
  - rewrite B, <- (accepts raw big x (SVal TConfig) U). split; [intro H; exact (H x Ec)|]. intros H x' E. assert (x' = x) as -> by congruence. exact H.
  - intro Eb. destruct x; try (apply A; [exact Ec | discriminate | exact Eb]). unfold unmarshal_config in Hu. rewrite Ec in Hu. now injection Hu as <- _.
Qed.

(** What it says in info, components and externalDocs (and in servers, security and
    tags, if those were objects) below their first level is in the document. *)
Theorem C90_sections : reads_back big -> forall fs ord wd ff c a ch de ss roots d e, full fs ord wd ff = Ok (c, false) -> usual_config (cf_doc c) -> usual_run pf a ch de (cf_dir c) ss roots -> cli_scan a ch de c = Ok (Some d, e) ->
  forall k k' q s x, In k ["info"; "components"; "externalDocs"; "security"; "servers"; "tags"] -> configured (cf_doc c) (SKey k :: SKey k' :: q) s x -> says s x ->
    (~ In k ["info"; "components"] -> forall sc doc, visited a ss roots sc -> spec_doc_of a sc doc -> clear_way (SKey k :: SKey k' :: q) doc) ->
    quiet (cf_doc c) (SKey k :: SKey k' :: q) -> files_quiet a ss roots (SKey k :: SKey k' :: q) -> off_components a ss roots (SKey k :: SKey k' :: q) ->
    exists y, shows s x y /\ (y = JNull \/ carried_at (SKey k :: SKey k' :: q) y d).
Proof.
  intros Hb fs ord wd ff c a ch de ss roots d e Hf U Hr H k k' q s x Ik C Sy Cl Q Fq Oc. destruct (full_config raw big _ _ _ _ _ Hf) as (Fx & v & D).
  destruct (cli_usual raw big pf zero fnum partial Hb a ch de c ss roots d e v U Fx D Hr H) as (l & o & Hs & Hu & _ & _ & E3).
  destruct (root_says raw big Hb (cf_doc c) v U D (op_root o) k (SKey k' :: q) s x E3 Ik C Sy) as (y & L & Sh). exists y. split; [exact Sh|].
  destruct (null_dec y) as [->|Ny]; [now left|]. right. refine (C85_root_is_carried pf zero fnum a ch de l o ss roots d e Hu Hs k _ y L Ny _ _ Cl _ Oc).
  - clear - Ik. cbn in *. tauto.
  - eauto.
  - split; [exact Fq|]. exact (root_quiet raw big Hb (cf_doc c) v U Fx D (op_root o) _ E3 Q).
Qed.

(** What it says about operations of a pattern is in every operation that the
    pattern selects and that has no such member yet, if no other pattern does. *)
Theorem C90_operations : reads_back big -> forall fs ord wd ff c a ch de ss roots d e, full fs ord wd ff = Ok (c, false) -> usual_config (cf_doc c) -> usual_run pf a ch de (cf_dir c) ss roots -> cli_scan a ch de c = Ok (Some d, e) ->
  forall pat p m k q s x z, configured (cf_doc c) (SKey "operations" :: SKey pat :: SKey k :: q) s x -> says s x -> route_match pat m p = Ok true -> lookup [SKey "paths"; SKey p; SKey m] d = Some z ->
    (forall sc doc, visited a ss roots sc -> spec_doc_of a sc doc -> lookup [SKey "paths"; SKey p; SKey m; SKey k] doc = None) -> files_quiet a ss roots [SKey "paths"; SKey p; SKey m; SKey k] ->
    (forall pat' s' x', configured (cf_doc c) [SKey "operations"; SKey pat'; SKey k] s' x' -> route_match pat' m p = Ok true -> pat' = pat) ->
    exists y, shows s x y /\ lookup (SKey "paths" :: SKey p :: SKey m :: SKey k :: q) d = Some y.
Proof.
  intros Hb fs ord wd ff c a ch de ss roots d e Hf U Hr H pat p m k q s x z C Sy Hm Lz Nf Fq Un. destruct (full_config raw big _ _ _ _ _ Hf) as (Fx & v & D).
  destruct (cli_usual raw big pf zero fnum partial Hb a ch de c ss roots d e v U Fx D Hr H) as (l & o & Hs & Hu & _ & E2 & E3).
  destruct (root_canon raw big Hb (cf_doc c) v U Fx D (op_root o) E3) as (_ & _ & Np).
  destruct (entries_in raw big (cf_doc c) v U Fx D "operations" TOperation _ E2) as (A & B & Nd); [cbn; tauto|].
  assert (Cx : exists x0, configured (cf_doc c) [SKey "operations"; SKey pat] (SVal TOperation) x0 /\ finds (SVal TOperation) x0 (SKey k :: q) s x).
  { destruct (cf_doc c) as [| | | | |mc]; try (inversion C; fail). destruct (configured_inv _ _ _ _ _ C) as (s1 & k0 & x1 & Is & I & Sn & Fd). assert (s1 = SMap (SVal TOperation)) as -> by (apply (known_fun TConfig "operations"); [exact Is | cbn; tauto]).
    inversion Fd; subst. match goal with J : In (pat, ?x0) _, G : finds (SVal TOperation) ?x0 _ _ _ |- _ => exists x0; split; [|exact G]; refine (configured_mk _ _ _ _ _ _ _ _ Is I Sn _); eapply f_entry; [exact J | apply f_here] end. }
  destruct Cx as (x0 & Cx & Fd). destruct (B pat _ x0 Cx) as (_ & w & y0 & Ux & Dx & Ey & Iy). destruct (kept raw big Hb _ _ _ _ _ Fd w y0 Ux Dx Ey Sy) as (y & L & Sh). exists y. split; [exact Sh|].
  destruct y0 as [| | | | |op]; try discriminate L. change (SKey k :: q) with ([SKey k] ++ q) in L. rewrite lookup_app in L. cbn [lookup] in L. destruct (oget k op) as [yk|] eqn:Ek; [|discriminate].
  destruct (C85_default_operations_are_added pf zero fnum a ch de l o ss roots d e Hu Hs pat op p m k yk z Iy Hm Ek Lz Nf) as (G & _).
  - apply Np.
  - split; [exact Fq|]. apply (root_quiet raw big Hb (cf_doc c) v U Fx D (op_root o) _ E3). intros k1 q0 s1 x1 u I1 _ _. left. clear - I1. split; intros (r & Er); injection Er as Er; subst; cbn in I1; intuition discriminate.
  - change (SKey "paths" :: SKey p :: SKey m :: SKey k :: q) with ([SKey "paths"; SKey p; SKey m; SKey k] ++ q). rewrite lookup_app, G; [exact L | exact Nd |].
    intros pat' op' I' Hm' Ne. destruct (oget k op') as [yk'|] eqn:Ek'; [|reflexivity]. exfalso. apply Ne. destruct (A pat' _ I') as (x' & w' & Cx' & Ux' & Dx' & Ey' & _).
    destruct (written raw big Hb x' _ w' _ [SKey k] yk' Ux' Dx' Ey') as [(s' & z' & Fd' & _)|(q0 & t & k1 & z' & Eq & Ia & Fz & _)]; [cbn; now rewrite Ek'| |].
    + exact (Un pat' s' z' (finds_app _ _ _ _ _ Cx' _ _ _ Fd') Hm').
    + exfalso. destruct q0 as [|? q0]; [|destruct q0; discriminate Eq]. destruct Fz as [Fz|Fz]; inversion Fz; subst; destruct Ia.
Qed.

(** A reference to a pointer that the configuration overrides, and that is not
    exported, is replaced by what the configuration says. *)
Theorem C90_overrides : reads_back big -> forall fs ord wd ff c a ch de ss roots d e, full fs ord wd ff = Ok (c, false) -> usual_config (cf_doc c) -> usual_run pf a ch de (cf_dir c) ss roots -> cli_scan a ch de c = Ok (Some d, e) ->
  forall sc k q txt p rr s x, visited a ss roots sc -> import_path (so_path sc) -> file_ref_at a sc k q txt -> ptr_parse txt = Ok p -> is_external p = true ->
    configured (cf_doc c) (SKey "overrides" :: SKey (ptr_string p) :: rr) s x -> says s x ->
    (forall q0 s' x' u, configured (cf_doc c) (SKey "overrides" :: SKey (ptr_string p) :: q0 ++ [SKey "$ref"]) s' x' -> shows s' x' (JStr u) -> exists r, u = "#" +++ r) ->
    (forall s' n p', visited a ss roots s' -> exports_type s' n p' -> ptr_string p' <> ptr_string p) ->
    quiet (cf_doc c) (SKey k :: q) -> files_quiet_but a ss roots (SKey k :: q) -> off_components a ss roots (SKey k :: q) ->
    exists y, shows s x y /\ (y = JNull \/ carried_at ((SKey k :: q) ++ rr) y d).
Proof.
  intros Hb fs ord wd ff c a ch de ss roots d e Hf U Hr H sc k q txt p rr s x Vs Hi Hfr Pt Ex C Sy Lr Ne Q Fq Oc. destruct (full_config raw big _ _ _ _ _ Hf) as (Fx & v & D).
  destruct (cli_usual raw big pf zero fnum partial Hb a ch de c ss roots d e v U Fx D Hr H) as (l & o & Hs & Hu & E1 & _ & E3).
  destruct (entries_in raw big (cf_doc c) v U Fx D "overrides" TSchema _ E1) as (A & B & Nd); [cbn; tauto|].
  assert (Cx : exists x0, configured (cf_doc c) [SKey "overrides"; SKey (ptr_string p)] (SVal TSchema) x0 /\ finds (SVal TSchema) x0 rr s x).
  { destruct (cf_doc c) as [| | | | |mc]; try (inversion C; fail). destruct (configured_inv _ _ _ _ _ C) as (s1 & k0 & x1 & Is & I & Sn & Fd). assert (s1 = SMap (SVal TSchema)) as -> by (apply (known_fun TConfig "overrides"); [exact Is | cbn; tauto]).
    inversion Fd; subst. match goal with J : In (ptr_string p, ?x0) _, G : finds (SVal TSchema) ?x0 _ _ _ |- _ => exists x0; split; [|exact G]; refine (configured_mk _ _ _ _ _ _ _ _ Is I Sn _); eapply f_entry; [exact J | apply f_here] end. }
  destruct Cx as (x0 & Cx & Fd). destruct (B _ _ x0 Cx) as (_ & w & y0 & Ux & Dx & Ey & Iy). destruct (kept raw big Hb _ _ _ _ _ Fd w y0 Ux Dx Ey Sy) as (y & L & Sh). exists y. split; [exact Sh|].
  destruct (null_dec y) as [->|Ny]; [now left|]. right.
  refine (C85_overrides_are_put_in_place pf zero fnum a ch de l o ss roots d e Hu Hs sc k q txt p y0 Vs Hi Hfr Pt Ex _ _ _ Ne _ Oc rr y L Ny).
  - exact (nodup_in_oget _ _ _ Nd Iy).
  - pose proof (overrides_tidy raw big Hb (cf_doc c) v U Fx D _ E1) as T. rewrite Forall_forall in T. exact (T _ Iy).
  - intros q0 text p0 (L0 & P0 & X0). destruct (written_ref raw big Hb _ _ _ _ q0 text Ux Dx Ey L0) as (s' & z & Fz & Sz).
    destruct (Lr q0 s' z text (finds_app _ _ _ _ _ Cx _ _ _ Fz) Sz) as (r & ->). rewrite (hash_local _ _ P0) in X0. discriminate.
  - split; [exact Fq|]. exact (root_quiet_but raw big Hb (cf_doc c) v U Fx D (op_root o) _ E3 Q).
Qed.

(** Nothing else in the configuration matters: neither openapi, nor version, nor
    exclude, nor members of other names. *)
Theorem C90_others_ignored : forall c c' m m', cf_doc c = JObj m -> cf_doc c' = JObj m' -> unambiguous (SVal TConfig) (JObj m) -> unambiguous (SVal TConfig) (JObj m') ->
  fits raw (int64_number big) (SVal TConfig) (JObj m) -> fits raw (int64_number big) (SVal TConfig) (JObj m') -> cf_dir c = cf_dir c' ->
  (forall k k0 x, In k ["info"; "servers"; "security"; "tags"; "externalDocs"; "components"; "overrides"; "operations"] -> same_name k0 k -> (In (k0, x) m <-> In (k0, x) m')) ->
  forall a ch de, cli_scan a ch de c = cli_scan a ch de c'.
Proof.
  intros c c' m m' Ec Ec' U U' Ft Ft' Ed Hm a ch de. apply (accepts raw big _ _ U) in Ft as (v & D). apply (accepts raw big _ _ U') in Ft' as (v' & D').
  assert (G : forall k s, In k ["info"; "servers"; "security"; "tags"; "externalDocs"; "components"; "overrides"; "operations"] -> In (k, s) (known TConfig) -> member v k = member v' k).
  { intros k s Ik Is. destruct (member_spec raw big m v k s D Is) as [(k0 & x & I & Sn & Dx)|(Ez & Nn)]; destruct (member_spec raw big m' v' k s D' Is) as [(k1 & x1 & I1 & Sn1 & Dx1)|(Ez1 & Nn1)].
    - apply (Hm k k1 x1 Ik Sn1) in I1. pose proof (one_name m k0 x k1 x1 k (val_good _ _ _ _ U Is) I I1 Sn Sn1) as E. injection E as <- <-. congruence.
    - apply (Hm k k0 x Ik Sn) in I. destruct (Nn1 k0 x I Sn).
    - apply (Hm k k1 x1 Ik Sn1) in I1. destruct (Nn k1 x1 I1 Sn1).
    - congruence. }
  assert (Ek : forall k, In k ["info"; "servers"; "security"; "tags"; "externalDocs"; "components"; "overrides"; "operations"] -> member v k = member v' k).
  { intros k Ik. assert (Hs : exists s, In (k, s) (known TConfig)) by (cbn in Ik; repeat (destruct Ik as [<-|Ik]; [eexists; cbn; intuition reflexivity|]); destruct Ik). destruct Hs as (s & Is). exact (G k s Ik Is). }
  unfold ConfigScan.cli_scan, config_value. rewrite Ec, Ec', D, D', <- Ed. unfold cli_options, root_of. rewrite !Ek by (cbn; auto 10). reflexivity.
Qed.
End ConfigScan.
Print Assumptions C90_configuration_accepted.
Print Assumptions C90_sections.
Print Assumptions C90_operations.
Print Assumptions C90_overrides.
Print Assumptions C90_others_ignored.

(** *** Examples *)
Fixpoint keys_of (j : json) : list string :=
  match j with
  | JArr l => flat_map keys_of l
  | JObj m => map fst m ++ flat_map (fun kx => keys_of (snd kx)) m
  | _ => []
  end.
Lemma keys_of_lookup q : forall j n y, lookup (q ++ [SKey n]) j = Some y -> In n (keys_of j).
Proof.
  induction q as [|[k|i] q IH]; intros j n y L.
  - destruct j as [| | | | |m]; try discriminate. cbn [app lookup] in L. destruct (oget n m) as [v|] eqn:E; [|discriminate]. apply oget_in in E. cbn [keys_of]. apply in_or_app. left. exact (in_map fst _ _ E).
  - destruct j as [| | | | |m]; try discriminate. cbn [app lookup] in L. destruct (oget k m) as [v|] eqn:E; [|discriminate]. apply oget_in in E. cbn [keys_of]. apply in_or_app. right. apply in_flat_map. exists (k, v). split; [exact E | exact (IH v n y L)].
  - destruct j as [| | | |l|]; try discriminate. cbn [app lookup] in L. destruct (nth_error l i) as [v|] eqn:E; [|discriminate]. apply nth_error_In in E. cbn [keys_of]. apply in_flat_map. exists v. split; [exact E | exact (IH v n y L)].
Qed.
Lemma keys_of_finds s j q0 s' y : finds s j q0 s' y -> forall q n, q0 = q ++ [SKey n] -> exists k0, In k0 (keys_of j) /\ same_name k0 n.
Proof.
  assert (Ob : forall (m : list (string * json)) k0 x k1, In (k0, x) m -> In k1 (keys_of x) -> In k1 (keys_of (JObj m))).
  { intros m k0 x k1 I I1. cbn [keys_of]. apply in_or_app. right. apply in_flat_map. exists (k0, x). auto. }
  assert (Ob0 : forall (m : list (string * json)) k0 x, In (k0, x) m -> In k0 (keys_of (JObj m))) by (intros m k0 x I; cbn [keys_of]; apply in_or_app; left; exact (in_map fst _ _ I)).
  induction 1 as [s j|t m k k0 s x q1 s' y Kn I Sn Fd IH|t m k k0 s x q1 s' y Kn I Sn Fd IH|s m k x q1 s' y I Fd IH|s l i x q1 s' y I Fd IH|j a q1 y L|j a q1 y L|m k0 x I Sn Nn|m k x q1 s' y R I Fd IH]; intros q n E.
  - destruct q; discriminate.
  - destruct q as [|b q]; injection E as E1 E2; [subst; eauto|]. destruct (IH q n E2) as (k1 & I1 & S1). eauto.
  - destruct q as [|b q]; injection E as E1 E2; [subst; eauto|]. destruct (IH q n E2) as (k1 & I1 & S1). eauto.
  - destruct q as [|b q]; injection E as E1 E2; [subst; exists n; split; [eauto | reflexivity]|]. destruct (IH q n E2) as (k1 & I1 & S1). eauto.
  - destruct q as [|b q]; injection E as E1 E2; [discriminate|]. destruct (IH q n E2) as (k1 & I1 & S1). exists k1. split; [cbn [keys_of]; apply in_flat_map; exists x; split; [exact (nth_error_In _ _ I) | exact I1] | exact S1].
  - rewrite E in L. exists n. split; [exact (keys_of_lookup q j n y L) | reflexivity].
  - rewrite E in L. exists n. split; [exact (keys_of_lookup q j n y L) | reflexivity].
  - destruct q as [|b q]; injection E as E1; [subst; eauto|]. destruct q; discriminate.
  - destruct q as [|b q]; injection E as E1 E2; [subst; exists n; split; [eauto | reflexivity]|]. destruct (IH q n E2) as (k1 & I1 & S1). eauto.
Qed.
Definition no_key (n : string) (j : json) : bool := forallb (fun k => negb (String.eqb (to_lower k) (to_lower n))) (keys_of j).
Lemma no_key_ok n j q s x : no_key n j = true -> configured j (q ++ [SKey n]) s x -> False.
Proof.
  intros N C. destruct (keys_of_finds _ _ _ _ _ C q n eq_refl) as (k0 & I & S). unfold no_key in N. rewrite forallb_forall in N. specialize (N k0 I). unfold same_name in S. rewrite S, String.eqb_refl in N. discriminate.
Qed.

(** A configuration with a title, a component, default operations, an override
    and a server. *)
Definition c_json : json := JObj
  [("components", JObj [("schemas", JObj [("Tag", JObj [("type", JStr "string")])])]); ("exclude", JArr []); ("info", JObj [("title", JStr "Pets"); ("version", JStr "1")]);
   ("openapi", JStr "2.0"); ("operations", JObj [("/pets", JObj [("summary", JStr "all")])]); ("overrides", JObj [("go://ex.org/m/api#/Pet", JObj [("maxLength", JNum (NFlt 5 0)); ("type", JStr "integer")])]);
   ("servers", JArr [JObj [("url", JStr "/")]])].
Definition c_fs : filesys := fun p => if String.eqb p "/etc/oapi.json" then Some (Ok (Some c_json)) else None.
Definition c_flags : flags := {| fl_config := "oapi.json"; fl_dir := "/src/api"; fl_format := ""; fl_output := "" |}.
Definition c_config : config := {| cf_path := "/etc/oapi.json"; cf_dir := "/src/api"; cf_format := "json:pretty"; cf_output := "stdout"; cf_doc := c_json |}.
Definition c_scan := cli_scan raw0 exact_big (fun _ => GNil) no_float 0%Z NInt (v_around [] v_doc) k_choices w_depths c_config.
Lemma c_no_ref q s x : configured c_json (q ++ [SKey "$ref"]) s x -> False.
Proof. apply no_key_ok. vm_compute. reflexivity. Qed.
Ltac entry_ H := repeat (destruct H as [H|H]; [injection H as <- <-|]); try destruct H.
Lemma c_usual : usual_config c_json.
Proof.
  refine (conj _ (conj _ (conj _ (conj _ (conj _ _))))).
  - vm_compute. tauto.
  - apply unb_ok. vm_compute. reflexivity.
  - intros k s x Ik C. destruct (configured_inv _ _ _ _ _ C) as (s1 & k0 & x1 & _ & I & Sn & Fd). inversion Fd; subst. clear Fd C.
    entry_ I; try (vm_compute; repeat split; discriminate); vm_compute in Sn; clear - Ik Sn; cbn in Ik; repeat (destruct Ik as [<-|Ik]; [discriminate Sn|]); destruct Ik.
  - intros t s x C. destruct (configured_inv _ _ _ _ _ C) as (s1 & k0 & x1 & Is & I & Sn & Fd). entry_ I; try (vm_compute in Sn; discriminate Sn).
    inversion Fd; subst; cbn in Is; repeat (destruct Is as [Is|Is]; [discriminate Is || injection Is as <-|]); try destruct Is.
    match goal with J : In (t, _) _, G : finds _ _ [] _ _ |- _ => inversion G; subst; entry_ J end. vm_compute. repeat split; discriminate.
  - intros t s x u C _. destruct (c_no_ref [SKey "overrides"; SKey t] s x C).
  - intros t s x C. destruct (configured_inv _ _ _ _ _ C) as (s1 & k0 & x1 & Is & I & Sn & Fd). entry_ I; try (vm_compute in Sn; discriminate Sn).
    inversion Fd; subst; cbn in Is; repeat (destruct Is as [Is|Is]; [discriminate Is || injection Is as <-|]); try destruct Is.
    match goal with J : In (t, _) _, G : finds _ _ [] _ _ |- _ => inversion G; subst; entry_ J end. vm_compute. repeat split; discriminate.
Qed.
Lemma c_quiet q : quiet c_json q.
Proof. intros k q0 s x u _ C _. destruct (c_no_ref (SKey k :: q0) s x C). Qed.
Lemma c_run : usual_run no_float (v_around [] v_doc) k_choices w_depths "/src/api" [w_source []] [0].
Proof.
  destruct (v_usual [] v_doc v_options2 _ (or_introl eq_refl) (or_introl eq_refl) (or_intror (or_introl eq_refl)) eq_refl) as (A & B & C & _ & (D1 & D2 & D3 & _) & _ & _ & (dir & _ & Hd & L1 & L2 & L3) & G).
  refine (conj A (conj B (conj C (conj D1 (conj D2 (conj D3 (conj _ (conj L1 (conj L2 (conj L3 G)))))))))). exists "/src/api". split; [left; split; [discriminate | reflexivity] | reflexivity].
Qed.
Definition c_out : json := match c_scan with Ok (Some d, _) => d | _ => JNull end.
Example C90_example : full (other_member raw0 exact_big) c_fs (fun _ l => l) "/etc" c_flags = Ok (c_config, false) /\ usual_config c_json /\ usual_run no_float (v_around [] v_doc) k_choices w_depths (cf_dir c_config) [w_source []] [0] /\
  c_scan = Ok (Some c_out, true) /\ fits raw0 (int64_number exact_big) (SVal TConfig) c_json /\
  configured c_json [SKey "info"; SKey "title"] SText (JStr "Pets") /\ quiet c_json [SKey "info"; SKey "title"] /\ files_quiet (v_around [] v_doc) [w_source []] [0] [SKey "info"; SKey "title"] /\ off_components (v_around [] v_doc) [w_source []] [0] [SKey "info"; SKey "title"] /\
  lookup [SKey "info"; SKey "title"] c_out = Some (JStr "Pets") /\ lookup [SKey "components"; SKey "schemas"; SKey "Tag"; SKey "type"] c_out = Some (JStr "string") /\
  configured c_json [SKey "operations"; SKey "/pets"; SKey "summary"] SText (JStr "all") /\ route_match "/pets" "get" "/pets" = Ok true /\ files_quiet (v_around [] v_doc) [w_source []] [0] [SKey "paths"; SKey "/pets"; SKey "get"; SKey "summary"] /\
  lookup [SKey "paths"; SKey "/pets"; SKey "get"; SKey "summary"] c_out = Some (JStr "all") /\
  configured c_json [SKey "overrides"; SKey "go://ex.org/m/api#/Pet"; SKey "maxLength"] SInt (JNum (NFlt 5 0)) /\ files_quiet_but (v_around [] v_doc) [w_source []] [0] (SKey "paths" :: v_at) /\
  lookup ((SKey "paths" :: v_at) ++ [SKey "maxLength"]) c_out = Some (JNum (NFlt 5 0)).
Proof.
  assert (Cf : forall k s k' t t', In (k, SPtr t) (known TConfig) -> In (k', s) (known t) -> forall m x, In (k, JObj m) (match c_json with JObj l => l | _ => [] end) -> In (k', x) m -> t' = t -> configured c_json [SKey k; SKey k'] s x).
  { intros k s k' t t' Ik Ik' m x I I' _. eapply f_val; [exact Ik | exact I | reflexivity|]. eapply f_ptr; [exact Ik' | exact I' | reflexivity | apply f_here]. }
  assert (Fq : forall q, Spec_Loc.apart (SKey "paths" :: v_at) q -> files_quiet (v_around [] v_doc) [w_source []] [0] q) by (intros q A; exact (proj1 (v_undisturbed [] {| op_dir := None; op_override := []; op_defops := []; op_root := k_root |} eq_refl q A))).
  refine (conj _ (conj c_usual (conj c_run (conj _ (conj _ (conj _ (conj (c_quiet _) (conj _ (conj _ (conj _ (conj _ (conj _ (conj _ (conj _ (conj _ (conj _ (conj _ _))))))))))))))))).
  - vm_compute. reflexivity.
  - vm_compute. reflexivity.
  - apply (accepts raw0 exact_big); [exact (proj1 (proj2 c_usual)) | eexists; vm_compute; reflexivity].
  - eapply (Cf "info" SText "title" TInfo TInfo); [cbn; auto 20 | cbn; auto 12 | cbn; auto 12 | now left | reflexivity].
  - apply Fq. split; intros (r & E); discriminate E.
  - intros s name _ _. split; intros (r & E); discriminate E.
  - vm_compute. reflexivity.
  - vm_compute. reflexivity.
  - eapply f_val with (k0 := "operations"); [cbn; auto 20 | cbn; auto 12 | reflexivity|]. eapply f_entry; [now left|]. eapply f_val; [cbn; auto 20 | now left | reflexivity | apply f_here].
  - reflexivity.
  - apply Fq. split; intros (r & E); discriminate E.
  - vm_compute. reflexivity.
  - eapply f_val with (k0 := "overrides"); [cbn; auto 20 | cbn; auto 12 | reflexivity|]. eapply f_entry; [now left|]. eapply f_val with (k0 := "maxLength"); [cbn; auto 30 | now left | reflexivity | apply f_here].
  - exact (proj1 (v_alone [] {| op_dir := None; op_override := []; op_defops := []; op_root := k_root |} eq_refl)).
  - vm_compute. reflexivity.
Qed.
(** ** What a user would not expect *)
(** The server of the configuration is lost (its list ends as an empty object), and
    so is its OpenAPI version. *)
Theorem C90_servers_refuted : configured c_json [SKey "servers"; SIdx 0; SKey "url"] SText (JStr "/") /\ configured c_json [SKey "openapi"] SText (JStr "2.0") /\ c_scan = Ok (Some c_out, true) /\
  lookup [SKey "servers"] c_out = Some (JObj []) /\ lookup [SKey "openapi"] c_out = Some (JStr "3.0.2").
Proof.
  refine (conj _ (conj _ (conj _ (conj _ _)))); try (vm_compute; reflexivity).
  - eapply f_val with (k0 := "servers"); [cbn; auto 20 | cbn; auto 12 | reflexivity|]. eapply f_elem; [reflexivity|]. eapply f_ptr with (k0 := "url"); [cbn; auto 20 | now left | reflexivity | apply f_here].
  - eapply f_val with (k0 := "openapi"); [cbn; auto 20 | cbn; auto 12 | reflexivity | apply f_here].
Qed.
Print Assumptions C90_servers_refuted.
