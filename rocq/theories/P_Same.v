(** C95: the document does not depend on the order of maps. *)
From Coq Require Import String Ascii List Bool Arith ZArith Lia Permutation.
From Verif Require Import GoStr Json Gabs Container Url Pointer PtrFacts Spec_Ptr Spec_Clone Spec_Merge MergeLaws
  Spec_Loc Spec_Resolve Spec_ResolveOk ResolverOk Path Route Spec_Route Resolver ScanFn Cmds Spec_Cmds Specs Spec_Specs Pkgs Spec_Pkgs PkgFacts Types TypesFacts DenoteFacts Root Spec_Root SchemaJson Tag Spec_Tag
  Spec_Types Spec_Schema Spec_Format Scan ScanInv ScanFacts Spec_Scan Spec_Kept P_ScanAll P_Kept P_Types P_Adds Spec_Ends ScanDepth ScanEnds P_Ends Spec_ScanOk ScanOk P_ScanOk Spec_Same ScanSame4.
Import ListNotations.
Local Open Scope string_scope.
Local Open Scope nat_scope.
Local Open Scope list_scope.

Section Same.
Context {F : Type} (pf : string -> option F) (zero : F) (fnum : F -> num).
Local Notation scan := (scan pf zero fnum std_mapping).

Lemma scan_of_doc a ch de l o ss roots dir c : apply_opts l no_options = Ok o -> (op_dir o = Some dir \/ op_dir o = None /\ ar_cwd a = Ok dir) -> ar_load a dir = Ok (ss, map Some roots) ->
  any_order ch -> scan_doc pf zero fnum std_mapping a ch de o ss (map Some roots) = Ok c -> exists d, c = Some (JObj d) /\ scan a ch de l = Ok (Some (JObj d), true).
Proof.
  intros Eo Hdir Hld O1 Hd. pose proof (scan_doc_fine pf zero fnum std_mapping a ch de o ss _ c (proj1 O1) Hd) as Hf.
  unfold Scan.scan. rewrite Eo. cbn [on_err]. assert (Ed : match op_dir o with Some d0 => Ok d0 | None => ar_cwd a end = Ok dir) by (destruct Hdir as [-> |(-> & E)]; [reflexivity | exact E]). rewrite Ed. cbn [on_err]. rewrite Hld. cbn [on_err fst snd].
  rewrite Hd. cbn [on_err]. destruct Hf as (d & -> & B). exists d. split; [reflexivity|]. destruct (fine_clone (Some (JObj d)) (ex_intro _ d (conj eq_refl B))) as (d' & Ec). unfold new_oapi. rewrite Ec. reflexivity.
Qed.

(** ** C95 *)
(** If everything is in order (Spec_ScanOk), types have one nearest place and
    operations one default at most (Spec_Same), the document is the same
    whatever the order of the maps, but for the exported components. *)
Theorem C95_order_does_not_show : forall a ch1 ch2 l o ss roots, any_choices ch1 -> any_choices ch2 -> apply_opts l no_options = Ok o ->
  sound_input pf a o ss roots -> references_manageable a o ss roots -> in_order pf fnum zero a o ss roots -> one_place a ss roots -> one_default a o ss roots ->
  exists de d1 d2, (forall de',
      de_pkgs de <= de_pkgs de' -> de_walk de <= de_walk de' -> de_type de <= de_type de' -> de_fields de <= de_fields de' -> de_resolve de <= de_resolve de' ->
      scan a ch1 de' l = Ok (Some d1, true) /\ scan a ch2 de' l = Ok (Some d2, true)) /\
    wf d1 /\ wf d2 /\ forall k, outside_exports a ss roots k -> at_path k d1 = at_path k d2.
Proof.
  intros a ch1 ch2 l o ss roots HO1 HO2 Eo Hs S8 Ho Hpl Hde.
  assert (Pa : sound_input pf a o ss roots) by exact Hs. destruct Hs as ((H1 & H2 & H3 & H4 & H5 & H6) & Hur & (dir & Hdir & Hld & L1 & L2) & S1 & S2 & S3 & S4 & S5 & S6 & S7).
  destruct Ho as (I1 & dd1 & dd2 & I2 & I3 & I4 & I5 & I6 & I7).
  assert (Ends : forall ch, any_choices ch -> exists de0, PathsFacts.ok_or_err (scan_doc pf zero fnum std_mapping a ch de0 o ss (map Some roots))).
  { intros ch (O1 & O2 & O3 & O4). exact (scan_doc_ends pf zero fnum a ch o ss roots O1 O2 O3 O4 (H2 _ _ _ Hld) H3 H4 Hur H5 L1 L2 S1 S2 S3 S4 S5 S6 S7 S8). }
  destruct (Ends ch1 HO1) as (dA & EA). destruct (Ends ch2 HO2) as (dB & EB).
  set (de := {| de_pkgs := de_pkgs dA + de_pkgs dB + S (length ss); de_walk := de_walk dA + de_walk dB; de_type := de_type dA + de_type dB; de_fields := de_fields dA + de_fields dB; de_resolve := de_resolve dA + de_resolve dB |}).
  assert (Made : forall ch de0, any_choices ch -> PathsFacts.ok_or_err (scan_doc pf zero fnum std_mapping a ch de0 o ss (map Some roots)) -> no_shallower de0 de ->
    exists c, scan_doc pf zero fnum std_mapping a ch de o ss (map Some roots) = Ok c /\ made_of pf zero fnum a ch de o ss roots dd2 c).
  { intros ch de0 (O1 & O2 & O3 & O4) R Ns. pose proof (scan_doc_deeper pf zero fnum std_mapping a ch de0 de o ss (map Some roots) Ns) as Dp.
    assert (Hlt : length ss < de_pkgs de) by (unfold de; cbn; lia).
    pose proof (scan_doc_made pf zero fnum a ch de o ss roots dd1 dd2 O1 O2 O3 O4 (H2 _ _ _ Hld) H3 H4 Hur H5 L1 L2 S1 S2 S3 S4 S5 S7 I1 I2 I3 I4 I5 I6 I7 Hlt) as N.
    assert (Ng : scan_doc pf zero fnum std_mapping a ch de0 o ss (map Some roots) <> OutOfFuel) by (intro E; rewrite E in R; exact R). pose proof (deeper_eq _ _ Dp Ng) as E. rewrite E in N. rewrite E.
    destruct (scan_doc pf zero fnum std_mapping a ch de0 o ss (map Some roots)) as [c| | |]; try destruct R; [now exists c | destruct N]. }
  destruct (Made ch1 dA HO1 EA) as (c1 & D1 & M1); [unfold no_shallower, de; cbn; lia|]. destruct (Made ch2 dB HO2 EB) as (c2 & D2 & M2); [unfold no_shallower, de; cbn; lia|].
  destruct HO1 as (O1 & O2 & O3 & O4). destruct HO2 as (Q1 & Q2 & Q3 & Q4).
  destruct (same_outside pf zero fnum a ch1 ch2 de o ss roots dd1 dd2 c1 c2 O1 Q1 O3 Q3 O4 Q4 S5 I2 I3 I4 I5 I6 I7 Hpl Hde M1 M2) as (W1 & W2 & Same).
  destruct (scan_of_doc a ch1 de l o ss roots dir c1 Eo Hdir Hld O1 D1) as (d1 & -> & X1). destruct (scan_of_doc a ch2 de l o ss roots dir c2 Eo Hdir Hld Q1 D2) as (d2 & -> & X2). cbn [c_data] in *.
  exists de, (JObj d1), (JObj d2). split; [|auto]. intros de' A1 A2 A3 A4 A5. rewrite <- X1, <- X2. split; apply (C91_depths_do_not_show pf zero fnum); try assumption; [rewrite X1 | rewrite X2]; discriminate.
Qed.
(** Without exported components, it is the same document. *)
Theorem C95_same_document : forall a ch1 ch2 l o ss roots, any_choices ch1 -> any_choices ch2 -> apply_opts l no_options = Ok o ->
  sound_input pf a o ss roots -> references_manageable a o ss roots -> in_order pf fnum zero a o ss roots -> one_place a ss roots -> one_default a o ss roots ->
  (forall s n, visited a ss roots s -> ~ exports_name s n) ->
  exists de d, forall de',
    de_pkgs de <= de_pkgs de' -> de_walk de <= de_walk de' -> de_type de <= de_type de' -> de_fields de <= de_fields de' -> de_resolve de <= de_resolve de' ->
    scan a ch1 de' l = Ok (Some d, true) /\ scan a ch2 de' l = Ok (Some d, true).
Proof.
  intros a ch1 ch2 l o ss roots HO1 HO2 Eo Hs S8 Ho Hpl Hde Hn. destruct (C95_order_does_not_show a ch1 ch2 l o ss roots HO1 HO2 Eo Hs S8 Ho Hpl Hde) as (de & d1 & d2 & H & W1 & W2 & Same).
  exists de, d1. assert (E : d1 = d2) by (specialize (Same []); cbn in Same; assert (X : Some d1 = Some d2) by (apply Same; intros s n V X; elim (Hn s n V X)); congruence). subst d2. exact H.
Qed.
End Same.
Print Assumptions C95_order_does_not_show.
Print Assumptions C95_same_document.

(** *** Example: the world of C94, with and without the export. *)
Lemma s_text pk n toks ts t0 t p : env_ok w_env -> import_path pk -> go_ident n = true -> field_names_ok t0 = true -> trail w_env t0 toks ts t -> ptr_string p = loc_text pk (n :: toks) -> ptr_parse (ptr_string p) = Ok p -> p_frag p = n :: toks.
Proof.
  intros He Hi Hn Ht Tr E P. destruct (new_point_loc pk n Hi Hn) as (q & _ & Hg & Hq & _). cbn [fst snd] in *.
  set (p1 := {| p_url := p_url q; p_frag := n :: toks |}).
  assert (L : at_loc p1 (pk, n :: toks)).
  { split; [exact Hi|]. split; [exact Hq|]. split; [reflexivity|]. split; [discriminate|]. cbn [snd]. constructor; [now apply ident_tok in Hn | now apply (trail_toks w_env He _ _ _ _ Tr)]. }
  destruct (go_roundtrip pk p1 Hi Hq) as (_ & _ & _ & _ & p' & P' & F' & _).
  { unfold p1. cbn [p_frag]. constructor; [now apply ident_tok in Hn | now apply (trail_percent w_env t0 toks ts t)]. }
  rewrite (at_loc_text _ _ L) in P'. cbn [fst snd] in P'. rewrite E, P' in P. injection P as <-. exact F'.
Qed.
Lemma s_named groups doc T p : In groups [[]; v_cmd] -> In doc [v_doc; v_plain] -> known_at (v_around groups doc) [w_source groups] [0] T (ptr_string p) -> ptr_parse (ptr_string p) = Ok p ->
  exists toks, ptr_string p = loc_text "ex.org/m/api" ("Pet" :: toks) /\ p_frag p = "Pet" :: toks.
Proof.
  intros Ig Id (ob & pk & St & Ep & Lo) P. rewrite (e_starts _ _ _ Ig Id St) in *. injection Ep as <-.
  pose proof (e_sound groups doc v_options2 _ Ig Id (or_intror (or_introl eq_refl)) eq_refl) as (_ & _ & _ & (He & _ & _ & Hob & _) & _). cbn [ar_env v_around] in He.
  destruct (Hob (w_source groups) "Pet" _ (or_introl eq_refl) eq_refl) as ((Go & Fn & Ip) & _). cbn [o_name o_type o_pkg] in *. specialize (Ip _ eq_refl).
  assert (G : forall toks ts t, trail w_env (TNamed 0) toks ts t -> ptr_string p = loc_text "ex.org/m/api" ("Pet" :: toks) -> exists toks, ptr_string p = loc_text "ex.org/m/api" ("Pet" :: toks) /\ p_frag p = "Pet" :: toks).
  { intros toks ts t Tr E. exists toks. split; [exact E|]. exact (s_text "ex.org/m/api" "Pet" toks ts (TNamed 0) t p He Ip Go Fn Tr E P). }
  destruct Lo as [(toks & ts & t' & R & _ & _ & E)|(s1 & ts1 & tn & pkn & n & s2 & ts2 & t' & R1 & _ & (i & dd & -> & En & Ed & En') & R2 & _ & _ & E)]; [exact (G _ _ _ R E)|].
  pose proof (w_trail _ _ _ _ R1 (or_introl eq_refl)) as In1. assert (Ei : i = 0) by (destruct In1 as [[= <-]|[X|[X|[]]]]; [reflexivity | discriminate X | discriminate X]). subst i. injection En as <-. injection Ed as <-. cbn [d_name] in En'. subst n. exact (G _ _ _ R2 E).
Qed.
Lemma s_pet groups : In groups [[]; v_cmd] -> exists p0, ptr_string p0 = "go://ex.org/m/api#/Pet" /\ length (p_frag p0) = 1 /\ ptr_parse (ptr_string p0) = Ok p0 /\ known_at (v_around groups v_doc) [w_source groups] [0] (TStruct o_fields) (ptr_string p0).
Proof.
  intro Ig.
  assert (E0 : exists p0, ptr_string p0 = "go://ex.org/m/api#/Pet" /\ ptr_parse (ptr_string p0) = Ok p0 /\ length (p_frag p0) = 1).
  { assert (X : match ptr_parse "go://ex.org/m/api#/Pet" with Ok p0 => String.eqb (ptr_string p0) "go://ex.org/m/api#/Pet" && (length (p_frag p0) =? 1) | _ => false end = true) by (vm_compute; reflexivity).
    destruct (ptr_parse "go://ex.org/m/api#/Pet") as [p0| | |] eqn:Ep0; try discriminate X. apply andb_prop in X as (X1 & X2). apply String.eqb_eq in X1. apply Nat.eqb_eq in X2. exists p0. rewrite X1. auto. }
  destruct E0 as (p0 & Ep & Pp & Lp).
  assert (K0 : known_at (v_around groups v_doc) [w_source groups] [0] (TStruct o_fields) (ptr_string p0)).
  { exists {| o_pkg := Some "ex.org/m/api"; o_name := "Pet"; o_type := TNamed 0 |}, "ex.org/m/api". split; [|split; [reflexivity|left; exists [], [], (TNamed 0); split; [constructor|]; split; [constructor|]; split; [reflexivity | exact Ep]]].
    assert (Sd : spec_doc_of (v_around groups v_doc) (w_source groups) v_doc) by (exists "/src/api", "oapi.yaml"; repeat split; [now left | eexists; eexists; split; reflexivity]).
    eexists _, _, "Pet", []. split; [apply v_visits|]. split; [right; exists (w_source groups), v_doc, (SKey "paths" :: v_at), "go://#/Pet"; split; [apply v_visits|]; split; [exact Sd|]; split; [reflexivity|]; eexists; split; [vm_compute; reflexivity | reflexivity]|]. repeat split. }
  exists p0. auto.
Qed.
Lemma s_nearest groups T p : In groups [[]; v_cmd] -> by_reference w_env T -> nearest (v_around groups v_doc) [w_source groups] [0] T p -> ptr_string p = loc_text "ex.org/m/api" ["Pet"].
Proof.
  intros Ig B (K & P & N). assert (Id : In v_doc [v_doc; v_plain]) by now left.
  destruct (s_named _ _ _ _ Ig Id K P) as (toks & E & Fr).
  pose proof (proj1 (o_known groups v_doc T _ Ig Id K)) as In1.
  assert (Es : T = TStruct o_fields).
  { destruct In1 as [<-|[<-|[<-|[]]]]; [reflexivity| |]; exfalso; destruct B as [(fs & X)|(e & t & S & R & U)]; try discriminate X.
    - inversion S as [? ? X|? ? X|? ? ? X|? ? ? X]; discriminate X.
    - inversion S as [? ? X|? ? X|? ? ? X|? ? ? X]; subst; cbn in X; try discriminate X. injection X as <-. inversion R as [|? e' ? S' R']; subst; [discriminate U|]. inversion S' as [? ? Y|? ? Y|? ? ? Y|? ? ? Y]; discriminate Y. }
  subst T. destruct (s_pet groups Ig) as (p0 & Ep & Lp & Pp & K0).
  pose proof (N p0 K0 Pp) as L1. rewrite Lp in L1. rewrite Fr in L1. cbn in L1. destruct toks; [exact E | cbn in L1; lia].
Qed.
Lemma s_one_place groups : In groups [[]; v_cmd] -> one_place (v_around groups v_doc) [w_source groups] [0].
Proof. intros Ig T p p' B N N'. rewrite (s_nearest groups T p Ig B N), (s_nearest groups T p' Ig B N'). reflexivity. Qed.
Lemma s_one_default groups o : apply_opts v_options2 no_options = Ok o -> one_default (v_around groups v_doc) o [w_source groups] [0].
Proof. intros [= <-] d1 d2 path m v _ _ _. unfold chosen. cbn [op_defops filter]. destruct (selects _ _); cbn; lia. Qed.
Example C95_example : forall groups, In groups [[]; v_cmd] -> exists o, any_choices e_choices /\ apply_opts v_options2 no_options = Ok o /\ sound_input no_float (v_around groups v_doc) o [w_source groups] [0] /\
  references_manageable (v_around groups v_doc) o [w_source groups] [0] /\ in_order no_float NInt 0%Z (v_around groups v_doc) o [w_source groups] [0] /\
  one_place (v_around groups v_doc) [w_source groups] [0] /\ one_default (v_around groups v_doc) o [w_source groups] [0].
Proof.
  intros groups A. eexists. split; [exact e_any_choices|]. split; [reflexivity|]. assert (B : In v_doc [v_doc; v_plain]) by now left. assert (C : In v_options2 [v_options; v_options2]) by (right; now left).
  split; [exact (e_sound groups v_doc v_options2 _ A B C eq_refl)|]. split; [exact (e_manageable groups v_doc v_options2 _ A B C eq_refl)|]. split; [exact (o_in_order groups _ A eq_refl)|]. split; [exact (s_one_place groups A) | exact (s_one_default groups _ eq_refl)].
Qed.
Example C95_example_no_exports : forall s n, visited (v_around [] v_doc) [w_source []] [0] s -> ~ exports_name s n.
Proof. intros s n V (g & t & b & p & I & _). rewrite (v_visited _ _ _ V) in I. destruct I. Qed.

(** *** The conditions matter *)
(** A package with these declared types; maps are gone through forwards or backwards. *)
Definition t_source (env : genv) (groups : list (list string)) : source :=
  {| so_pkg := {| g_path := "ex.org/m/api"; g_errors := 0; g_imports := [] |}; so_types := "ex.org/m/api"; so_groups := groups; so_module := so_module (w_source []);
     so_scope := fun n => if String.eqb n "A" then Some {| o_pkg := Some "ex.org/m/api"; o_name := "A"; o_type := TNamed 0 |}
                          else if String.eqb n "B" then Some {| o_pkg := Some "ex.org/m/api"; o_name := "B"; o_type := TNamed 1 |}
                          else if String.eqb n "C" then Some {| o_pkg := Some "ex.org/m/api"; o_name := "C"; o_type := TNamed 2 |} else None |}.
Definition t_around (env : genv) (groups : list (list string)) (doc : json) : around :=
  {| ar_load := fun _ => Ok ([t_source env groups], [Some 0]); ar_cwd := Ok "/src/api"; ar_gopath := "/go"; ar_missing := fun _ => true; ar_files := k_files doc None; ar_std := fun _ => false; ar_env := env |}.
Definition t_choices (back : bool) (txt : string) : choices :=
  {| ch_imports := fun _ _ l => l; ch_strings := sort_s; ch_cmds1 := fun l => l; ch_cmds2 := fun l => l; ch_p1 := fun l => l; ch_p2 := fun l => l; ch_refs := fun _ _ l => l; ch_files := fun l => l; ch_merge := fun _ _ l => l;
     ch_types := fun _ l => l; ch_root := fun _ _ l => l; ch_resolve := fun _ l => if back then rev l else l; ch_points := fun l => l; ch_pick := prefer txt; ch_paths := fun l => l; ch_ops := fun _ l => l;
     ch_defs := fun l => if back then rev l else l; ch_def := fun _ _ _ l => l |}.
Lemma t_any back txt : any_choices (t_choices back txt).
Proof.
  assert (R : forall {A} (l : list A), Permutation (if back then rev l else l) l) by (intros A l; destruct back; [apply Permutation_sym, Permutation_rev | apply Permutation_refl]).
  split; [repeat split; intros; cbn; try (intros ? ?); try apply R; apply Permutation_refl|]. split; [split; [intros; apply Permutation_refl|]; split; [exact sort_s_ok | intros; apply Permutation_refl]|].
  split; [repeat split; intros; cbn; try apply R; apply Permutation_refl | exact (prefer_picks txt)].
Qed.
Definition t_decl (n : string) (fs : list (string * gty)) : decl :=
  {| d_pkg := Some "ex.org/m/api"; d_name := n; d_under := TStruct (map (fun x => ({| f_name := fst x; f_tag := ""; f_emb := false |}, snd x)) fs) |}.
Definition t_doc (refs : list (string * string)) : json :=
  JObj [("openapi", JStr "3.0.2"); ("paths", JObj [("/pets", JObj [("get", JObj [])])]); ("x", JObj (map (fun x => (fst x, JObj [("$ref", JStr (snd x))])) refs))].
Definition t_scan (ch : choices) (a : around) (l : list opt) := scan no_float 0%Z NInt std_mapping a ch w_depths l.
Definition t_same : genv := [t_decl "A" [("ID", TBasic KString)]; t_decl "B" [("ID", TBasic KString)]; t_decl "C" [("F", TNamed 0)]].
Definition t_loop : genv := [t_decl "A" [("B", TPtr (TNamed 1))]; t_decl "B" [("A", TPtr (TNamed 0))]; t_decl "C" []].
Definition t_exp : list (list string) := [["//openapi:schema A"]].
Definition t_defs : list opt := [WithDefOps [("/pets", JObj [("x-def", JStr "a")]); ("get:/pets", JObj [("x-def", JStr "b")])]].
Lemma t_shown ch a l k v de' : match t_scan ch a l with Ok (Some d, true) => Some (at_path k d) | _ => None end = Some v ->
  de_pkgs w_depths <= de_pkgs de' -> de_walk w_depths <= de_walk de' -> de_type w_depths <= de_type de' -> de_fields w_depths <= de_fields de' -> de_resolve w_depths <= de_resolve de' ->
  exists d, scan no_float 0%Z NInt std_mapping a ch de' l = Ok (Some d, true) /\ at_path k d = v.
Proof.
  intros H A1 A2 A3 A4 A5. unfold t_scan in H. destruct (scan no_float 0%Z NInt std_mapping a ch w_depths l) as [[[d|] [|]]| | |] eqn:E; try discriminate H. injection H as H. exists d. split; [|exact H].
  transitivity (scan no_float 0%Z NInt std_mapping a ch w_depths l); [|exact E]. apply C91_depths_do_not_show; try assumption. rewrite E. discriminate.
Qed.
(** Two types with one structure, of which one is exported: which of them a
    field refers to depends on the order.  Two patterns select an operation:
    which default it gets depends on the order.  A type that is not exported
    refers back to an exported one: its component depends on the order. *)
Theorem C95_conditions : forall de', de_pkgs w_depths <= de_pkgs de' -> de_walk w_depths <= de_walk de' -> de_type w_depths <= de_type de' -> de_fields w_depths <= de_fields de' -> de_resolve w_depths <= de_resolve de' ->
  let run back txt a l := scan no_float 0%Z NInt std_mapping a (t_choices back txt) de' l in
  (forall back txt, any_choices (t_choices back txt)) /\
  (let a := t_around t_same t_exp (t_doc [("a", "go://#/A"); ("b", "go://#/B"); ("c", "go://#/C")]) in
   (exists d, run false "go://ex.org/m/api#/A" a [] = Ok (Some d, true) /\ at_path ["x"; "c"; "properties"; "F"; "$ref"] d = Some (JStr "#/components/schemas/A")) /\
   (exists d, run false "go://ex.org/m/api#/B" a [] = Ok (Some d, true) /\ at_path ["x"; "c"; "properties"; "F"; "$ref"] d = None)) /\
  (let a := t_around t_same [] (t_doc []) in
   (exists d, run false "" a t_defs = Ok (Some d, true) /\ at_path ["paths"; "/pets"; "get"; "x-def"] d = Some (JStr "a")) /\
   (exists d, run true "" a t_defs = Ok (Some d, true) /\ at_path ["paths"; "/pets"; "get"; "x-def"] d = Some (JStr "b"))) /\
  (let a := t_around t_loop t_exp (t_doc [("a", "go://#/A"); ("b", "go://#/B")]) in
   let null := JObj [("nullable", JBool true); ("type", JStr "object")] in
   let back := JObj [("properties", JObj [("A", JObj [("oneOf", JArr [JObj [("$ref", JStr "#/components/schemas/A")]; null])])]); ("type", JStr "object")] in
   (exists d, run false "" a [] = Ok (Some d, true) /\ at_path ["components"; "schemas"; "A"; "properties"; "B"; "oneOf"] d = Some (JArr [JObj []; null])) /\
   (exists d, run true "" a [] = Ok (Some d, true) /\ at_path ["components"; "schemas"; "A"; "properties"; "B"; "oneOf"] d = Some (JArr [back; null]))).
Proof.
  intros de' A1 A2 A3 A4 A5 run. split; [exact t_any|]. unfold run. cbv zeta.
  split; [|split]; (split; (eapply t_shown; [vm_compute; reflexivity | assumption | assumption | assumption | assumption | assumption])).
Qed.
Print Assumptions C95_conditions.
