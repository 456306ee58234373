(** C67, C76, C78-C80: Scan end to end, its options, the JSON form of schemas. *)
From Coq Require Import String Ascii List Bool Arith ZArith Lia Permutation.
From Verif Require Import GoStr Json Gabs Container Url Pointer Spec_Clone Spec_Merge
  Spec_Loc Spec_Resolve Path Resolver ScanFn Cmds Specs Spec_Specs Pkgs Types Root SchemaJson Scan ScanFacts Tag
  Spec_Types Spec_Schema Spec_Format SchemaFacts SchemaJsonFacts ScanTypes ScanInv ScanEnd SchemaJsonApi Spec_Scan.
Import ListNotations.
Local Open Scope string_scope.
Local Open Scope nat_scope.
Local Open Scope list_scope.

Section Scan.
Context {F : Type} (pf : string -> option F) (zero : F) (fnum : F -> num).
Local Notation scan := (scan pf zero fnum std_mapping).

(** ** C67 *)
(** Whatever the surroundings, the options and the choices: if Scan returns at
    all, it returns an error, even when it has built a document. *)
Theorem C67_scan_never_succeeds : forall a ch de l c e, merging_in_any_order ch ->
  scan a ch de l = Ok (c, e) -> e = true /\ (c = None \/ exists d, c = Some (JObj d)).
Proof. intros a ch de l c e. exact (scan_always_errs pf zero fnum std_mapping a ch de l c e). Qed.

(** ** C76 *)
(** The inputs: canonical specification files that are objects with plain keys and
    are not themselves one reference, a canonical root, overrides that are not one
    external reference, struct types whose property names are plain. *)
Definition usual_input (a : around) (o : options) : Prop :=
  flat_env (ar_env a) /\
  (forall dir ss roots, ar_load a dir = Ok (ss, roots) -> forall fs, found_type (ar_env a) ss (TStruct fs) -> handy pf (ar_env a) fs) /\
  (forall path c, ar_files a path = Some (Ok c) -> is_spec_doc c -> plain_doc (c_data c)) /\
  canon_obj (op_root o) /\ Forall (fun kv => tidy (snd kv)) (op_override o) /\ Forall (fun kv => wf (snd kv)) (op_defops o).
Theorem C76_references_come_from_default_operations : forall a ch de l o d e, any_order ch ->
  apply_opts l no_options = Ok o -> usual_input a o -> scan a ch de l = Ok (Some d, e) ->
  forall q text p, ext_ref d q text p -> exists pattern op q', In (pattern, op) (op_defops o) /\ ext_ref op q' text p.
Proof.
  intros a ch de l o d e Ho Eo (H1 & H2 & H3 & H4 & H5 & H6) H. exact (scan_refs pf zero fnum a ch de l o d e Ho H1 H2 H3 Eo H4 H5 H6 H).
Qed.
Theorem C76_no_external_reference : forall a ch de l o d e, any_order ch ->
  apply_opts l no_options = Ok o -> usual_input a o -> (forall pattern op, In (pattern, op) (op_defops o) -> no_ext op) ->
  scan a ch de l = Ok (Some d, e) -> no_ext d.
Proof.
  intros a ch de l o d e Ho Eo Hi Hd H q t p X. destruct (C76_references_come_from_default_operations a ch de l o d e Ho Eo Hi H q t p X) as (pat & op & q' & I & Y). exact (Hd pat op I q' t p Y).
Qed.

(** ** C78 *)
(** Options of the same kind. *)
Definition same_kind (x y : opt) : Prop :=
  match x, y with
  | WithDir _, WithDir _ | WithLog, WithLog | WithOverride _, WithOverride _ | WithDefOps _, WithDefOps _ | WithRootSchema _, WithRootSchema _ => True
  | _, _ => False
  end.
Lemma apply_opts_app l1 l2 : forall r, apply_opts (l1 ++ l2) r = (do r' <- apply_opts l1 r ; apply_opts l2 r').
Proof. induction l1 as [|o l1 IH]; intro r; [reflexivity|]. cbn [app apply_opts]. destruct (apply_opt o r); cbn [bind]; auto. Qed.
Lemma swap2 x y l r : ~ same_kind x y -> apply_opts (x :: y :: l) r = apply_opts (y :: x :: l) r.
Proof. destruct x, y, r; cbn; intro H; try reflexivity; now elim H. Qed.
Lemma last_wins x y l r : same_kind x y -> apply_opts (x :: y :: l) r = apply_opts (y :: l) r.
Proof. destruct x, y, r; cbn; intro H; try destruct H; reflexivity. Qed.
Lemma same_trans x y z : same_kind x y -> same_kind z y -> same_kind x z.
Proof. destruct x, y, z; cbn; tauto. Qed.
Lemma overwritten x l2 y l3 : same_kind x y -> forall r, apply_opts (x :: l2 ++ y :: l3) r = apply_opts (l2 ++ y :: l3) r.
Proof.
  intro K. induction l2 as [|z l2 IH]; intro r; [now apply last_wins|]. cbn [app].
  assert (D : same_kind x z \/ ~ same_kind x z) by (destruct x, z; cbn; tauto). destruct D as [D|D]; [now apply last_wins|]. rewrite (swap2 _ _ _ _ D).
  cbn [apply_opts]. destruct (apply_opt z r) as [r'| | |]; cbn [bind]; try reflexivity. apply IH.
Qed.
Lemma log_nothing l1 l2 : forall r, apply_opts (l1 ++ WithLog :: l2) r = apply_opts (l1 ++ l2) r.
Proof. intro r. rewrite !apply_opts_app. destruct (apply_opts l1 r); reflexivity. Qed.
Lemma failing l : In WithError l -> forall r, apply_opts l r = Err.
Proof.
  induction l as [|o l IH]; intros I r; [destruct I|]. destruct I as [-> |I]; [reflexivity|]. cbn [apply_opts]. destruct o; cbn [apply_opt bind]; auto.
Qed.
Lemma scan_same a ch de l l' : apply_opts l no_options = apply_opts l' no_options -> scan a ch de l = scan a ch de l'.
Proof. intro E. unfold Scan.scan. now rewrite E. Qed.
(** A later option of the same kind replaces an earlier one. *)
Theorem C78_last_wins : forall a ch de l1 x l2 y l3, same_kind x y ->
  scan a ch de (l1 ++ x :: l2 ++ y :: l3) = scan a ch de (l1 ++ l2 ++ y :: l3).
Proof.
  intros a ch de l1 x l2 y l3 K. apply scan_same. rewrite !(apply_opts_app l1). destruct (apply_opts l1 no_options) as [r| | |]; cbn [bind]; try reflexivity. now apply overwritten.
Qed.
(** Options of different kinds may be given in any order. *)
Theorem C78_kinds_commute : forall a ch de l1 x y l2, ~ same_kind x y ->
  scan a ch de (l1 ++ x :: y :: l2) = scan a ch de (l1 ++ y :: x :: l2).
Proof.
  intros a ch de l1 x y l2 K. apply scan_same. rewrite !(apply_opts_app l1). destruct (apply_opts l1 no_options) as [r| | |]; cbn [bind]; try reflexivity. now apply swap2.
Qed.
(** The logger is not used. *)
Theorem C78_log_ignored : forall a ch de l1 l2, scan a ch de (l1 ++ WithLog :: l2) = scan a ch de (l1 ++ l2).
Proof. intros. apply scan_same, log_nothing. Qed.
(** A failing option fails the scan, whatever the surroundings. *)
Theorem C78_failing_option : forall a ch de l, In WithError l -> scan a ch de l = Ok (None, true).
Proof. intros a ch de l I. unfold Scan.scan. rewrite (failing l I). reflexivity. Qed.
(** Packages are loaded from the directory given last and from nowhere else; the
    working directory is not asked for. *)
Definition loading (a : around) (load : string -> res (list source * list (option nat))) (cwd : res string) : around :=
  {| ar_load := load; ar_cwd := cwd; ar_gopath := ar_gopath a; ar_missing := ar_missing a; ar_files := ar_files a; ar_std := ar_std a; ar_env := ar_env a |}.
Theorem C78_directory : forall a load cwd ch de l1 dir l2, (forall d', ~ In (WithDir d') l2) -> load dir = ar_load a dir ->
  scan (loading a load cwd) ch de (l1 ++ WithDir dir :: l2) = scan a ch de (l1 ++ WithDir dir :: l2).
Proof.
  intros a load cwd ch de l1 dir l2 N E. unfold Scan.scan. destruct (apply_opts (l1 ++ WithDir dir :: l2) no_options) as [o| | |] eqn:Eo; try reflexivity. cbn [on_err].
  assert (D : op_dir o = Some dir).
  { rewrite apply_opts_app in Eo. destruct (apply_opts l1 no_options) as [r| | |]; cbn [bind] in Eo; try discriminate. cbn [apply_opts apply_opt bind] in Eo.
    set (r' := {| op_dir := Some dir; op_override := op_override r; op_defops := op_defops r; op_root := op_root r |}) in Eo. assert (D : op_dir r' = Some dir) by reflexivity. clearbody r'. revert r' D Eo.
    induction l2 as [|x l2 IH]; intros r' D Eo; [now injection Eo as <-|]. cbn [apply_opts] in Eo. destruct (apply_opt x r') as [r2| | |] eqn:Ex; try discriminate. cbn [bind] in Eo.
    eapply IH; [intros d' I; apply (N d'); now right | | exact Eo]. destruct x; cbn in Ex; try discriminate Ex; injection Ex as <-; try exact D. now elim (N d); left. }
  rewrite D. cbn [on_err loading ar_load]. rewrite E. destruct (ar_load a dir) as [[ss roots]| | |]; try reflexivity.
Qed.
(** Without one, from the working directory. *)
Theorem C78_working_directory : forall a load ch de l dir, (forall d', ~ In (WithDir d') l) -> ar_cwd a = Ok dir -> load dir = ar_load a dir ->
  scan (loading a load (ar_cwd a)) ch de l = scan a ch de (l ++ [WithDir dir]).
Proof.
  intros a load ch de l dir N C E. unfold Scan.scan. rewrite apply_opts_app. destruct (apply_opts l no_options) as [o| | |] eqn:Eo; try reflexivity. cbn [on_err bind apply_opts apply_opt op_dir].
  assert (D : op_dir o = None).
  { assert (D : op_dir no_options = None) by reflexivity. revert D Eo. generalize no_options as r. induction l as [|x l IH]; intros r D Eo; [now injection Eo as <-|]. cbn [apply_opts] in Eo.
    destruct (apply_opt x r) as [r2| | |] eqn:Ex; try discriminate. cbn [bind] in Eo. eapply IH; [intros d' I; apply (N d'); now right | | exact Eo]. destruct x; cbn in Ex; try discriminate Ex; injection Ex as <-; try exact D. now elim (N d); left. }
  rewrite D. cbn [loading ar_cwd on_err]. rewrite C. cbn [on_err loading ar_load]. rewrite E. destruct (ar_load a dir) as [[ss roots]| | |]; reflexivity.
Qed.

(** ** C79 *)
(** A pointer marshals to its text if the text has no control characters other
    than backspace, tab, newline, form feed and carriage return; otherwise
    marshalling fails. *)
Theorem C79_pointer_json : forall p, (forall j, marshal_ptr p = Ok j <-> plain_key (ptr_string p) /\ j = JStr (ptr_string p)) /\
  (~ plain_key (ptr_string p) -> marshal_ptr p = Err).
Proof. intro p. split; [intro j; apply marshal_ptr_iff | apply marshal_ptr_fails]. Qed.

(** ** C80 *)
(** The JSON form of a scanned schema: which members it has, and their values. *)
Theorem C80_members : forall (s : schema F) m, schema_json fnum s = Ok (JObj m) ->
  (forall k, oget k m <> None -> In k ["$ref"; "additionalProperties"; "deprecated"; "exclusiveMaximum"; "exclusiveMinimum"; "format"; "items"; "maxItems"; "maxLength"; "maxProperties"; "maximum"; "minItems"; "minLength"; "minProperties"; "minimum"; "multipleOf"; "nullable"; "oneOf"; "pattern"; "properties"; "readOnly"; "required"; "type"; "uniqueItems"; "writeOnly"]) /\
  (oget "$ref" m = option_map (fun p => JStr (ptr_string p)) (s_ref s)) /\
  (oget "type" m = if String.eqb (s_type s) "" then None else Some (JStr (s_type s))) /\
  (oget "format" m = if String.eqb (s_format s) "" then None else Some (JStr (s_format s))) /\
  (oget "pattern" m = if String.eqb (s_pattern s) "" then None else Some (JStr (s_pattern s))) /\
  (oget "nullable" m = if s_nullable s then Some (JBool true) else None) /\ (oget "deprecated" m = if s_deprecated s then Some (JBool true) else None) /\
  (oget "readOnly" m = if s_readonly s then Some (JBool true) else None) /\ (oget "writeOnly" m = if s_writeonly s then Some (JBool true) else None) /\
  (oget "uniqueItems" m = if s_unique s then Some (JBool true) else None) /\
  (oget "exclusiveMinimum" m = if s_emin s then Some (JBool true) else None) /\ (oget "exclusiveMaximum" m = if s_emax s then Some (JBool true) else None) /\
  (oget "minimum" m = option_map (fun f => JNum (fnum f)) (s_min s)) /\ (oget "maximum" m = option_map (fun f => JNum (fnum f)) (s_max s)) /\
  (oget "multipleOf" m = option_map (fun f => JNum (fnum f)) (s_mulof s)) /\
  (oget "minLength" m = option_map (fun z => JNum (NInt z)) (s_minlen s)) /\ (oget "maxLength" m = option_map (fun z => JNum (NInt z)) (s_maxlen s)) /\
  (oget "minItems" m = option_map (fun z => JNum (NInt z)) (s_minitems s)) /\ (oget "maxItems" m = option_map (fun z => JNum (NInt z)) (s_maxitems s)) /\
  (oget "minProperties" m = option_map (fun z => JNum (NInt z)) (s_minprops s)) /\ (oget "maxProperties" m = option_map (fun z => JNum (NInt z)) (s_maxprops s)) /\
  (oget "required" m = match s_required s with [] => None | l => Some (JArr (map JStr l)) end) /\
  (match s_items s, oget "items" m with Some x, Some j => schema_json fnum x = Ok j | None, None => True | _, _ => False end) /\
  (match s_addl s, oget "additionalProperties" m with Some x, Some j => schema_json fnum x = Ok j | None, None => True | _, _ => False end) /\
  (match s_oneof s, oget "oneOf" m with [], None => True | l, Some (JArr js) => Forall2 (fun x j => schema_json fnum x = Ok j) l js | _, _ => False end) /\
  (match s_props s, oget "properties" m with [], None => True | l, Some (JObj js) => Forall2 (fun kx kj => fst kj = fst kx /\ schema_json fnum (snd kx) = Ok (snd kj)) l js | _, _ => False end).
Proof. exact (schema_json_members fnum). Qed.
(** There is one, and it is an object, exactly if every reference in it can be marshalled. *)
Theorem C80_exists : forall s : schema F,
  ((exists m, schema_json fnum s = Ok (JObj m)) <-> (forall p, has_ref p s -> plain_key (ptr_string p))) /\
  ((exists m, schema_json fnum s = Ok (JObj m)) \/ schema_json fnum s = Err).
Proof.
  intro s. assert (O : forall j, schema_json fnum s = Ok j -> exists m, j = JObj m).
  { intros j Hj. destruct (schema_json_spec fnum s j Hj) as (r & addl & items & oneof & props & _ & _ & _ & _ & _ & ->). eauto. }
  assert (E : (exists m, schema_json fnum s = Ok (JObj m)) <-> exists j, schema_json fnum s = Ok j).
  { split; [intros (m & H); eauto|]. intros (j & H). destruct (O j H) as (m & ->). eauto. }
  split; [rewrite E; apply schema_json_ok|]. rewrite E. apply schema_json_res.
Qed.
End Scan.
Print Assumptions C67_scan_never_succeeds.
Print Assumptions C76_references_come_from_default_operations.
Print Assumptions C76_no_external_reference.
Print Assumptions C78_last_wins.
Print Assumptions C78_kinds_commute.
Print Assumptions C78_log_ignored.
Print Assumptions C78_failing_option.
Print Assumptions C78_directory.
Print Assumptions C78_working_directory.
Print Assumptions C79_pointer_json.
Print Assumptions C80_members.
Print Assumptions C80_exists.

(** *** A world to scan: one package with a specification file, a struct type and
    an exported schema. *)
Definition w_env : genv :=
  [{| d_pkg := Some "ex.org/m/api"; d_name := "Pet"; d_under := TStruct [({| f_name := "ID"; f_tag := ""; f_emb := false |}, TBasic KString); ({| f_name := "Next"; f_tag := ""; f_emb := false |}, TPtr (TNamed 0))] |}].
Definition w_doc : json := JObj [("info", JObj [("title", JStr "Pets")]); ("openapi", JStr "3.0.2");
  ("paths", JObj [("/pets", JObj [("get", JObj [("schema", JObj [("$ref", JStr "go://#/Pet")])])])])].
Definition w_files : filesys := fun p => if String.eqb p "/src/api/oapi.yaml" then Some (Ok (Some w_doc)) else None.
Definition w_source (groups : list (list string)) : source :=
  {| so_pkg := {| g_path := "ex.org/m/api"; g_errors := 0; g_imports := [] |}; so_types := "ex.org/m/api"; so_groups := groups;
     so_module := Some {| m_path := "ex.org/m"; m_dir := "/src" |};
     so_scope := fun n => if String.eqb n "Pet" then Some {| o_pkg := Some "ex.org/m/api"; o_name := "Pet"; o_type := TNamed 0 |} else None |}.
Definition w_around (groups : list (list string)) : around :=
  {| ar_load := fun d => if String.eqb d "/src/api" then Ok ([w_source groups], [Some 0]) else Err; ar_cwd := Ok "/src/api"; ar_gopath := "/go"; ar_missing := fun _ => true; ar_files := w_files; ar_std := fun _ => false; ar_env := w_env |}.
Definition w_choices : choices :=
  {| ch_imports := fun _ _ l => l; ch_strings := fun l => l; ch_cmds1 := fun l => l; ch_cmds2 := fun l => l; ch_p1 := fun l => l; ch_p2 := fun l => l; ch_refs := fun _ _ l => l; ch_files := fun l => l; ch_merge := fun _ _ l => l;
     ch_types := fun _ l => l; ch_root := fun _ _ l => l; ch_resolve := fun _ l => l; ch_points := fun l => l; ch_pick := fun _ l => hd ptr_zero l; ch_paths := fun l => l; ch_ops := fun _ l => l; ch_defs := fun l => l; ch_def := fun _ _ _ l => l |}.
Definition w_depths : depths := {| de_pkgs := 10; de_walk := 20; de_type := 20; de_fields := 20; de_resolve := 20 |}.
Definition no_float (s : string) : option Z := None.
Definition w_scan groups := scan no_float 0%Z NInt std_mapping (w_around groups) w_choices w_depths.
Definition w_defops : list (string * json) := [("/pets", JObj [("x", JObj [("$ref", JStr "go://ex.org/m/api#/Pet")])])].
Lemma w_any_order : any_order w_choices.
Proof. repeat split; intros; cbn; try (intros ? ?); apply Permutation_refl. Qed.
Lemma w_trail t0 toks ts t : trail w_env t0 toks ts t -> In t0 [TNamed 0; TBasic KString; TPtr (TNamed 0)] -> In t [TNamed 0; TBasic KString; TPtr (TNamed 0)].
Proof.
  induction 1 as [|t tok t1 toks ts t' S R IH]; intro I; [exact I|]. apply IH. clear -S I. destruct I as [<-|[<-|[<-|[]]]]; inversion S; subst; cbn in H; try discriminate.
  - injection H as <-. destruct H0 as [[= <- <-]|[[= <- <-]|[]]]; cbn; tauto.
  - injection H as <-. cbn; tauto.
Qed.
Lemma w_tag (i : finfo) (t : gty) tg : In (i, t) [({| f_name := "ID"; f_tag := ""; f_emb := false |}, TBasic KString); ({| f_name := "Next"; f_tag := ""; f_emb := false |}, TPtr (TNamed 0))] ->
  kept no_float i tg -> (forall fs', ~ inlined w_env i t tg fs') /\ t_name tg = "".
Proof.
  intros I (P & _). destruct I as [[= <- <-]|[[= <- <-]|[]]]; vm_compute in P; injection P as <-; (split; [|reflexivity]); intros fs' (_ & [X|(_ & X)]); discriminate.
Qed.
Lemma w_handy fs : d_under (hd {| d_pkg := None; d_name := ""; d_under := TOther 0 |} w_env) = TStruct fs -> handy no_float w_env fs.
Proof.
  intros [= <-]. split.
  - intros x V. inversion V as [fs i t tg I K N|fs i t tg fs' y I K N V']; subst; destruct (w_tag _ _ _ I K) as (A & B); [|now elim (A fs')].
    unfold prop_name. cbn [sf_tag sf_info]. rewrite B. destruct I as [[= <- <-]|[[= <- <-]|[]]]; repeat split; discriminate.
  - intros l P. assert (L : length l <= 2); [|lia].
    assert (G : forall p fs l, in_place no_float w_env p fs l -> incl fs [({| f_name := "ID"; f_tag := ""; f_emb := false |}, TBasic KString); ({| f_name := "Next"; f_tag := ""; f_emb := false |}, TPtr (TNamed 0))] -> length l <= length fs); [|exact (G _ _ _ P (fun _ I => I))].
    induction 1 as [p|p i t fs l0 N R IH|p i t tg fs l0 K N R IH|p i t tg fs' fs l0 K N J R IH|p i t tg fs' l' fs l0 K N J R' IH' R IH]; intro I; cbn [length]; try lia;
      (assert (I' : incl fs [({| f_name := "ID"; f_tag := ""; f_emb := false |}, TBasic KString); ({| f_name := "Next"; f_tag := ""; f_emb := false |}, TPtr (TNamed 0))]) by (intros z Z; apply I; now right)); specialize (IH I'); try lia.
    all: destruct (w_tag i t tg (I _ (or_introl eq_refl)) K) as (A & _); now elim (A fs').
Qed.
Lemma w_input groups l o : apply_opts l no_options = Ok o -> canon_obj (op_root o) -> Forall (fun kv => tidy (snd kv)) (op_override o) -> Forall (fun kv => wf (snd kv)) (op_defops o) -> usual_input no_float (w_around groups) o.
Proof.
  intros _ H1 H2 H3. split; [repeat constructor; discriminate|]. split; [|split; [|auto]].
  - intros dir ss roots E fs (s & name & ob & t & Is & Es & (toks & ts & R) & U). cbn in E. destruct (String.eqb dir "/src/api"); [|discriminate]. injection E as <- <-. destruct Is as [<-|[]]. cbn in Es. destruct (String.eqb name "Pet"); [|discriminate]. injection Es as <-. cbn [o_type] in R.
    apply w_trail in R; [|now left]. destruct R as [<-|[<-|[<-|[]]]]; try discriminate U. exact (w_handy fs U).
  - intros path c E _. cbn in E. unfold w_files in E. destruct (String.eqb path _); [|discriminate]. injection E as <-. cbn [c_data].
    split; [vm_compute; tauto|]. split; [vm_compute; repeat split; try discriminate|]. eexists. split; reflexivity.
Qed.

Definition w_final (oneof : list json) : json := JObj [("info", JObj [("title", JStr "Pets")]); ("openapi", JStr "3.0.2"); ("paths", JObj [("/pets", JObj [("get", JObj [("schema", JObj [("properties", JObj
  [("ID", JObj [("type", JStr "string")]); ("Next", JObj [("oneOf", JArr oneof)])]); ("type", JStr "object")])])])])].
(** Scan builds the document, and returns an error with it. *)
Example C67_example : merging_in_any_order w_choices /\
  w_scan [] [] = Ok (Some (w_final [JObj []; JObj [("nullable", JBool true); ("type", JStr "object")]]), true).
Proof. split; [apply w_any_order | vm_compute; reflexivity]. Qed.
(** The hypotheses of C76 hold of a scan whose specification file does have an
    external reference; the type is exported. *)
Example C76_example : exists o, apply_opts [WithDir "/src/api"] no_options = Ok o /\ any_order w_choices /\ usual_input no_float (w_around [["//openapi:schema Pet"]]) o /\
  (forall pattern op, In (pattern, op) (op_defops o) -> no_ext op) /\ (exists p, ext_ref w_doc [SKey "paths"; SKey "/pets"; SKey "get"; SKey "schema"] "go://#/Pet" p) /\
  exists d, w_scan [["//openapi:schema Pet"]] [WithDir "/src/api"] = Ok (Some d, true) /\
    lookup [SKey "paths"; SKey "/pets"; SKey "get"; SKey "schema"] d = Some (JObj [("$ref", JStr "#/components/schemas/Pet")]) /\
    lookup [SKey "components"; SKey "schemas"; SKey "Pet"; SKey "properties"; SKey "Next"] d =
      Some (JObj [("oneOf", JArr [JObj [("$ref", JStr "#/components/schemas/Pet")]; JObj [("nullable", JBool true); ("type", JStr "object")]])]).
Proof.
  eexists. split; [reflexivity|]. split; [apply w_any_order|]. split.
  { eapply (w_input _ [WithDir "/src/api"]); [reflexivity | | constructor | constructor]. repeat split. now exists []. }
  split; [intros ? ? []|]. split; [eexists; repeat split|]. eexists. split; [vm_compute; reflexivity|]. split; reflexivity.
Qed.
(** An external reference in a default operation is in the result. *)
Theorem C76_default_operation_refuted : exists a ch de l o d q text p, any_order ch /\ apply_opts l no_options = Ok o /\ usual_input no_float a o /\
  scan no_float 0%Z NInt std_mapping a ch de l = Ok (Some d, true) /\ ext_ref d q text p.
Proof.
  exists (w_around []), w_choices, w_depths, [WithDefOps w_defops]. do 5 eexists. split; [apply w_any_order|]. split; [reflexivity|]. split.
  { eapply (w_input _ [WithDefOps w_defops]); [reflexivity | repeat split; now exists [] | constructor | constructor; [vm_compute; tauto | constructor]]. }
  split; [vm_compute; reflexivity|]. instantiate (3 := [SKey "paths"; SKey "/pets"; SKey "get"; SKey "x"]). repeat split.
Qed.
Print Assumptions C76_default_operation_refuted.
Example C78_example : w_scan [] [WithDir "/nowhere"; WithLog; WithDir "/src/api"] = w_scan [] [] /\ w_scan [] [WithDir "/nowhere"] = Ok (None, true) /\ w_scan [] [WithDir "/src/api"; WithError] = Ok (None, true).
Proof. split; [|split]; vm_compute; reflexivity. Qed.
Example C79_example : (exists p, ptr_parse "go://ex.org/a#/A/b" = Ok p /\ marshal_ptr p = Ok (JStr "go://ex.org/a#/A/b")) /\
  marshal_ptr {| p_url := url_zero; p_frag := [str1 (ascii_of_nat 1)] |} = Err.
Proof. split; [eexists; split; vm_compute; reflexivity | vm_compute; reflexivity]. Qed.
Example C80_example : exists p, ptr_parse "go://a#/B" = Ok p /\
  schema_json (F := Z) NInt (with_props [("x", with_ref (Some p) schema_zero)] (with_required ["x"] (with_min (Some 0%Z) (with_type "object" schema_zero)))) =
  Ok (JObj [("minimum", JNum (NInt 0)); ("properties", JObj [("x", JObj [("$ref", JStr "go://a#/B")])]); ("required", JArr [JStr "x"]); ("type", JStr "object")]).
Proof. eexists. split; vm_compute; reflexivity. Qed.
