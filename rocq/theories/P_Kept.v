(** C77, C83: what Scan keeps of the specification files, and what it refuses. *)
From Coq Require Import String Ascii List Bool Arith ZArith Lia Permutation.
From Verif Require Import GoStr Json Gabs Container Url Pointer Spec_Clone Spec_Merge
  Spec_Loc Spec_Resolve Path Resolver ScanFn Cmds Spec_Cmds Specs Spec_Specs Pkgs Spec_Pkgs PkgFacts Types Root Spec_Root SchemaJson Scan Tag
  Spec_Types Spec_Schema Spec_Format ScanInv Spec_Scan Spec_Kept ScanKept3 ScanKept4 P_ScanAll.
Import ListNotations.
Local Open Scope string_scope.
Local Open Scope nat_scope.
Local Open Scope list_scope.

(** Scan, with options o, loads the packages ss from a well-formed import graph,
    starting from those numbered [roots], and follows it to the end. *)
Definition loads (a : around) (de : depths) (o : options) (ss : list source) (roots : list nat) : Prop :=
  exists dir, (op_dir o = Some dir \/ op_dir o = None /\ ar_cwd a = Ok dir) /\ ar_load a dir = Ok (ss, map Some roots) /\
    loaded (map so_pkg ss) /\ (forall i, In i roots -> i < length ss) /\ length ss < de_pkgs de.

Section Kept.
Context {F : Type} (pf : string -> option F) (zero : F) (fnum : F -> num).
Local Notation scan := (scan pf zero fnum std_mapping).

(** ** C77 *)
(** If Scan builds a document, every value of every specification file is in it,
    unless it is null, in one of the sections the root configuration governs, or
    reached by a Go reference or an exported schema. *)
Theorem C77_spec_file_survives : forall a ch de l o ss roots d e, any_order ch -> visiting_in_any_order ch ->
  apply_opts l no_options = Ok o -> usual_input pf a o -> usual_root (op_root o) -> Forall ok_default (op_defops o) -> loads a de o ss roots ->
  (forall s name, visited a ss roots s -> exports_name s name -> good_name name) ->
  scan a ch de l = Ok (Some d, e) ->
  forall s doc k q v, visited a ss roots s -> spec_doc_of a s doc -> ~ In NBad (numbers doc) ->
    lookup (SKey k :: q) doc = Some v -> v <> JNull ->
    ~ In k ["info"; "security"; "servers"; "tags"] -> (In k ["components"; "paths"; "externalDocs"] -> exists k' q', q = SKey k' :: q') ->
    (forall s' doc', visited a ss roots s' -> spec_doc_of a s' doc' -> only_local_refs doc' (SKey k :: q)) -> only_local_refs (op_root o) (SKey k :: q) ->
    (forall s' name, visited a ss roots s' -> exports_name s' name -> Spec_Loc.apart [SKey "components"; SKey "schemas"; SKey name] (SKey k :: q)) ->
    kept_at (SKey k :: q) v d.
Proof.
  intros a ch de l o ss roots d e Ho Hv Eo (H1 & H2 & H3 & H4 & H5 & H6) Hur Hdef (dir & L1 & L2 & L3 & L4 & L5) Hn H.
  exact (scan_keeps pf zero fnum a ch de l o dir ss roots d e Ho Hv H1 H2 H3 Eo H4 Hur H5 Hdef L1 L2 L3 L4 L5 Hn H).
Qed.

(** ** C83 *)
(** Two specification files (of one package or of two) that hold different kinds
    of value, or two leaves -- equal or not -- at one location: no document. *)
Theorem C83_overlapping_files_fail : forall a ch de l o ss roots i1 i2 p1 p2 doc1 doc2 path x y r, any_order ch -> visiting_in_any_order ch ->
  apply_opts l no_options = Ok o -> usual_input pf a o -> loads a de o ss roots ->
  visited_at a ss roots i1 -> visited_at a ss roots i2 -> (i1, p1) <> (i2, p2) ->
  spec_file_at a ss i1 p1 doc1 -> spec_file_at a ss i2 p2 doc2 -> ~ In NBad (numbers doc1) -> ~ In NBad (numbers doc2) ->
  at_path path doc1 = Some x -> at_path path doc2 = Some y -> is_obj x && is_obj y = false ->
  scan a ch de l = Ok r -> r = (None, true).
Proof.
  intros a ch de l o ss roots i1 i2 p1 p2 doc1 doc2 path x y r Ho Hv Eo (H1 & H2 & H3 & _) (dir & L1 & L2 & L3 & L4 & L5) V1 V2 N S1 S2 B1 B2 X Y B H.
  exact (scan_clash pf zero fnum a ch de l o dir ss roots i1 i2 p1 p2 doc1 doc2 path x y r Ho Hv H3 Eo L1 L2 L3 L4 L5 V1 V2 N S1 S2 B1 B2 X Y B H).
Qed.
(** Two files that both give the OpenAPI version as a text, as every file has to. *)
Theorem C83_two_spec_files_fail : forall a ch de l o ss roots i1 i2 p1 p2 m1 m2 t1 t2 r, any_order ch -> visiting_in_any_order ch ->
  apply_opts l no_options = Ok o -> usual_input pf a o -> loads a de o ss roots ->
  visited_at a ss roots i1 -> visited_at a ss roots i2 -> (i1, p1) <> (i2, p2) ->
  spec_file_at a ss i1 p1 (JObj m1) -> spec_file_at a ss i2 p2 (JObj m2) -> ~ In NBad (numbers (JObj m1)) -> ~ In NBad (numbers (JObj m2)) ->
  oget "openapi" m1 = Some (JStr t1) -> oget "openapi" m2 = Some (JStr t2) ->
  scan a ch de l = Ok r -> r = (None, true).
Proof.
  intros a ch de l o ss roots i1 i2 p1 p2 m1 m2 t1 t2 r Ho Hv Eo Hi Hl V1 V2 N S1 S2 B1 B2 X Y.
  refine (C83_overlapping_files_fail a ch de l o ss roots i1 i2 p1 p2 _ _ ["openapi"] (JStr t1) (JStr t2) r Ho Hv Eo Hi Hl V1 V2 N S1 S2 B1 B2 _ _ eq_refl); cbn [at_path]; [now rewrite X | now rewrite Y].
Qed.
End Kept.
Print Assumptions C77_spec_file_survives.
Print Assumptions C83_overlapping_files_fail.
Print Assumptions C83_two_spec_files_fail.

(** *** Examples *)
Definition k_doc : json := JObj [("openapi", JStr "3.0.2");
  ("paths", JObj [("/pets", JObj [("get", JObj [("operationId", JStr "list"); ("responses", JObj [("200", JObj [("$ref", JStr "#/components/responses/A%42")])]); ("schema", JObj [("$ref", JStr "go://#/Pet")]); ("x-n", JNum (NInt 5))])])]);
  ("tags", JArr [JObj [("name", JStr "t")]])].
Definition k_files (doc : json) (yml : option json) : filesys := fun p => if String.eqb p "/src/api/oapi.yaml" then Some (Ok (Some doc)) else if String.eqb p "/src/api/oapi.yml" then match yml with Some j => Some (Ok (Some j)) | None => None end else None.
Definition k_around (doc : json) (yml : option json) : around :=
  {| ar_load := ar_load (w_around [["//openapi:schema Pet"]]); ar_cwd := Ok "/src/api"; ar_gopath := "/go"; ar_missing := fun _ => true; ar_files := k_files doc yml; ar_std := fun _ => false; ar_env := w_env |}.
Definition k_choices : choices :=
  {| ch_imports := fun _ _ l => l; ch_strings := sort_s; ch_cmds1 := fun l => l; ch_cmds2 := fun l => l; ch_p1 := fun l => l; ch_p2 := fun l => l; ch_refs := fun _ _ l => l; ch_files := fun l => l; ch_merge := fun _ _ l => l;
     ch_types := fun _ l => l; ch_root := fun _ _ l => l; ch_resolve := fun _ l => l; ch_points := fun l => l; ch_pick := fun _ l => hd ptr_zero l; ch_paths := fun l => l; ch_ops := fun _ l => l; ch_defs := fun l => l; ch_def := fun _ _ _ l => l |}.
Lemma k_orders : any_order k_choices /\ visiting_in_any_order k_choices.
Proof.
  split; [repeat split; intros; cbn; try (intros ? ?); apply Permutation_refl|]. split; [intros; apply Permutation_refl|]. split; [exact sort_s_ok | intros; apply Permutation_refl].
Qed.
Definition k_scan doc yml := scan no_float 0%Z NInt std_mapping (k_around doc yml) k_choices w_depths.
Definition k_root : json := JObj [("info", JObj [("title", JStr "T")])].
Lemma k_input doc yml o : plain_doc doc -> (forall j, yml = Some j -> plain_doc j) -> canon_obj (op_root o) -> op_override o = [] -> op_defops o = [] -> usual_input no_float (k_around doc yml) o.
Proof.
  intros D Y R E1 E2. destruct (w_input [["//openapi:schema Pet"]] [] no_options eq_refl) as (A & B & _); [repeat split; now exists [] | constructor | constructor|].
  split; [exact A|]. split; [exact B|]. split; [|rewrite E1, E2; auto]. intros path c E _. cbn in E. unfold k_files in E. destruct (String.eqb path _); [injection E as <-; exact D|].
  destruct (String.eqb path _); [|discriminate]. destruct yml as [j|]; [|discriminate]. injection E as <-. exact (Y j eq_refl).
Qed.
Lemma k_loads doc yml o : op_dir o = None -> loads (k_around doc yml) w_depths o [w_source [["//openapi:schema Pet"]]] [0].
Proof.
  intro E. exists "/src/api". split; [right; split; [exact E | reflexivity]|]. split; [reflexivity|]. split; [repeat constructor|]. split; [intros i [<-|[]]; cbn; lia | cbn; lia].
Qed.
Lemma k_plain : plain_doc k_doc.
Proof. split; [vm_compute; tauto|]. split; [vm_compute; repeat split; try discriminate|]. eexists. split; reflexivity. Qed.
(** The scan, and the operation's identifier, its local reference (written anew)
    and its number in the result.  The list of tags is lost. *)
Example C77_example : exists o d, apply_opts [WithRootSchema k_root] no_options = Ok o /\ usual_input no_float (k_around k_doc None) o /\ usual_root (op_root o) /\
  loads (k_around k_doc None) w_depths o [w_source [["//openapi:schema Pet"]]] [0] /\ spec_doc_of (k_around k_doc None) (w_source [["//openapi:schema Pet"]]) k_doc /\
  exports_name (w_source [["//openapi:schema Pet"]]) "Pet" /\ good_name "Pet" /\
  k_scan k_doc None [WithRootSchema k_root] = Ok (Some d, true) /\
  (forall q, In q [[SKey "paths"; SKey "/pets"; SKey "get"; SKey "operationId"]; [SKey "paths"; SKey "/pets"; SKey "get"; SKey "x-n"]; [SKey "paths"; SKey "/pets"; SKey "get"; SKey "responses"; SKey "200"; SKey "$ref"]] -> forall q0 t, lookup (q0 ++ [SKey "$ref"]) k_doc = Some (JStr t) -> Spec_Loc.apart q0 q \/ exists r, t = "#" +++ r) /\
  lookup [SKey "paths"; SKey "/pets"; SKey "get"; SKey "operationId"] d = Some (JStr "list") /\
  lookup [SKey "paths"; SKey "/pets"; SKey "get"; SKey "responses"; SKey "200"; SKey "$ref"] d = Some (JStr "#/components/responses/AB") /\
  lookup [SKey "paths"; SKey "/pets"; SKey "get"; SKey "schema"; SKey "$ref"] d = Some (JStr "#/components/schemas/Pet") /\
  lookup [SKey "info"; SKey "title"] d = Some (JStr "T") /\ lookup [SKey "tags"] d = Some (JObj []).
Proof.
  eexists. eexists. split; [reflexivity|]. split; [apply k_input; [exact k_plain | discriminate | | reflexivity | reflexivity]; split; [vm_compute; tauto|]; split; [vm_compute; repeat split; discriminate | eexists; reflexivity]|].
  split; [intros k I S; repeat (destruct I as [<-|I]; [exact S|]); destruct I|]. split; [apply k_loads; reflexivity|]. split; [exists "/src/api", "oapi.yaml"; repeat split; [now left | eexists; eexists; split; reflexivity]|].
  split; [exists ["//openapi:schema Pet"], "//openapi:schema Pet", ":schema Pet"; eexists; split; [now left|]; split; [now left|]; split; [|]|].
  { exists "/"%char, "/"%char, ":schema Pet". split; [reflexivity|]. split; [exists ""; split; [reflexivity | discriminate]|]. split; intros s E; (do 13 (destruct s as [|? s]; [discriminate|]; injection E as _ E || discriminate E)). }
  { apply (den_schema1 "ex.org/m/api" "Pet" "go://ex.org/m/api#/Pet"); [split; [discriminate | reflexivity] | | left; vm_compute; reflexivity]. right. split; [|split; [|reflexivity]]; intros (u & w & E); (do 4 (destruct u as [|? u]; [discriminate|]; injection E as _ E || discriminate E)). }
  split; [repeat split; discriminate|]. split; [vm_compute; reflexivity|]. split; [|repeat split].
  intros q Iq q0 t L.
  assert (D : q0 = [SKey "paths"; SKey "/pets"; SKey "get"; SKey "schema"] \/ exists r, t = "#" +++ r).
  { clear Iq. destruct q0 as [|[k|i] q0]; [discriminate| |discriminate].
    cbn [app lookup k_doc oget] in L. destruct (String.eqb_spec k "openapi") as [-> |_]; [destruct q0 as [|[] ?]; discriminate|]. destruct (String.eqb_spec k "paths") as [-> |_].
    - destruct q0 as [|[k1|i] q0]; [discriminate| |discriminate]. cbn [app lookup oget] in L. destruct (String.eqb_spec k1 "/pets") as [-> |_]; [|discriminate].
      destruct q0 as [|[k2|i] q0]; [discriminate| |discriminate]. cbn [app lookup oget] in L. destruct (String.eqb_spec k2 "get") as [-> |_]; [|discriminate].
      destruct q0 as [|[k3|i] q0]; [discriminate| |discriminate]. cbn [app lookup oget] in L. destruct (String.eqb_spec k3 "operationId") as [-> |_]; [destruct q0 as [|[] ?]; discriminate|].
      destruct (String.eqb_spec k3 "responses") as [-> |_].
      + destruct q0 as [|[k4|i] q0]; [discriminate| |discriminate]. cbn [app lookup oget] in L. destruct (String.eqb_spec k4 "200") as [-> |_]; [|discriminate].
        destruct q0 as [|[k5|i] q0]; [injection L as <-; right; eexists; reflexivity | | discriminate]. cbn [app lookup oget] in L. destruct (String.eqb k5 "$ref"); [|discriminate]. destruct q0 as [|[] ?]; discriminate.
      + destruct (String.eqb_spec k3 "schema") as [-> |_]; [|destruct (String.eqb k3 "x-n"); [|discriminate]; destruct q0 as [|[] ?]; discriminate].
        destruct q0 as [|[k4|i] q0]; [now left | |discriminate]. cbn [app lookup oget] in L. destruct (String.eqb k4 "$ref"); [|discriminate]. destruct q0 as [|[] ?]; discriminate.
    - destruct (String.eqb k "tags"); [|discriminate]. destruct q0 as [|[k1|i] q0]; [discriminate|discriminate|]. cbn [app lookup] in L. destruct i as [|[|?]]; cbn [nth_error] in L; try discriminate.
      destruct q0 as [|[k2|i] q0]; [discriminate| |discriminate]. cbn [app lookup oget] in L. destruct (String.eqb k2 "name"); [|discriminate]. destruct q0 as [|[] ?]; discriminate. }
  destruct D as [-> |D]; [|now right]. left. destruct Iq as [<-|[<-|[<-|[]]]]; (split; intros (r & E); discriminate E).
Qed.
(** A file with a non-finite number (YAML's .inf) is left out altogether, without an error. *)
Theorem C77_infinite_number_refuted : exists doc d, plain_doc doc /\ usual_input no_float (k_around doc None) no_options /\ loads (k_around doc None) w_depths no_options [w_source [["//openapi:schema Pet"]]] [0] /\
  spec_doc_of (k_around doc None) (w_source [["//openapi:schema Pet"]]) doc /\ k_scan doc None [] = Ok (Some d, true) /\
  lookup [SKey "paths"; SKey "/a"; SKey "summary"] doc = Some (JStr "s") /\ lookup [SKey "paths"] d = None.
Proof.
  exists (JObj [("openapi", JStr "3.0.2"); ("paths", JObj [("/a", JObj [("summary", JStr "s"); ("x", JNum NBad)])])]). eexists.
  assert (P : plain_doc (JObj [("openapi", JStr "3.0.2"); ("paths", JObj [("/a", JObj [("summary", JStr "s"); ("x", JNum NBad)])])])) by (split; [vm_compute; tauto|]; split; [vm_compute; repeat split; try discriminate|]; eexists; split; reflexivity).
  split; [exact P|]. split; [apply k_input; [exact P | discriminate | repeat split; now exists [] | reflexivity | reflexivity]|]. split; [apply k_loads; reflexivity|].
  split; [exists "/src/api", "oapi.yaml"; repeat split; [now left | eexists; eexists; split; reflexivity]|]. split; [vm_compute; reflexivity|]. split; reflexivity.
Qed.
Print Assumptions C77_infinite_number_refuted.
(** Two files of one package that agree on the version and share nothing else. *)
Example C83_example : exists doc1 doc2, usual_input no_float (k_around doc1 (Some doc2)) no_options /\ loads (k_around doc1 (Some doc2)) w_depths no_options [w_source [["//openapi:schema Pet"]]] [0] /\
  visited_at (k_around doc1 (Some doc2)) [w_source [["//openapi:schema Pet"]]] [0] 0 /\
  spec_file_at (k_around doc1 (Some doc2)) [w_source [["//openapi:schema Pet"]]] 0 "/src/api/oapi.yaml" doc1 /\
  spec_file_at (k_around doc1 (Some doc2)) [w_source [["//openapi:schema Pet"]]] 0 "/src/api/oapi.yml" doc2 /\
  at_path ["openapi"] doc1 = Some (JStr "3.0.2") /\ at_path ["openapi"] doc2 = Some (JStr "3.0.2") /\ k_scan doc1 (Some doc2) [] = Ok (None, true).
Proof.
  exists (JObj [("openapi", JStr "3.0.2"); ("paths", JObj [("/a", JObj [])])]), (JObj [("components", JObj []); ("openapi", JStr "3.0.2")]).
  split. { apply k_input; [| |repeat split; now exists [] | reflexivity | reflexivity]; [|intros j [= <-]]; (split; [vm_compute; tauto|]; split; [vm_compute; repeat split; try discriminate|]; eexists; split; reflexivity). }
  split; [apply k_loads; reflexivity|]. split; [exists 0; split; [now left|]; apply Spec_Pkgs.reach_here; eexists; split; reflexivity|].
  split; [|split; [|split; [reflexivity|]; split; [reflexivity | vm_compute; reflexivity]]].
  - eexists. exists "/src/api", "oapi.yaml". split; [reflexivity|]. split; [reflexivity|]. split; [now left|]. split; [reflexivity|]. split; [reflexivity|]. eexists. eexists. split; reflexivity.
  - eexists. exists "/src/api", "oapi.yml". split; [reflexivity|]. split; [reflexivity|]. split; [right; now left|]. split; [reflexivity|]. split; [reflexivity|]. eexists. eexists. split; reflexivity.
Qed.
