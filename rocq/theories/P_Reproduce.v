(** C99: running the command again gives the same file. *)
From Coq Require Import String Ascii List Bool Arith ZArith Lia Permutation.
From Verif Require Import GoStr Json JsonFacts Gabs Container Spec_Sort ContFacts Url Pointer PtrFacts Spec_Ptr Spec_Clone Spec_Merge MergeFacts MergeLaws
  Spec_Loc Spec_Resolve Spec_ResolveOk ResolverOk Path Route Spec_Route Resolver ScanFn Cmds Spec_Cmds Specs Spec_Specs Pkgs Spec_Pkgs PkgFacts Types TypesFacts DenoteFacts Root Spec_Root SchemaJson Tag Spec_Tag
  Spec_Types Spec_Schema Spec_Format Scan ScanInv ScanFacts Spec_Scan Spec_Kept P_ScanAll P_Kept P_Types P_Adds Spec_Ends ScanDepth ScanEnds P_Ends Spec_ScanOk ScanOk P_ScanOk Spec_Same Spec_SameAll ScanSame4 ScanSame5 P_Same P_SameAll
  Shape Config Spec_Config ConfigScan P_Shape P_Format P_ConfigScan P_Container JsonText FormatFacts Cli CliFacts P_Cli Spec_Reproduce.
Import ListNotations.
Local Open Scope string_scope.
Local Open Scope nat_scope.
Local Open Scope list_scope.

(** The order of the maps shows in the text only with two or more other members. *)
Lemma others_filter m : length (filter (fun e : string * json => negb (listed ["openapi"; "info"; "components"; "paths"] e)) m) = length (others (JObj m)).
Proof. cbn [others]. induction m as [|[k v] m IH]; [reflexivity|]. cbn [map fst filter]. unfold listed at 1. cbn [fst]. destruct (negb (existsb _ _)); cbn [length]; now rewrite IH. Qed.
Lemma format_same pn rd yaml ord srt1 srt2 ord' srt1' srt2' f m : (forall l, Permutation (ord l) l) -> is_item_sort srt1 -> is_item_sort srt2 ->
  (forall l, Permutation (ord' l) l) -> is_item_sort srt1' -> is_item_sort srt2' -> wf (JObj m) -> length (others (JObj m)) <= 1 ->
  format pn rd yaml ord srt1 srt2 f (JObj m) = format pn rd yaml ord' srt1' srt2' f (JObj m).
Proof.
  intros P1 I1 I2 P2 J1 J2 W L. rewrite <- others_filter in L. apply wf_obj in W as (Sm & _).
  assert (E : sort_entries ord srt1 srt2 JsonText.oapi_order m = sort_entries ord' srt1' srt2' JsonText.oapi_order m).
  { apply sort_entries_unique; auto. repeat constructor; cbn; intuition discriminate. }
  unfold format, marshal_sorted. rewrite E. reflexivity.
Qed.
Lemma format_ends pn rd yaml ord srt1 srt2 f j : In f ["json"; "json:pretty"; "go"] -> format pn rd yaml ord srt1 srt2 f j <> Panic /\ format pn rd yaml ord srt1 srt2 f j <> OutOfFuel.
Proof.
  intro Hf. assert (G : (exists t, marshal_sorted pn rd ord srt1 srt2 JsonText.oapi_order j = Ok t) \/ marshal_sorted pn rd ord srt1 srt2 JsonText.oapi_order j = Err).
  { assert (Gi : forall l, (exists ts, marshal_items pn l = Ok ts) \/ marshal_items pn l = Err).
    { induction l as [|[k x] l IH]; [left; now exists []|]. cbn [marshal_items]. destruct (marshal_cases pn x) as [(t & ->)| ->]; cbn [bind]; [|now right]. destruct IH as [(ts & ->)| ->]; cbn [bind]; eauto. }
    destruct j as [|b|n|s|l|m]; try apply marshal_cases. cbn [marshal_sorted]. unfold marshal_slice. destruct (Gi (sort_entries ord srt1 srt2 JsonText.oapi_order m)) as [(ts & ->)| ->]; cbn [bind]; [|now right].
    unfold compact. destruct (read_json rd _); eauto. }
  unfold format. destruct Hf as [<-|[<-|[<-|[]]]]; cbn; destruct G as [(t & ->)| ->]; cbn; split; discriminate.
Qed.

Section Again.
Context (raw : json -> string) (big : Z -> option Z) (partial : json -> gval) {F : Type} (pf : string -> option F) (zero : F) (fnum : F -> num).
Local Notation cli_scan := (cli_scan raw big partial pf zero fnum).

(** ** C99 *)
(** If the conditions of C98 hold for the options the configuration stands for,
    every run of the command that can replace its output file ends with the same
    text in it, whatever the order of maps in it, unless two or more root members
    are not among openapi, info, components and paths. *)
Theorem C99_same_file : forall a ch1 ch2 c l o ss roots,
  cli_options (cf_dir c) (config_value raw big partial c) = Ok l -> asks_file (cf_output c) -> In (cf_format c) ["json"; "json:pretty"; "go"] ->
  any_choices ch1 -> any_choices ch2 -> apply_opts l no_options = Ok o ->
  sound_input pf a o ss roots -> references_manageable a o ss roots -> in_order pf fnum zero a o ss roots -> one_place a ss roots -> one_default a o ss roots ->
  exports_cycles pf a o ss roots -> names_apart a ss roots ->
  exists de d,
    (forall ch de', ch = ch1 \/ ch = ch2 -> de_pkgs de <= de_pkgs de' -> de_walk de <= de_walk de' -> de_type de <= de_type de' -> de_fields de <= de_fields de' -> de_resolve de <= de_resolve de' ->
       cli_scan a ch de' c = Ok (Some d, true)) /\
    (length (others d) <= 1 -> forall pn rd yaml, exists text,
       forall ch de', ch = ch1 \/ ch = ch2 -> de_pkgs de <= de_pkgs de' -> de_walk de <= de_walk de' -> de_type de <= de_type de' -> de_fields de <= de_fields de' -> de_resolve de <= de_resolve de' ->
       forall os level (bad : bool) ord srt1 srt2 w, (forall l, Permutation (ord l) l) -> is_item_sort srt1 -> is_item_sort srt2 -> lets_write os w (cf_output c) ->
       exists ws, run os level (c, bad) (cli_scan a ch de') (format pn rd yaml ord srt1 srt2) w = Ok ws /\ w_files (hd_world w ws) (cf_output c) = Some text).
Proof.
  intros a ch1 ch2 c l o ss roots El Hp Hf H1 H2 H3 H4 H5 H6 H7 H8 H9 H10. destruct (same_scans pf zero fnum a ch1 ch2 l o ss roots H1 H2 H3 H4 H5 H6 H7 H8 H9 H10) as (de & m & W & Hm).
  assert (G : forall ch de', ch = ch1 \/ ch = ch2 -> de_pkgs de <= de_pkgs de' -> de_walk de <= de_walk de' -> de_type de <= de_type de' -> de_fields de <= de_fields de' -> de_resolve de <= de_resolve de' ->
    cli_scan a ch de' c = Ok (Some (JObj m), true)).
  { intros ch de' Ic A1 A2 A3 A4 A5. destruct (Hm de' A1 A2 A3 A4 A5) as (X1 & X2). unfold ConfigScan.cli_scan. rewrite El. cbn [bind]. destruct Ic as [-> | ->]; assumption. }
  exists de, (JObj m). split; [exact G|]. intros L pn rd yaml.
  exists (match format pn rd yaml (fun l => l) isort isort (cf_format c) (JObj m) with Ok t => t | _ => "" end).
  intros ch de' Ic A1 A2 A3 A4 A5 os level bad ord srt1 srt2 w Po S1 S2 (Op & Rm & Pc).
  destruct (run_file os level c bad (cli_scan a ch de') (format pn rd yaml ord srt1 srt2) w Hp (Some (JObj m)) true (G ch de' Ic A1 A2 A3 A4 A5)) as (ws & R & En & _).
  - intros t <-. now apply format_ends.
  - exists ws. split; [exact R|]. destruct (En Op (Pc _)) as (E & _). rewrite (E Rm). unfold output_data. cbn [c_data].
    rewrite (format_same pn rd yaml ord srt1 srt2 (fun l => l) isort isort (cf_format c) m Po S1 S2 (fun l => Permutation_refl l) isort_ok isort_ok W L). reflexivity.
Qed.

(** With more root members the text may differ, but not what it says: reading the
    JSON back gives the document that was scanned. *)
Theorem C99_same_document : forall a ch1 ch2 c l o ss roots,
  cli_options (cf_dir c) (config_value raw big partial c) = Ok l -> asks_file (cf_output c) -> In (cf_format c) ["json"; "json:pretty"] ->
  any_choices ch1 -> any_choices ch2 -> apply_opts l no_options = Ok o ->
  sound_input pf a o ss roots -> references_manageable a o ss roots -> in_order pf fnum zero a o ss roots -> one_place a ss roots -> one_default a o ss roots ->
  exports_cycles pf a o ss roots -> names_apart a ss roots ->
  exists de d, forall pn rd yaml, (forall n, In n (numbers d) -> exists t, pn n = Some t /\ is_number t = true /\ rd t = Some n) -> plain_root d ->
    forall ch de', ch = ch1 \/ ch = ch2 -> de_pkgs de <= de_pkgs de' -> de_walk de <= de_walk de' -> de_type de <= de_type de' -> de_fields de <= de_fields de' -> de_resolve de <= de_resolve de' ->
      cli_scan a ch de' c = Ok (Some d, true) /\
      forall os level (bad : bool) ord srt1 srt2 w, (forall l, Permutation (ord l) l) -> is_item_sort srt1 -> is_item_sort srt2 -> lets_write os w (cf_output c) ->
      exists ws text, run os level (c, bad) (cli_scan a ch de') (format pn rd yaml ord srt1 srt2) w = Ok ws /\ w_files (hd_world w ws) (cf_output c) = Some text /\ read_json rd text = Some d.
Proof.
  intros a ch1 ch2 c l o ss roots El Hp Hf H1 H2 H3 H4 H5 H6 H7 H8 H9 H10. destruct (same_scans pf zero fnum a ch1 ch2 l o ss roots H1 H2 H3 H4 H5 H6 H7 H8 H9 H10) as (de & m & W & Hm).
  exists de, (JObj m). intros pn rd yaml Nm Pr ch de' Ic A1 A2 A3 A4 A5.
  assert (G : cli_scan a ch de' c = Ok (Some (JObj m), true)) by (destruct (Hm de' A1 A2 A3 A4 A5) as (X1 & X2); unfold ConfigScan.cli_scan; rewrite El; cbn [bind]; destruct Ic as [-> | ->]; assumption).
  split; [exact G|]. intros os level bad ord srt1 srt2 w Po S1 S2 (Op & Rm & Pc).
  assert (T : exists t, format pn rd yaml ord srt1 srt2 (cf_format c) (JObj m) = Ok t /\ read_json rd t = Some (JObj m)).
  { destruct (C20_json_reads_back pn rd yaml ord srt1 srt2 Po S1 S2 (JObj m) W Nm Pr) as (t & p & T1 & T2 & T3 & T4). destruct Hf as [<-|[<-|[]]]; eauto. }
  destruct T as (t & Et & Rt). destruct (run_file os level c bad (cli_scan a ch de') (format pn rd yaml ord srt1 srt2) w Hp (Some (JObj m)) true G) as (ws & R & En & _).
  - intros x <-. cbn [c_data]. rewrite Et. split; discriminate.
  - exists ws, t. split; [exact R|]. split; [|exact Rt]. destruct (En Op (Pc _)) as (E & _). rewrite (E Rm). unfold output_data. cbn [c_data]. now rewrite Et.
Qed.
End Again.
Print Assumptions C99_same_file.
Print Assumptions C99_same_document.

(** *** Example: the world of C94 and an empty configuration. *)
Definition r_config : config := {| cf_path := ""; cf_dir := "/src/api"; cf_format := "json"; cf_output := "/w/api.json"; cf_doc := JObj [] |}.
Definition r_opts : options := {| op_dir := Some "/src/api"; op_override := []; op_defops := []; op_root := JObj [] |}.
Lemma r_options : cli_options (cf_dir r_config) (config_value raw0 exact_big (fun _ => GNil) r_config) = Ok [WithLog; WithDir "/src/api"; WithRootSchema (JObj [])] /\
  apply_opts [WithLog; WithDir "/src/api"; WithRootSchema (JObj [])] no_options = Ok r_opts.
Proof. split; vm_compute; reflexivity. Qed.
Lemma r_sound groups : In groups [[]; v_cmd] -> sound_input no_float (v_around groups v_doc) r_opts [w_source groups] [0].
Proof.
  intro Ig. destruct (e_sound groups v_doc v_options2 _ Ig (or_introl eq_refl) (or_intror (or_introl eq_refl)) eq_refl) as ((A & B & C & _) & _ & (dir & L1 & L2 & L3 & L4) & S1 & S2 & S3 & S4 & _ & S6 & S7).
  split; [refine (conj A (conj B (conj C (conj _ (conj _ _)))))|].
  - split; [vm_compute; tauto|]. split; [vm_compute; tauto|]. eexists; reflexivity.
  - constructor.
  - constructor.
  - split; [intros k I X; repeat (destruct I as [<-|I]; [exact X|]); destruct I|].
    split; [exists dir; destruct L1 as [X|(_ & E)]; [discriminate X|]; injection E as <-; split; [now left|]; auto|]. split; [exact S1|]. split; [exact S2|]. split; [exact S3|]. split; [exact S4|].
    split; [split; [constructor | intros pat op m path []]|]. split; [exact S6 | exact S7].
Qed.
Lemma r_manageable groups : In groups [[]; v_cmd] -> references_manageable (v_around groups v_doc) r_opts [w_source groups] [0].
Proof.
  intro Ig. destruct (e_manageable groups v_doc v_options2 _ Ig (or_introl eq_refl) (or_intror (or_introl eq_refl)) eq_refl) as (A & _ & _).
  split; [exact A|]. split; [|intros k j q t p []]. intros q t p (L & _). apply refs_of_all in L. destruct L.
Qed.
Lemma r_refs q t p : ext_ref o_abs q t p -> q = SKey "paths" :: v_at /\ ptr_string p = "go://ex.org/m/api#/Pet" /\ u_scheme (p_url p) = "go".
Proof. intros (L & P & _). apply refs_of_all in L. vm_compute in L. destruct L as [[= <- <-]|[]]. vm_compute in P. injection P as <-. vm_compute. auto. Qed.
Lemma r_resolvable : resolvable o_abs.
Proof.
  refine (conj _ (conj _ (conj _ (conj _ _)))).
  - left. eexists. reflexivity.
  - intros [].
  - split; [vm_compute; tauto|]. split; [vm_compute; repeat split; discriminate|]. intros t p (L & _). discriminate L.
  - intros q q' t p t' (L & _) L'. apply refs_of_all in L. rewrite app_assoc in L'. apply refs_of_all in L'. vm_compute in L, L'. destruct L as [[= <- <-]|[]]. destruct L' as [E|[]]. injection E as E _. destruct q' as [|? ?]; [reflexivity | discriminate E].
  - intros q t L. apply refs_of_all in L. vm_compute in L. destruct L as [[= <- <-]|[]]. eexists. vm_compute. reflexivity.
Qed.
Lemma r_in_order groups : In groups [[]; v_cmd] -> in_order no_float NInt 0%Z (v_around groups v_doc) r_opts [w_source groups] [0].
Proof.
  intro Ig. assert (Id : In v_doc [v_doc; v_plain]) by now left. destruct (o_in_order groups _ Ig eq_refl) as (Cm & _).
  assert (V0 : visited_at (v_around groups v_doc) [w_source groups] [0] 0) by (exists 0; split; [now left | constructor; eexists; split; reflexivity]).
  split; [exact Cm|]. exists o_abs, o_abs. refine (conj _ (conj _ (conj r_resolvable (conj _ (conj _ _))))).
  - exists (fun _ => [o_abs]). split.
    + intros i s Vi Es. rewrite (o_at _ _ _ Vi) in Es. injection Es as <-. exists "/src/api". split; [vm_compute; reflexivity|].
      apply (da_spec _ _ _ v_doc); [reflexivity | eexists; eexists; split; reflexivity| |apply da_none; [reflexivity|]; apply da_none; [reflexivity | constructor]].
      exists (fun _ => "go://ex.org/m/api#/Pet"). split; [|vm_compute; reflexivity]. intros q t L. apply refs_of_all in L. vm_compute in L. destruct L as [[= <- <-]|[]]. eexists. split; [vm_compute; reflexivity|]. left. repeat split.
    + intros vis l Hv Pl. rewrite (o_list _ _ _ V0 Hv) in Pl. cbn in Pl. apply Permutation_sym, Permutation_length_1_inv in Pl. subst l. econstructor; [|constructor]. apply RootFacts.merged_into_empty. vm_compute. tauto.
  - eexists _, _, _. split; [vm_compute; reflexivity|]. split; [reflexivity|]. split; [reflexivity|]. split; [vm_compute; tauto|]. split; [reflexivity|].
    constructor; [left; repeat split|]. constructor; [left; repeat split|]. constructor; [right; split; [intros (X & _); discriminate X | apply RootFacts.merged_nothing; vm_compute; tauto]|]. repeat (constructor; [left; repeat split|]). constructor.
  - split; [discriminate|]. split; [constructor|].
    assert (K : forall T, in_use no_float (v_around groups v_doc) r_opts [w_source groups] [0] o_abs T -> In T [TStruct o_fields; TBasic KString; TPtr (TNamed 0)]).
    { intros T [p T' _ _ Kn|T' T'' txt _ _ Kn _]; now apply o_known in Kn. }
    split; [|split].
    + intros p (j & q & t & [-> |[]] & X). right. destruct (r_refs q t p X) as (_ & Et & Es). split; [exact Es|]. exists (TStruct o_fields), {| o_pkg := Some "ex.org/m/api"; o_name := "Pet"; o_type := TNamed 0 |}, "ex.org/m/api". split; [|split; [reflexivity|left; exists [], [], (TNamed 0); split; [constructor|]; split; [constructor|]; split; [reflexivity | exact Et]]].
      assert (Sd : spec_doc_of (v_around groups v_doc) (w_source groups) v_doc) by (exists "/src/api", "oapi.yaml"; repeat split; [now left | eexists; eexists; split; reflexivity]).
      eexists _, _, "Pet", []. split; [apply v_visits|]. split; [right; exists (w_source groups), v_doc, (SKey "paths" :: v_at), "go://#/Pet"; split; [apply v_visits|]; split; [exact Sd|]; split; [reflexivity|]; eexists; split; [vm_compute; reflexivity | reflexivity]|]. repeat split.
    + intros T U. apply o_schema, K, U.
    + intros T T' txt _ _ Kn. now apply o_known in Kn.
  - intros s n _ _. split; [vm_compute; auto|]. intros q t p X. destruct (r_refs q t p X) as (-> & _). split; intros (r & E); discriminate E.
  - split; [right; eexists _, _; split; [reflexivity|]; split; [reflexivity|]; intros p x E; cbn in E; destruct (String.eqb p "/pets"); [injection E as <-; now left | discriminate E]|]. split.
    + intros q t p X. destruct (r_refs q t p X) as (-> & _). intros path m u E. discriminate E.
    + intros pat op path m v [].
Qed.
Lemma r_cycles : exports_cycles no_float (v_around v_cmd v_doc) r_opts [w_source v_cmd] [0] /\ names_apart (v_around v_cmd v_doc) [w_source v_cmd] [0].
Proof.
  assert (Ig : In v_cmd [[]; v_cmd]) by (right; now left). destruct C98_example as (o & _ & _ & Na & Xp & _). split; [|exact Na].
  intros t t' _ L _. assert (Q : t' = loc_text "ex.org/m/api" ["Pet"]); [|now rewrite Q].
  assert (One : forall u u', leads_to no_float (v_around v_cmd v_doc) r_opts [w_source v_cmd] [0] u u' -> u' = loc_text "ex.org/m/api" ["Pet"]).
  { intros u u' [(x & q & r & p & E & _)|(_ & T & T' & p & _ & _ & B & N & ->)]; [discriminate E | exact (s_nearest v_cmd T' p Ig B N)]. }
  destruct L as [t' L|t1 t' L1 L]; exact (One _ _ L).
Qed.
Lemma r_writes : lets_write ex_os ex_world (cf_output r_config).
Proof. split; [reflexivity|]. split; [now right|]. intro t. reflexivity. Qed.

(** All conditions hold; the document has no other members; its text. *)
Example C99_example : asks_file (cf_output r_config) /\ In (cf_format r_config) ["json"; "json:pretty"] /\ any_choices e_choices /\
  sound_input no_float (v_around v_cmd v_doc) r_opts [w_source v_cmd] [0] /\ references_manageable (v_around v_cmd v_doc) r_opts [w_source v_cmd] [0] /\ in_order no_float NInt 0%Z (v_around v_cmd v_doc) r_opts [w_source v_cmd] [0] /\
  one_place (v_around v_cmd v_doc) [w_source v_cmd] [0] /\ one_default (v_around v_cmd v_doc) r_opts [w_source v_cmd] [0] /\
  exports_cycles no_float (v_around v_cmd v_doc) r_opts [w_source v_cmd] [0] /\ names_apart (v_around v_cmd v_doc) [w_source v_cmd] [0] /\ lets_write ex_os ex_world (cf_output r_config) /\
  match cli_scan raw0 exact_big (fun _ => GNil) no_float 0%Z NInt (v_around v_cmd v_doc) e_choices w_depths r_config with
  | Ok (Some d, true) => length (others d) <= 1 /\ numbers d = [] /\
      match run ex_os "nolog" (r_config, false) (cli_scan raw0 exact_big (fun _ => GNil) no_float 0%Z NInt (v_around v_cmd v_doc) e_choices w_depths) (format (fun _ => None) (fun _ => None) (fun _ => Err) (fun l => l) isort isort) ex_world with
      | Ok ws => exists t, w_files (hd_world ex_world ws) "/w/api.json" = Some t /\ has_prefix "{""openapi"":""3.0.2""," t = true
      | _ => False
      end
  | _ => False
  end.
Proof.
  assert (Ig : In v_cmd [[]; v_cmd]) by (right; now left).
  refine (conj _ (conj _ (conj e_any_choices (conj (r_sound _ Ig) (conj (r_manageable _ Ig) (conj (r_in_order _ Ig) (conj (s_one_place _ Ig) (conj _ (conj (proj1 r_cycles) (conj (proj2 r_cycles) (conj r_writes _))))))))))).
  - repeat split; discriminate.
  - now left.
  - intros d1 d2 path m v _ _ _. cbn. lia.
  - vm_compute. split; [lia|]. split; [reflexivity|]. eexists. split; [reflexivity | reflexivity].
Qed.

(** *** Two other root members are enough to make the text vary. *)
Definition r_two : json := JObj [("openapi", JStr "3.0.2"); ("x-a", JStr "1"); ("x-b", JStr "2")].
Definition r_text ord : option string :=
  match run ex_os "nolog" (r_config, false) (cli_scan raw0 exact_big (fun _ => GNil) no_float 0%Z NInt (v_around [] r_two) e_choices w_depths) (format (fun _ => None) (fun _ => None) (fun _ => Err) ord isort isort) ex_world with
  | Ok ws => w_files (hd_world ex_world ws) "/w/api.json"
  | _ => None
  end.
Theorem C99_two_others_refuted : any_choices e_choices /\ lets_write ex_os ex_world (cf_output r_config) /\ is_item_sort isort /\ (forall l : list (string * json), Permutation (rev l) l) /\
  r_text (fun l => l) = Some "{""x-a"":""1"",""x-b"":""2"",""openapi"":""3.0.2""}" /\ r_text (fun l => rev l) = Some "{""x-b"":""2"",""x-a"":""1"",""openapi"":""3.0.2""}".
Proof.
  refine (conj e_any_choices (conj r_writes (conj isort_ok (conj _ (conj _ _))))); [intro l; symmetry; apply Permutation_rev | vm_compute; reflexivity | vm_compute; reflexivity].
Qed.
Print Assumptions C99_two_others_refuted.
