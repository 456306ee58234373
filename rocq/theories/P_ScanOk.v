(** C94: Scan builds a document when everything is in order. *)
From Coq Require Import String Ascii List Bool Arith ZArith Lia Permutation.
From Verif Require Import GoStr Json Gabs Container Url Pointer Spec_Ptr Spec_Clone Spec_Merge
  Spec_Loc Spec_Resolve Spec_ResolveOk ResolverOk Path Route Spec_Route P_Route Resolver ScanFn Cmds Spec_Cmds Specs Spec_Specs SpecFacts Pkgs Spec_Pkgs PkgFacts PathsFacts Types Root Spec_Root SchemaJson Tag Spec_Tag
  Spec_Types Spec_Schema Spec_Format Scan ScanInv ScanFacts Spec_Scan Spec_Kept ScanKept3 P_ScanAll P_Kept P_Types P_Adds Spec_Ends ScanDepth ScanEnds P_Ends Spec_ScanOk ScanOk.
Import ListNotations.
Local Open Scope string_scope.
Local Open Scope nat_scope.
Local Open Scope list_scope.

Section Ok.
Context {F : Type} (pf : string -> option F) (zero : F) (fnum : F -> num).
Local Notation scan := (scan pf zero fnum std_mapping).

(** ** C94 *)
(** If everything is in order (Spec_ScanOk), Scan builds a document, whatever the
    order of the maps. *)
Theorem C94_builds_a_document : forall a ch l o ss roots, any_choices ch -> apply_opts l no_options = Ok o ->
  sound_input pf a o ss roots -> references_manageable a o ss roots -> in_order pf fnum zero a o ss roots ->
  exists de d, forall de',
    de_pkgs de <= de_pkgs de' -> de_walk de <= de_walk de' -> de_type de <= de_type de' -> de_fields de <= de_fields de' -> de_resolve de <= de_resolve de' ->
    scan a ch de' l = Ok (Some (JObj d), true).
Proof.
  intros a ch l o ss roots (O1 & O2 & O3 & O4) Eo ((H1 & H2 & H3 & H4 & H5 & H6) & Hur & (dir & Hdir & Hld & L1 & L2) & S1 & S2 & S3 & S4 & S5 & S6 & S7) S8 Ho.
  destruct (scan_doc_ends pf zero fnum a ch o ss roots O1 O2 O3 O4 (H2 _ _ _ Hld) H3 H4 Hur H5 L1 L2 S1 S2 S3 S4 S5 S6 S7 S8) as (de0 & Hd0).
  set (de := {| de_pkgs := de_pkgs de0 + S (length ss); de_walk := de_walk de0; de_type := de_type de0; de_fields := de_fields de0; de_resolve := de_resolve de0 |}).
  assert (Hns : no_shallower de0 de) by (unfold no_shallower, de; cbn; lia).
  pose proof (scan_doc_deeper pf zero fnum std_mapping a ch de0 de o ss (map Some roots) Hns) as Dp.
  assert (Hd : exists c, scan_doc pf zero fnum std_mapping a ch de o ss (map Some roots) = Ok c).
  { pose proof (scan_doc_no_err pf zero fnum a ch de o ss roots O1 O2 O3 O4 (H2 _ _ _ Hld) H3 H4 Hur H5 L1 L2 S1 S2 S3 S4 S5 S7 Ho) as N.
    assert (Hlt : length ss < de_pkgs de) by (unfold de; cbn; lia). specialize (N Hlt).
    rewrite (deeper_eq _ _ Dp) in N |- * by (destruct (scan_doc _ _ _ _ _ _ _ _ _ _); try destruct Hd0; discriminate).
    destruct (scan_doc _ _ _ _ _ _ _ _ _ _) as [c| | |]; try destruct Hd0; [now exists c | destruct N]. }
  destruct Hd as (c & Hd). pose proof (scan_doc_fine pf zero fnum std_mapping a ch de o ss _ c (proj1 O1) Hd) as Hf.
  assert (X : exists d, scan a ch de l = Ok (Some (JObj d), true)).
  { unfold Scan.scan. rewrite Eo. cbn [on_err]. assert (Ed : match op_dir o with Some d0 => Ok d0 | None => ar_cwd a end = Ok dir) by (destruct Hdir as [-> |(-> & E)]; [reflexivity | exact E]). rewrite Ed. cbn [on_err]. rewrite Hld. cbn [on_err fst snd].
    rewrite Hd. cbn [on_err]. destruct Hf as (d & -> & B). exists d. destruct (fine_clone (Some (JObj d)) (ex_intro _ d (conj eq_refl B))) as (d' & Ec). unfold new_oapi. rewrite Ec. reflexivity. }
  destruct X as (d & X). exists de, d. intros de' A1 A2 A3 A4 A5. rewrite <- X. apply (C91_depths_do_not_show pf zero fnum); try assumption. rewrite X. discriminate.
Qed.
End Ok.
Print Assumptions C94_builds_a_document.

(** *** Example: a package with a struct that refers to itself, an exported
    schema, a reference to it in a file, a root configuration and a default
    operation. *)
Definition o_fields : list (finfo * gty) := [({| f_name := "ID"; f_tag := ""; f_emb := false |}, TBasic KString); ({| f_name := "Next"; f_tag := ""; f_emb := false |}, TPtr (TNamed 0))].
Definition o_abs : json := JObj [("openapi", JStr "3.0.2");
  ("paths", JObj [("/pets", JObj [("get", JObj [("operationId", JStr "list"); ("schema", JObj [("$ref", JStr "go://ex.org/m/api#/Pet")])])])])].
Definition o_all : json := JObj [("info", JObj [("title", JStr "T")]); ("openapi", JStr "3.0.2");
  ("paths", JObj [("/pets", JObj [("get", JObj [("operationId", JStr "list"); ("schema", JObj [("$ref", JStr "go://ex.org/m/api#/Pet")])])])])].
Lemma o_at a groups i : visited_at a [w_source groups] [0] i -> i = 0.
Proof. intros (r & Ir & R). apply reach_lt in R. cbn in R. lia. Qed.
Lemma o_list a groups vis : visited_at a [w_source groups] [0] 0 -> lists_visited a [w_source groups] [0] vis -> vis = [0].
Proof.
  intros V (N & H). assert (A : forall i, In i vis -> i = 0) by (intros i I; apply (o_at a groups), H, I). apply H in V. destruct vis as [|x [|y r]]; [destruct V | now rewrite (A x (or_introl eq_refl))|].
  exfalso. inversion N as [|? ? M _]. apply M. left. rewrite (A x (or_introl eq_refl)), (A y (or_intror (or_introl eq_refl))). reflexivity.
Qed.
Lemma o_plain k : (forall c, In c (list_ascii_of_string k) -> plain_byte c) -> plain_key k.
Proof.
  intros H c Hc. apply H. clear H. induction k as [|x k IH]; [discriminate|]. cbn [has_char list_ascii_of_string In] in *. apply orb_prop in Hc as [Hc|Hc]; [left; now apply Ascii.eqb_eq in Hc | right; auto].
Qed.
Lemma o_app x y : plain_key x -> plain_key y -> plain_key (x +++ y).
Proof. intros A B c H. rewrite GoStrFacts.has_char_app in H. apply orb_prop in H as [H|H]; auto. Qed.
Lemma o_lit s : forallb (fun c => (32 <=? nat_of_ascii c) && negb (nat_of_ascii c =? 127)) (list_ascii_of_string s) = true -> plain_key s.
Proof.
  intro H. apply o_plain. rewrite forallb_forall in H. intros c I. apply H in I. apply andb_prop in I as (A & B). left. apply Nat.leb_le in A. apply negb_true_iff, Nat.eqb_neq in B. auto.
Qed.
Lemma o_toks toks : Forall plain_key toks -> plain_key (fold_right (fun t r => "/" +++ t +++ r) "" toks).
Proof. induction 1 as [|t r H _ IH]; cbn [fold_right]; [intros c X; discriminate X|]. apply o_app; [now apply o_lit | now apply o_app]. Qed.
Lemma o_trail t0 toks ts t : trail w_env t0 toks ts t -> In t0 [TNamed 0; TBasic KString; TPtr (TNamed 0)] -> Forall plain_key toks.
Proof.
  induction 1 as [|t tok t1 toks ts t' S R IH]; intro I; [constructor|]. assert (J : In t1 [TNamed 0; TBasic KString; TPtr (TNamed 0)]) by (apply (w_trail t [tok] [under w_env t] t1); [econstructor; [exact S | constructor] | exact I]).
  constructor; [|now apply IH]. destruct S as [t fs i e U In' Ex|t e U|t e U|t n e U|t k e U|t d e U]; try now apply o_lit.
  destruct I as [<-|[<-|[<-|[]]]]; try discriminate U. injection U as <-. destruct In' as [[= <- <-]|[[= <- <-]|[]]]; now apply o_lit.
Qed.
Lemma o_known groups doc T txt : In groups [[]; v_cmd] -> In doc [v_doc; v_plain] -> known_at (v_around groups doc) [w_source groups] [0] T txt -> In T [TStruct o_fields; TBasic KString; TPtr (TNamed 0)] /\ plain_key txt.
Proof.
  intros Ig Id (ob & pk & St & Ep & Lo). rewrite (e_starts _ _ _ Ig Id St) in *. injection Ep as <-.
  assert (G : forall t', In t' [TNamed 0; TBasic KString; TPtr (TNamed 0)] -> In (under w_env t') [TStruct o_fields; TBasic KString; TPtr (TNamed 0)]) by (intros t' [<-|[<-|[<-|[]]]]; cbn; auto).
  destruct Lo as [(toks & ts & t' & R & _ & -> & ->)|(s1 & ts1 & tn & pkn & n & s2 & ts2 & t' & R1 & _ & (i & dd & -> & En & Ed & En') & R2 & _ & -> & ->)].
  - split; [apply G; exact (w_trail _ _ _ _ R (or_introl eq_refl))|]. unfold loc_text. do 3 (apply o_app; [now apply o_lit|]). apply o_toks. constructor; [now apply o_lit | exact (o_trail _ _ _ _ R (or_introl eq_refl))].
  - pose proof (w_trail _ _ _ _ R1 (or_introl eq_refl)) as In1. split; [apply G; exact (w_trail _ _ _ _ R2 In1)|].
    assert (E : i = 0) by (destruct In1 as [[= <-]|[X|[X|[]]]]; [reflexivity | discriminate X | discriminate X]). subst i. injection En as <-. injection Ed as <-. cbn [d_name] in En'. subst n.
    unfold loc_text. do 3 (apply o_app; [now apply o_lit|]). apply o_toks. constructor; [now apply o_lit | exact (o_trail _ _ _ _ R2 In1)].
Qed.
Lemma o_elems t : In t [TBasic KString; TPtr (TNamed 0); TNamed 0] -> elems_ok w_env t.
Proof.
  assert (G : forall t', elem_reach w_env t t' -> In t [TBasic KString; TPtr (TNamed 0); TNamed 0] -> In t' [TBasic KString; TPtr (TNamed 0); TNamed 0]).
  { induction 1 as [|t e t' S _ IH]; intro I; [exact I|]. apply IH. destruct I as [<-|[<-|[<-|[]]]]; inversion S as [? ? U|? ? U|? ? ? U|? ? ? U]; subst; try discriminate U. injection U as <-. cbn. auto. }
  intros I t' R. destruct (G t' R I) as [<-|[<-|[<-|[]]]]; cbn; tauto.
Qed.
Lemma o_schema groups doc T : In T [TStruct o_fields; TBasic KString; TPtr (TNamed 0)] -> has_schema no_float NInt (v_around groups doc) T.
Proof.
  intros [<-|[<-|[<-|[]]]]; [left; exists o_fields; split; [reflexivity|]; split|right; split; [discriminate | apply o_elems; cbn; auto]|right; split; [discriminate | apply o_elems; cbn; auto]].
  - intros fs' i t La I. assert (Ef : fs' = o_fields) by (inversion La as [|? i0 t0 tg fs1 ? I0 K J]; subst; [reflexivity|]; destruct (w_tag i0 t0 tg I0 K) as (A & _); now elim (A fs1)).
    subst fs'. destruct I as [[= <- <-]|[[= <- <-]|[]]]; eexists; vm_compute; reflexivity.
  - intros x V. inversion V as [fs i t tg I K N|fs i t tg fs' y I K N V']; subst; [|destruct (w_tag _ _ _ I K) as (A & _); now elim (A fs')].
    destruct K as (P & _). destruct I as [[= <- <-]|[[= <- <-]|[]]]; vm_compute in P; injection P as <-; (split; [right; split; [reflexivity | apply o_elems; cbn; auto] | intros f J; cbn in J; repeat (destruct J as [J|J]; [discriminate J|]); destruct J]).
Qed.
Lemma o_resolvable : resolvable o_all.
Proof.
  refine (conj _ (conj _ (conj _ (conj _ _)))).
  - left. eexists. reflexivity.
  - intros [].
  - split; [vm_compute; tauto|]. split; [vm_compute; repeat split; discriminate|]. intros t p (L & _). discriminate L.
  - intros q q' t p t' (L & _) L'. apply refs_of_all in L. rewrite app_assoc in L'. apply refs_of_all in L'. vm_compute in L, L'. destruct L as [[= <- <-]|[]]. destruct L' as [E|[]]. injection E as E _. destruct q' as [|? ?]; [reflexivity | discriminate E].
  - intros q t L. apply refs_of_all in L. vm_compute in L. destruct L as [[= <- <-]|[]]. eexists. vm_compute. reflexivity.
Qed.
Lemma o_refs q t p : ext_ref o_all q t p -> q = SKey "paths" :: v_at /\ ptr_string p = "go://ex.org/m/api#/Pet" /\ u_scheme (p_url p) = "go".
Proof. intros (L & P & _). apply refs_of_all in L. vm_compute in L. destruct L as [[= <- <-]|[]]. vm_compute in P. injection P as <-. vm_compute. auto. Qed.
Lemma o_in_order groups o : In groups [[]; v_cmd] -> apply_opts v_options2 no_options = Ok o -> in_order no_float NInt 0%Z (v_around groups v_doc) o [w_source groups] [0].
Proof.
  intro Ig. assert (Id : In v_doc [v_doc; v_plain]) by now left.
  intro Eo. injection Eo as <-. assert (V0 : visited_at (v_around groups v_doc) [w_source groups] [0] 0) by (exists 0; split; [now left | constructor; eexists; split; reflexivity]).
  split.
  { destruct Ig as [<-|[<-|[]]].
    { exists (fun _ => []). split; [intros i s Vi Es; rewrite (o_at _ _ _ Vi) in Es; injection Es as <-; split; [reflexivity|]; exists []; split; constructor|]. intros vis Hv. rewrite (o_list _ _ _ V0 Hv). constructor. }
    assert (E : exists c, denotes "ex.org/m/api" ":schema Pet" c) by (eexists; apply CmdFacts.parse_cmd_spec; vm_compute; reflexivity). destruct E as (c & E).
    exists (fun _ => [c]). split.
    - intros i s Vi Es. rewrite (o_at _ _ _ Vi) in Es. injection Es as <-. split; [reflexivity|]. exists [[":schema Pet"]]. split; [|repeat constructor; exact E]. constructor; [|constructor]. apply CmdFacts.comment_group_spec. vm_compute. reflexivity.
    - intros vis Hv. rewrite (o_list _ _ _ V0 Hv). cbn [flat_map]. rewrite app_nil_r. destruct c; cbn; repeat constructor; intros []. }
  exists o_abs, o_all. refine (conj _ (conj _ (conj o_resolvable (conj _ (conj _ _))))).
  - exists (fun _ => [o_abs]). split.
    + intros i s Vi Es. rewrite (o_at _ _ _ Vi) in Es. injection Es as <-. exists "/src/api". split; [vm_compute; reflexivity|].
      apply (da_spec _ _ _ v_doc); [reflexivity | eexists; eexists; split; reflexivity| |apply da_none; [reflexivity|]; apply da_none; [reflexivity | constructor]].
      exists (fun _ => "go://ex.org/m/api#/Pet"). split; [|vm_compute; reflexivity]. intros q t L. apply refs_of_all in L. vm_compute in L. destruct L as [[= <- <-]|[]]. eexists. split; [vm_compute; reflexivity|]. left. repeat split.
    + intros vis l Hv Pl. rewrite (o_list _ _ _ V0 Hv) in Pl. cbn in Pl. apply Permutation_sym, Permutation_length_1_inv in Pl. subst l. econstructor; [|constructor]. apply RootFacts.merged_into_empty. vm_compute. tauto.
  - eexists _, _, _. split; [vm_compute; reflexivity|]. split; [reflexivity|]. split; [reflexivity|]. split; [vm_compute; tauto|]. split.
    { intros k Nk. cbn [oget]. destruct (String.eqb_spec k "info") as [-> |_]; [elim Nk; cbn; auto | reflexivity]. }
    constructor; [left; repeat split|]. constructor; [right; split; [intros (_ & X); discriminate X | apply RootFacts.merged_into_empty; vm_compute; tauto]|].
    constructor; [right; split; [intros (X & _); discriminate X | apply RootFacts.merged_nothing; vm_compute; tauto]|]. repeat (constructor; [left; repeat split|]). constructor.
  - split; [discriminate|]. split; [constructor|].
    assert (K : forall T, in_use no_float (v_around groups v_doc) {| op_dir := None; op_override := []; op_defops := [("/pets", JObj [("x-def", JStr "v")])]; op_root := k_root |} [w_source groups] [0] o_all T -> In T [TStruct o_fields; TBasic KString; TPtr (TNamed 0)]).
    { intros T [p T' _ _ Kn|T' T'' txt _ _ Kn _]; now apply o_known in Kn. }
    split; [|split].
    + intros p (j & q & t & [-> |[]] & X). right. destruct (o_refs q t p X) as (_ & Et & Es). split; [exact Es|]. exists (TStruct o_fields), {| o_pkg := Some "ex.org/m/api"; o_name := "Pet"; o_type := TNamed 0 |}, "ex.org/m/api". split; [|split; [reflexivity|left; exists [], [], (TNamed 0); split; [constructor|]; split; [constructor|]; split; [reflexivity | exact Et]]].
      assert (Sd : spec_doc_of (v_around groups v_doc) (w_source groups) v_doc) by (exists "/src/api", "oapi.yaml"; repeat split; [now left | eexists; eexists; split; reflexivity]).
      eexists _, _, "Pet", []. split; [apply v_visits|]. split; [right; exists (w_source groups), v_doc, (SKey "paths" :: v_at), "go://#/Pet"; split; [apply v_visits|]; split; [exact Sd|]; split; [reflexivity|]; eexists; split; [vm_compute; reflexivity | reflexivity]|]. repeat split.
    + intros T U. apply o_schema, K, U.
    + intros T T' txt _ _ Kn. now apply o_known in Kn.
  - intros s n _ _. split; [vm_compute; auto|]. intros q t p X. destruct (o_refs q t p X) as (-> & _). split; intros (r & E); discriminate E.
  - split; [right; eexists _, _; split; [reflexivity|]; split; [reflexivity|]; intros p x E; cbn in E; destruct (String.eqb p "/pets"); [injection E as <-; now left | discriminate E]|]. split.
    + intros q t p X. destruct (o_refs q t p X) as (-> & _). intros path m u E. discriminate E.
    + intros pat op path m v [[= <- <-]|[]] Op. unfold operation, Spec_Merge.at_path, o_all in Op. cbn [oget String.eqb Ascii.eqb Bool.eqb] in Op.
      destruct (C37_pattern_match [] "/pets" path m) as (b & E & _); [constructor | reflexivity | apply (C37_slash "pets") |]. exists b. split; [exact E|]. intros _. left.
      destruct (String.eqb path "/pets"); [|discriminate Op]. cbn in Op. destruct (String.eqb m "get"); [|discriminate Op]. now injection Op as <-.
Qed.
Example C94_example : exists o, any_choices e_choices /\ apply_opts v_options2 no_options = Ok o /\ sound_input no_float (v_around v_cmd v_doc) o [w_source v_cmd] [0] /\
  references_manageable (v_around v_cmd v_doc) o [w_source v_cmd] [0] /\ in_order no_float NInt 0%Z (v_around v_cmd v_doc) o [w_source v_cmd] [0].
Proof.
  eexists. split; [exact e_any_choices|]. split; [reflexivity|]. assert (A : In v_cmd [[]; v_cmd]) by (right; now left). assert (B : In v_doc [v_doc; v_plain]) by now left. assert (C : In v_options2 [v_options; v_options2]) by (right; now left).
  split; [exact (e_sound v_cmd v_doc v_options2 _ A B C eq_refl)|]. split; [exact (e_manageable v_cmd v_doc v_options2 _ A B C eq_refl) | exact (o_in_order v_cmd _ A eq_refl)].
Qed.
(** The conditions matter: without them Scan gives an error and no document. *)
Definition o_scan a l := scan no_float 0%Z NInt std_mapping a e_choices w_depths l.
Definition o_world (err : nat) (groups : list (list string)) (files : filesys) (env : genv) : around :=
  {| ar_load := fun _ => Ok ([{| so_pkg := {| g_path := "ex.org/m/api"; g_errors := err; g_imports := [] |}; so_types := "ex.org/m/api"; so_groups := groups; so_module := so_module (w_source []); so_scope := so_scope (w_source []) |}], [Some 0]);
     ar_cwd := Ok "/src/api"; ar_gopath := "/go"; ar_missing := fun _ => true; ar_files := files; ar_std := fun _ => false; ar_env := env |}.
Definition o_pet (fs : list (finfo * gty)) : genv := [{| d_pkg := Some "ex.org/m/api"; d_name := "Pet"; d_under := TStruct fs |}].
Definition o_bad (tag : string) (t : gty) : genv := o_pet [({| f_name := "ID"; f_tag := tag; f_emb := false |}, t)].
Theorem C94_conditions : forall de', de_pkgs w_depths <= de_pkgs de' -> de_walk w_depths <= de_walk de' -> de_type w_depths <= de_type de' -> de_fields w_depths <= de_fields de' -> de_resolve w_depths <= de_resolve de' ->
  let run a l := scan no_float 0%Z NInt std_mapping a e_choices de' l in
  (* all is in order *)
  (exists d, run (o_world 0 v_cmd (k_files v_doc None) w_env) v_options2 = Ok (Some d, true)) /\
  (* a package that was loaded with errors *)
  run (o_world 1 v_cmd (k_files v_doc None) w_env) v_options2 = Ok (None, true) /\
  (* a command without an argument; one type exported twice *)
  run (o_world 0 [["//openapi:schema"]] (k_files v_doc None) w_env) v_options2 = Ok (None, true) /\
  run (o_world 0 [["//openapi:schema Pet"; "//openapi:schema Dog Pet"]] (k_files v_doc None) w_env) v_options2 = Ok (None, true) /\
  (* a file that cannot be read; a file with a reference that is no pointer; two files that do not agree *)
  run (o_world 0 v_cmd (fun _ => Some Err) w_env) v_options2 = Ok (None, true) /\
  run (o_world 0 v_cmd (k_files (JObj [("openapi", JStr "3.0.2"); ("x", JObj [("$ref", JStr "%zz")])]) None) w_env) v_options2 = Ok (None, true) /\
  run (o_world 0 v_cmd (k_files v_doc (Some (JObj [("openapi", JStr "3.0.3")]))) w_env) v_options2 = Ok (None, true) /\
  (* a component of the root configuration that a file has otherwise *)
  run (o_world 0 v_cmd (k_files (JObj [("components", JObj [("schemas", JObj [("A", JStr "a")])]); ("openapi", JStr "3.0.2")]) None) w_env)
    [WithRootSchema (JObj [("components", JObj [("schemas", JObj [("A", JStr "b")])])])] = Ok (None, true) /\
  (* a type without a schema; a tag that cannot be read *)
  run (o_world 0 v_cmd (k_files v_doc None) (o_bad "" (TOther 0))) v_options2 = Ok (None, true) /\
  run (o_world 0 v_cmd (k_files v_doc None) (o_bad ("json:" +++ """id""" +++ " oapi:" +++ """min:x""") (TBasic KString))) v_options2 = Ok (None, true) /\
  (* something in the way of the components *)
  run (o_world 0 v_cmd (k_files (JObj [("components", JObj [("schemas", JArr [])]); ("openapi", JStr "3.0.2"); ("x", JObj [("$ref", JStr "go://#/Pet")])]) None) w_env) v_options2 = Ok (None, true) /\
  (* an operation that is not an object *)
  run (o_world 0 v_cmd (k_files (JObj [("openapi", JStr "3.0.2"); ("paths", JObj [("/pets", JObj [("get", JStr "x")])])]) None) w_env) v_options2 = Ok (None, true).
Proof.
  intros de' A1 A2 A3 A4 A5 run.
  assert (G : forall a l r, o_scan a l = r -> r <> OutOfFuel -> run a l = r).
  { intros a l r <- N. unfold run, o_scan in *. apply C91_depths_do_not_show; assumption. }
  split; [|repeat (apply conj); apply G; try discriminate; vm_compute; reflexivity].
  assert (B : match o_scan (o_world 0 v_cmd (k_files v_doc None) w_env) v_options2 with Ok (Some _, true) => true | _ => false end = true) by (vm_compute; reflexivity).
  destruct (o_scan (o_world 0 v_cmd (k_files v_doc None) w_env) v_options2) as [[[d|] [|]]| | |] eqn:E; try discriminate B. exists d. apply G; [exact E | discriminate].
Qed.
Print Assumptions C94_conditions.
