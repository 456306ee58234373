(** Scan: references of the final document (proofs). *)
From Coq Require Import String Ascii List Bool Arith ZArith Lia Permutation.
From Verif Require Import GoStr GoStrFacts Json JsonFacts Gabs Container Url Pointer Spec_Clone Spec_Merge CloneFacts MergeFacts
  Spec_Loc LocFacts Spec_Resolve ResolverFacts Path Resolver ScanFn Cmds Specs Spec_Specs SpecFacts Pkgs Types Root SchemaJson Scan ScanFacts
  Spec_Types Spec_Schema SchemaFacts SchemaJsonFacts ScanTypes ScanInv ScanRefs Spec_Scan.
Import ListNotations.
Local Open Scope string_scope.
Local Open Scope nat_scope.
Local Open Scope list_scope.

Lemma std_mapping_ok {F} t (s : schema F) : std_mapping t = Some s -> sch_ok s /\ s_ref s = None.
Proof.
  unfold std_mapping. destruct (String.eqb t _); [|discriminate]. intros [= <-]. split; [|reflexivity].
  constructor; cbn; try (intros; contradiction); try discriminate; try lia; exact I.
Qed.

Section Scan.
  Context {F : Type} (pf : string -> option F) (zero : F) (fnum : F -> num) (a : around) (ch : choices) (de : depths).
  Local Notation scan_doc := (scan_doc pf zero fnum std_mapping a ch de).
  Local Notation scan := (scan pf zero fnum std_mapping a ch de).
  Lemma scan_doc_refs o ss roots c : any_order ch -> flat_env (ar_env a) -> (forall fs, found_type (ar_env a) ss (TStruct fs) -> handy pf (ar_env a) fs) ->
    files_ok (ar_files a) -> canon_obj (op_root o) -> Forall (fun kv => tidy (snd kv)) (op_override o) -> Forall (fun kv => wf (snd kv)) (op_defops o) ->
    scan_doc o ss roots = Ok c -> forall q t p, ext_ref (c_data c) q t p -> exists pat op q', In (pat, op) (op_defops o) /\ ext_ref op q' t p.
  Proof.
    intros ((M1 & M2 & M3 & M4 & M5) & O1 & O2 & O3 & O4 & O5) Hflat Hh Hfs Hroot Hov Hdef H. unfold Scan.scan_doc in H.
    apply bind_ok in H as (cm & _ & H). apply bind_ok in H as (es & _ & H). apply bind_ok in H as (st & Hst & H). apply bind_ok in H as (c1 & Hc1 & H).
    cbv zeta in H. apply bind_ok in H as (pts & Hpts & H). apply bind_ok in H as (c2 & Hc2 & H). apply bind_ok in H as (c3 & Hc3 & H).
    assert (Dst : Forall (fun f => plain_doc (c_data (f_cont f))) (sp_conts st)).
    { refine (scan_with_inv (fun x => Forall (fun f => plain_doc (c_data (f_cont f))) (sp_conts x)) _ _ _ _ _ _ _ _ _ _ _ Hst); [|constructor].
      intros s i y y' b _ Hy E. exact (scan_specs_docs _ _ _ _ _ _ _ _ (O1 i) Hfs Hy E). }
    pose proof (specs_merge_plain _ _ _ _ M1 O2 Dst Hc1) as D1. pose proof (merge_root_plain _ _ _ _ M2 Hroot D1 Hc2) as D2.
    assert (Hpf : forall T, In T (map fst pts) -> found_type (ar_env a) ss T) by exact (pts_found pf zero fnum std_mapping a ch de ss roots _ pts Hpts).
    assert (Tfn : tidy_fn (scan_fn (op_override o) (go_types pf zero fnum std_mapping a ch de pts))).
    { intros p x E. unfold scan_fn in E. destruct (oget (ptr_string p) (op_override o)) as [y|] eqn:Ey.
      - injection E as <-. rewrite Forall_forall in Hov. apply (Hov (ptr_string p, y)). now apply oget_in.
      - destruct (String.eqb _ "go"); [|discriminate]. exact (go_types_tidy pf zero fnum std_mapping a ch de std_mapping_ok ss pts Hflat Hpf O4 Hh p x E). }
    pose proof (resolve_no_ext _ _ _ _ _ _ O3 Tfn (plain_doc_tidy _ D2) Hc3) as N3.
    assert (W3 : wf (c_data c3)) by (eapply resolve_wf; [intros p x E; apply (Tfn p x E) | apply D2 | exact Hc3]).
    pose (S0 := fun t => (forall p, ptr_parse t = Ok p -> is_external p = false) \/ exists pat op, In (pat, op) (op_defops o) /\ Spec_Resolve.has_ref op t).
    assert (T : texts S0 (c_data c)).
    { eapply (defaults_texts S0); [exact M3 | exact M4 | exact O5 | exact M5 | exact W3 | | | exact H].
      - intros t (q & L). left. intros p Ep. destruct (is_external p) eqn:Ex; [|reflexivity]. exfalso. apply (N3 q t p). split; [exact L | auto].
      - rewrite Forall_forall in *. intros [pat op] I. split; [exact (Hdef _ I)|]. intros t R. right. exists pat, op. auto. }
    intros q t p (L & Ep & Ex). destruct (T t (ex_intro _ q L)) as [X|(pat & op & I & q' & L')]; [rewrite (X p Ep) in Ex; discriminate|].
    exists pat, op, q'. split; [exact I|]. split; [exact L' | auto].
  Qed.
  Theorem scan_refs l o d e : any_order ch -> flat_env (ar_env a) ->
    (forall dir ss roots, ar_load a dir = Ok (ss, roots) -> forall fs, found_type (ar_env a) ss (TStruct fs) -> handy pf (ar_env a) fs) ->
    files_ok (ar_files a) -> apply_opts l no_options = Ok o -> canon_obj (op_root o) -> Forall (fun kv => tidy (snd kv)) (op_override o) -> Forall (fun kv => wf (snd kv)) (op_defops o) ->
    scan l = Ok (Some d, e) -> forall q t p, ext_ref d q t p -> exists pat op q', In (pat, op) (op_defops o) /\ ext_ref op q' t p.
  Proof.
    intros Ho Hflat Hh Hfs Eo Hroot Hov Hdef H. unfold Scan.scan in H. rewrite Eo in H. cbn [on_err] in H.
    apply on_err_ok in H as [(_ & [=])|(dir & _ & H)]. apply on_err_ok in H as [(_ & [=])|((ss & roots) & El & H)]. apply on_err_ok in H as [(_ & [=])|(c' & Hd & H)].
    injection H as -> _. exact (scan_doc_refs o ss roots _ Ho Hflat (Hh _ _ _ El) Hfs Hroot Hov Hdef Hd).
  Qed.
End Scan.
