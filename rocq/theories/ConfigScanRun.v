(** The configuration that main reads is the one that is decoded; the options of
    the run are the usual ones. *)
From Coq Require Import String Ascii List Bool Arith ZArith Lia Permutation.
From Verif Require Import GoStr Json JsonFacts Gabs Container MergeFacts Spec_Clone CloneFacts Url Pointer SchemaJson SchemaJsonFacts SchemaJsonApi
  Spec_Loc LocFacts Spec_Format Path Specs Root Spec_Root RootFacts Spec_Resolve Shape Spec_Shape ShapeFacts ShapeApi Types Spec_Scan Scan ScanKept3 Spec_Kept P_ScanAll P_Kept P_Adds Config ConfigScan Spec_ConfigScan ConfigScanFacts ConfigScanApi.
Import ListNotations.
Local Open Scope string_scope.
Local Open Scope nat_scope.
Local Open Scope list_scope.

Section Run.
Context (raw : json -> string) (big : Z -> option Z).
Local Notation decode := (decode raw big).
Local Notation each := (each raw big).
Local Notation other := (other_member raw big).
Definition reads (k : string) (v : json) : Prop := forall f, field_of TConfig k = Some f -> exists w, decode v (f_shape f) = Ok w.
Lemma text_reads k v set c n : In (n, SText) (known TConfig) -> equal_fold k n = true -> (snd (dec_str v set c) = DOk <-> reads k v).
Proof.
  intros In_ Ek. apply known_field in In_ as (f & If & <- & Sf). assert (Ef : field_of TConfig k = Some f) by (apply field_of_spec; split; [exact If|]; unfold equal_fold in Ek; apply String.eqb_eq in Ek; exact Ek).
  unfold reads. split.
  - intros H g Eg. rewrite Ef in Eg. injection Eg as <-. rewrite Sf. destruct v; try discriminate H; cbn; eauto.
  - intro H. destruct (H f Ef) as (w & Hw). rewrite Sf in Hw. destruct v; try discriminate Hw; reflexivity.
Qed.
Lemma member_reads k v c : snd (dec_member other k v c) = DOk <-> reads k v.
Proof.
  unfold dec_member. destruct (equal_fold k "dir") eqn:E1; [apply (text_reads k v _ c "dir"); [cbn; tauto | exact E1]|]. destruct (equal_fold k "format") eqn:E2; [apply (text_reads k v _ c "format"); [cbn; tauto | exact E2]|].
  destruct (equal_fold k "output") eqn:E3; [apply (text_reads k v _ c "output"); [cbn; tauto | exact E3]|].
  destruct (equal_fold k "extends") eqn:E4; [apply (text_reads k v _ c "extends"); [cbn; tauto | exact E4]|]. destruct (equal_fold k "version") eqn:E5; [apply (text_reads k v _ c "version"); [cbn; tauto | exact E5]|].
  destruct (equal_fold k "openapi") eqn:E6; [apply (text_reads k v _ c "openapi"); [cbn; tauto | exact E6]|]. cbn [orb snd]. unfold other_member, reads.
  destruct (field_of TConfig k) as [f|]; [|split; [intros _ g [=] | reflexivity]]. split.
  - intros H g [= <-]. destruct (decode v (f_shape f)); try discriminate. eauto.
  - intro H. destruct (H f eq_refl) as (w & ->). reflexivity.
Qed.
Lemma member_doc k v c : cf_doc (fst (dec_member other k v c)) = cf_doc c.
Proof.
  unfold dec_member. assert (G : forall set, (forall s c, cf_doc (set s c) = cf_doc c) -> cf_doc (fst (dec_str v set c)) = cf_doc c) by (intros set Hs; destruct v; cbn; auto).
  destruct (equal_fold k "dir"); [now apply G|]. destruct (equal_fold k "format"); [now apply G|]. destruct (equal_fold k "output"); [now apply G|].
  destruct (equal_fold k "extends" || equal_fold k "version" || equal_fold k "openapi"); [now apply G | reflexivity].
Qed.
Lemma members_reads m : forall c bad c' bad', dec_members other m c bad = (c', bad') -> cf_doc c' = cf_doc c /\ (bad' = false <-> bad = false /\ forall k v, In (k, v) m -> reads k v).
Proof.
  induction m as [|[k v] m IH]; intros c bad c' bad' H; cbn [dec_members] in H.
  - injection H as <- <-. split; [reflexivity|]. split; [intros ->; split; [reflexivity | intros ? ? []] | intros [-> _]; reflexivity].
  - pose proof (member_reads k v c) as M. pose proof (member_doc k v c) as Dc. destruct (dec_member other k v c) as [c1 d]. cbn [fst snd] in M, Dc. destruct d.
    + destruct (IH _ _ _ _ H) as (E & Q). split; [congruence|]. rewrite Q. split; intros [B R]; (split; [exact B|]).
      * intros k' v' [[= <- <-]|I]; [apply M; reflexivity | exact (R k' v' I)].
      * intros k' v' I. apply R. now right.
    + destruct (IH _ _ _ _ H) as (E & Q). split; [congruence|]. rewrite Q. split; [intros [[=] _]|]. intros [_ R]. assert (DSave = DOk) by (apply M; apply R; now left). discriminate.
    + injection H as <- <-. split; [exact Dc|]. split; [intros [=]|]. intros [_ R]. assert (DAbort = DOk) by (apply M; apply R; now left). discriminate.
Qed.
Lemma decode_reads m : (exists v, decode (JObj m) (SVal TConfig) = Ok v) <-> forall k v, In (k, v) m -> reads k v.
Proof.
  rewrite dec_val. split.
  - intros (v & H). apply bind_ok in H as (vs & Hvs & _). destruct (each_in _ _ _ _ _ Hvs) as (A & _). intros k x I f Ef. destruct (A k x (f_shape f) I) as (w & _ & Hw); [now rewrite Ef | eauto].
  - intro R. destruct (each_total raw big (fun k => option_map f_shape (field_of TConfig k)) m) as (vs & Hvs).
    + intros k x s I Es. destruct (field_of TConfig k) as [f|] eqn:Ef; [|discriminate]. injection Es as <-. exact (R k x I f Ef).
    + rewrite Hvs. cbn. eauto.
Qed.
(** Reading the document: accepted exactly when it decodes. *)
Lemma unmarshal_ok cx c bad : unmarshal_config other cx = (c, bad) -> (forall x, clone (c_data cx) = Ok x -> x <> JNull -> bad = false -> cf_doc c = x) /\
  (bad = false <-> forall x, clone (c_data cx) = Ok x -> exists v, decode x (SVal TConfig) = Ok v) /\ (bad = false -> fixed (cf_doc c) /\ exists v, decode (cf_doc c) (SVal TConfig) = Ok v).
Proof.
  unfold unmarshal_config. destruct (clone (c_data cx)) as [x| | |] eqn:Ec.
  2,3,4: intros [= <- <-]; split; [discriminate|]; split; [split; [intros _ x [=] | reflexivity]|]; intros _; split; [reflexivity | cbn; eauto].
  destruct x as [| | | | |m].
  1: intros [= <- <-]; split; [congruence|]; split; [split; [intros _ x [= <-]; cbn; eauto | reflexivity]|]; intros _; split; [reflexivity | cbn; eauto].
  1,2,3,4: intros [= <- <-]; split; [discriminate|]; split; [|discriminate]; split; [discriminate|]; intro H; destruct (H _ eq_refl) as (v & [=]).
  intro H. destruct (members_reads _ _ _ _ _ H) as (E & Q). cbn [cf_doc] in E. split; [intros x [= <-] _ _; exact E|]. split.
  - rewrite Q. split.
    + intros [_ R] x [= <-]. apply decode_reads. exact R.
    + intro R. split; [reflexivity|]. apply decode_reads. exact (R _ eq_refl).
  - intro B. rewrite E. split; [exact (clone_idem _ _ Ec)|]. apply decode_reads. now apply Q.
Qed.
Lemma full_config fs ord wd ff c : full other fs ord wd ff = Ok (c, false) -> fixed (cf_doc c) /\ exists v, decode (cf_doc c) (SVal TConfig) = Ok v.
Proof.
  unfold full. intro H. apply bind_ok in H as ([c0 bad] & Hr & H). destruct bad; [discriminate|]. injection H as <-. cbn [cf_doc].
  destruct (Config.nonempty (fl_config ff)); [|injection Hr as <-; split; [reflexivity | cbn; eauto]].
  unfold read_config in Hr. destruct (do cx <- read_file fs (to_abs (fl_config ff) wd) ; extends fs ord cx (Path.dir (to_abs (fl_config ff) wd))) as [cx| | |]; try discriminate.
  destruct (unmarshal_config other cx) as [c1 b] eqn:Eu. injection Hr as Hr Hb. destruct (unmarshal_ok _ _ _ Eu) as (_ & _ & G). destruct b; [discriminate|]. subst c0. exact (G eq_refl).
Qed.

Context {F : Type} (pf : string -> option F) (zero : F) (fnum : F -> num) (partial : json -> gval).
Hypothesis Hb : reads_back big.
Lemma options_of dir v l : cli_options dir v = Ok l -> exists ov ops root, entries (member v "overrides") = Ok ov /\ entries (member v "operations") = Ok ops /\ encode (root_of v) = Ok root /\
  apply_opts l no_options = Ok {| op_dir := if String.eqb dir "" then None else Some dir; op_override := ov; op_defops := ops; op_root := root |}.
Proof.
  unfold cli_options. intro H. apply bind_ok in H as (ov & E1 & H). apply bind_ok in H as (ops & E2 & H). apply bind_ok in H as (root & E3 & H). injection H as <-.
  exists ov, ops, root. repeat (split; [assumption|]). unfold Config.nonempty. destruct (String.eqb dir ""), ov, ops; reflexivity.
Qed.
(** The run is a usual run of Scan. *)
Lemma cli_usual a ch de c ss roots d e v : usual_config (cf_doc c) -> fixed (cf_doc c) -> decode (cf_doc c) (SVal TConfig) = Ok v -> usual_run pf a ch de (cf_dir c) ss roots ->
  cli_scan raw big partial pf zero fnum a ch de c = Ok (Some d, e) ->
  exists l o, scan pf zero fnum std_mapping a ch de l = Ok (Some d, e) /\ usual_scan pf a ch de l o ss roots /\
    entries (member v "overrides") = Ok (op_override o) /\ entries (member v "operations") = Ok (op_defops o) /\ encode (root_of v) = Ok (op_root o).
Proof.
  intros U Fx D (R1 & R2 & R3 & R4 & R5 & R6 & (dd & Hd & Hld) & R7 & R8 & R9 & R10) H. unfold cli_scan in H. apply bind_ok in H as (l & Hl & H).
  assert (Ev : config_value raw big partial c = v) by (unfold config_value; now rewrite D). rewrite Ev in Hl. destruct (options_of _ _ _ Hl) as (ov & ops & root & E1 & E2 & E3 & Eo).
  exists l, {| op_dir := if String.eqb (cf_dir c) "" then None else Some (cf_dir c); op_override := ov; op_defops := ops; op_root := root |}. split; [exact H|]. split; [|split; [exact E1 | split; [exact E2 | exact E3]]].
  destruct (root_canon raw big Hb (cf_doc c) v U Fx D root E3) as (Cr & Ur & _). destruct (operations_ok raw big Hb (cf_doc c) v U Fx D ops E2) as (Od & Ow).
  refine (conj R1 (conj R2 (conj R3 (conj Eo (conj _ (conj Ur (conj Od (conj _ R10)))))))).
  - refine (conj R4 (conj R5 (conj R6 (conj Cr (conj _ Ow))))). exact (overrides_tidy raw big Hb (cf_doc c) v U Fx D ov E1).
  - exists dd. refine (conj _ (conj Hld (conj R7 (conj R8 R9)))). cbn [op_dir]. destruct Hd as [(Nd & ->)|(-> & E)]; [left; now rewrite (proj2 (String.eqb_neq _ _) Nd) | right; auto].
Qed.
End Run.
