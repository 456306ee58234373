(** Two scans of the same input build the same document. *)
From Coq Require Import String Ascii List Bool Arith ZArith Lia Permutation.
From Verif Require Import Route GoStr GoStrFacts Json JsonFacts Gabs Container Url Pointer PtrFacts Spec_Ptr Spec_Clone Spec_Merge MergeFacts MergeApi MergeLaws HeapApi SetFacts
  Spec_Loc LocFacts Root Spec_Root RootFacts PathsFacts Spec_Resolve Spec_ResolveOk Spec_Reach Resolver ResolverFacts ResolverFrame ResolverExpandX ResolverAt ResolverSame ScanFn ScanRefs ScanKept ScanKept2 ScanFacts
  Tag Types Spec_Types TypesFacts CollectFacts CollectApi DenoteFacts SimpleChain Spec_Tag Spec_Schema FieldFacts FieldOutcome SchemaFacts SchemaOutcome SchemaRefs SchemaShape JsonText SchemaJson SchemaJsonFacts SchemaJsonApi ConfigApi ScanTypes P_At P_Types SchemaNeat
  Scan Spec_Scan Spec_Ends Spec_Kept Spec_Cmds Spec_ScanOk ScanStages ScanOk ScanEnds Spec_Same Spec_SameAll ScanSame ScanSame2 ScanSame3 ScanSame4.
Import ListNotations.
Local Open Scope string_scope.
Local Open Scope nat_scope.
Local Open Scope list_scope.

(** *** The references of a converted type *)
Section Conv.
  Context {F : Type} (pf : string -> option F) (fnum : F -> num) (zero : F) (env : genv) (std : string -> option (schema F)) (pk : nat -> list ptr -> ptr).
  Context (Hflat : flat_env env).
  Hypothesis Hstd : forall t s, std t = Some s -> neat fnum s /\ forall p, ~ has_ref p s.
  Local Notation conv := (type2schema pf zero env std pk).
  Definition picks (m : pmap) (t : gty) (p : ptr) : Prop := exists t' n, elem_reach env t t' /\ by_reference env (under env t') /\ pm_at m (under env t') <> [] /\ p = pk n (pm_at m (under env t')).
  Lemma reference_picks n m t s p : by_reference env (under env t) -> reference2schema std pk n m (under env t) = Ok s -> has_ref p s -> picks m t p.
  Proof.
    intros B H Hr. destruct (reference_cases std pk n m (under env t)) as [[_ E]|[N E]]; rewrite E in H; [discriminate|]. injection H as <-. destruct (std _) as [o|] eqn:Es; [destruct (proj2 (Hstd _ _ Es) p Hr)|].
    exists t, n. split; [constructor|]. split; [exact B|]. split; [exact N|]. apply has_ref_flat in Hr. cbn in Hr. destruct Hr as [[= <-]|[(k & x & [] & _)|[(x & X & _)|[(x & X & _)|(x & [] & _)]]]]; try discriminate. reflexivity.
  Qed.
  Lemma conv_in_picks m p : forall fuel fuel2 n tp t tg s, (forall x, In x tp -> (exists fs, x = TStruct fs) \/ exists e, elem_step env x e /\ elem_reach env e t) ->
    conv fuel fuel2 n m tp t tg = Ok s -> (tp <> [] \/ forall fs, under env t <> TStruct fs) -> has_ref p s -> picks m t p.
  Proof.
    induction fuel as [|fuel IH]; intros fuel2 n tp t tg s Htp H Ntp Hr; [discriminate|].
    destruct (in_dec gty_dec (under env t) tp) as [V|V].
    { rewrite conv_seen in H by exact V. eapply reference_picks; [|exact H | exact Hr]. destruct (Htp _ V) as [X|(e & S & R)]; [now left|]. right. exists e, t. auto. }
    destruct (conv_cases env t) as [(e & E & He & tok & Hs)|[[k E]|[[fs E]|(E & B & S & X)]]].
    - rewrite (conv_elem pf zero env std pk _ _ _ _ _ _ _ e V E) in H. apply bind_ok in H as (s' & H & [= <-]). apply wrap_ref in Hr.
      assert (Q : picks m e p).
      { eapply IH; [|exact H | left; destruct tp; discriminate | exact Hr]. intros x Hx. apply in_app_iff in Hx as [Hx|[<-|[]]].
        - destruct (Htp _ Hx) as [X|(e0 & S & R)]; [now left|]. right. exists e0. split; [exact S|]. exact (elem_reach_snoc env _ _ _ R He).
        - right. exists e. split; [now apply elem_step_flat | constructor]. }
      destruct Q as (t' & n' & R & I).
      exists t', n'. split; [|exact I]. eapply er_step; [exact He | exact R].
    - rewrite (conv_basic pf zero env std pk _ _ _ _ _ _ _ k V E) in H. now apply basic_no_ref with (p := p) in H.
    - destruct Ntp as [Ntp|N]; [|now destruct (N fs)]. rewrite (conv_struct_in pf zero env std pk _ _ _ _ _ _ _ fs Ntp E) in H. eapply reference_picks; [left; eauto | exact H | exact Hr].
    - rewrite (conv_other pf zero env std pk _ _ _ _ _ _ _ V E B S) in H. discriminate.
  Qed.
  Lemma picks_under m t p : picks m (under env t) p -> picks m t p.
  Proof. intros (t' & n & R & B & I). destruct (elem_under env Hflat _ _ R) as (t2 & R2 & E). exists t2, n. rewrite E. auto. Qed.
  Theorem conv_picks m p fuel fuel2 n t tg s : conv fuel fuel2 n m [] t tg = Ok s -> has_ref p s ->
    (exists fs x, under env t = TStruct fs /\ visible pf env fs x /\ t_type (sf_tag x) = "" /\ picks m (sf_type x) p) \/
    ((forall fs, under env t <> TStruct fs) /\ picks m t p).
  Proof.
    intros H Hr. destruct (under env t) eqn:Eu; try (right; split; [discriminate|]; eapply conv_in_picks; [| exact H | right; intros; congruence | exact Hr]; intros x []).
    left. destruct fuel as [|fuel]; [discriminate|]. rewrite (conv_struct pf zero env std pk _ _ _ _ _ _ fs Eu) in H. apply bind_ok in H as (l & El & H).
    apply (struct_fields_ref p) in H as [H|(k & x & ps & Hx & Hc & Hp)]; try reflexivity; [exfalso; revert H; now apply bare_no_ref | | exact Hr].
    apply (collect_fields_visible pf env _ _ _ El) in Hx. exists fs, x. split; [reflexivity|]. split; [exact Hx|]. unfold field_conv in Hc.
    destruct (String.eqb_spec (t_type (sf_tag x)) "") as [Et|Nt]; cbn [negb] in Hc; [|now apply basic_string_no_ref with (p := p) in Hc]. split; [exact Et|].
    assert (G : conv fuel fuel2 k m [TStruct fs] (under env (sf_type x)) (sf_tag x) = Ok ps -> picks m (sf_type x) p).
    { intro G. apply picks_under. eapply conv_in_picks; [| exact G | left; discriminate | exact Hp]. intros y [<-|[]]. left. eauto. }
    destruct (under env (sf_type x)) eqn:Ex; auto. eapply reference_picks; [rewrite Ex; left; eauto | rewrite Ex; exact Hc | exact Hp].
  Qed.
End Conv.

Section All.
  Context {F : Type} (pf : string -> option F) (zero : F) (fnum : F -> num) (a : around) (ch1 ch2 : choices) (de : depths).
  Context (o : options) (ss : list source) (roots : list nat).
  (** *** What a pointer leads to *)
  Lemma fn_leads os pts ch p x q t p' : scan_input (ar_env a) os -> collect_all (ar_env a) (de_walk de) os [] = Ok pts -> (forall T txt, registered pts T txt <-> known_at a ss roots T txt) ->
    picks_shortest (ch_pick ch) -> (forall m, Permutation (ch_points ch m) m) ->
    scan_fn (op_override o) (go_types pf zero fnum std_mapping a ch de pts) p = Ok x -> ext_ref x q t p' -> leads_to pf a o ss roots (ptr_string p) (ptr_string p').
  Proof.
    intros Hin Hcol Hk Hpk Hord E X. unfold scan_fn in E. destruct (oget (ptr_string p) (op_override o)) as [y|] eqn:Ey.
    { injection E as ->. left. exists x, q, t, p'. auto. }
    right. split; [exact Ey|]. destruct (String.eqb _ "go"); [|discriminate]. unfold go_types in E. apply bind_ok in E as (s & Es & Ej). pose proof Hin as (He & Hf & Ho & Hd & Hod & Hu).
    destruct X as (L & P & _). destruct (schema_refs fnum s x t Ej (ex_intro _ q L)) as (p0 & Hr & ->).
    unfold scanner_resolve in Es. destruct (pm_find (ch_points ch) pts p) as [T|] eqn:Ef; [|discriminate].
    assert (R : registered pts T (ptr_string p)).
    { assert (N1 := proj1 (collect_all_good (ar_env a) He (de_walk de) os [] pts Ho pm_good_nil Hcol)). unfold pm_find in Ef. destruct (find _ _) as [e|] eqn:Ee; [|discriminate]. injection Ef as <-. apply find_some in Ee as (Ie & Xe). apply existsb_exists in Xe as (q0 & Iq & Eq).
      apply String.eqb_eq in Eq. apply (Permutation_in _ (Hord pts)) in Ie. exists q0. split; [|now symmetry]. destruct e as [T0 l0]. cbn [fst snd] in *. rewrite (pm_at_in pts T0 l0 N1 Ie). exact Iq. }
    assert (U : under (ar_env a) T = T). { destruct (collect_all_reg (ar_env a) He (de_walk de) os pts Ho Hcol) as [_ G]. destruct (G _ _ R) as (t' & ET & _). rewrite ET. now apply under_flat. }
    assert (Q : exists t' n, refers pf a T (under (ar_env a) t') /\ by_reference (ar_env a) (under (ar_env a) t') /\ pm_at pts (under (ar_env a) t') <> [] /\ p0 = ch_pick ch n (pm_at pts (under (ar_env a) t'))).
    { destruct (conv_picks pf fnum zero (ar_env a) std_mapping (ch_pick ch) Hf (std_mapping_neat fnum) _ _ _ _ _ _ _ _ Es Hr) as [(fs & y & E & V & Et & t' & n & Er & B & I)|(N & t' & n & Er & B & I)]; exists t', n; (split; [|split; [exact B | exact I]]).
      - left. exists fs, y, t'. rewrite U in E. auto.
      - right. rewrite U in N. split; [exact N|]. exists t'. auto. }
    destruct Q as (t' & n & Rf & B & N & Ep). destruct (picked a de ss roots os pts ch (under (ar_env a) t') n Hin Hcol Hk Hpk N) as (p1 & l & E1 & _ & p2 & E2 & Ne).
    exists T, (under (ar_env a) t'), p2. split; [now apply Hk|]. split; [exact Rf|]. split; [exact B|]. split; [exact Ne|].
    pose proof Ne as (_ & P2 & _). rewrite Ep, E1, <- E2 in P. congruence.
  Qed.
  Lemma fn_leads_on os pts ch p q : scan_input (ar_env a) os -> collect_all (ar_env a) (de_walk de) os [] = Ok pts -> (forall T txt, registered pts T txt <-> known_at a ss roots T txt) ->
    picks_shortest (ch_pick ch) -> (forall m, Permutation (ch_points ch m) m) ->
    leads_on (scan_fn (op_override o) (go_types pf zero fnum std_mapping a ch de pts)) p q -> leads_far pf a o ss roots (ptr_string p) (ptr_string q).
  Proof.
    intros Hin Hcol Hk Hpk Hord (x & E & A). pose proof (fun p x q t p' => fn_leads os pts ch p x q t p' Hin Hcol Hk Hpk Hord) as G.
    induction A as [q0 t p' X|p1 y q0 t p' A1 IH F1 X]; [apply lf_one; exact (G _ _ _ _ _ E X) | eapply lf_more; [exact IH | exact (G _ _ _ _ _ F1 X)]].
  Qed.
  Theorem same_all d1 d2 c1 c2 : any_order ch1 -> any_order ch2 -> collecting_in_any_order ch1 -> collecting_in_any_order ch2 -> picks_shortest (ch_pick ch1) -> picks_shortest (ch_pick ch2) ->
    defaults_sound o -> files_in_order a ss roots d1 -> composed (op_root o) d1 d2 -> resolvable d2 ->
    references_in_order pf fnum zero a o ss roots d2 -> exports_in_order a ss roots d2 -> paths_in_order o d2 -> one_place a ss roots -> one_default a o ss roots ->
    exports_cycles pf a o ss roots -> names_apart a ss roots ->
    made_of pf zero fnum a ch1 de o ss roots d2 c1 -> made_of pf zero fnum a ch2 de o ss roots d2 c2 ->
    wf (c_data c1) /\ c_data c1 = c_data c2.
  Proof.
    intros ((M1 & M2 & M3 & M4 & M5) & O1 & O2 & O3 & O4 & O5) ((M1' & M2' & M3' & M4' & M5') & O1' & O2' & O3' & O4' & O5') Co1 Co2 P1 P2 (Ddef & _) Hfiles Hcomp Hres (_ & Rov & _) Hxp (_ & Hpx & _) Hplace Hone Hcyc Hnames
      (es & os & pts & r & (Gn & Nd & Ein & Eall) & Hin & Hcol & _ & Hk & Pd & Fx & Tfn & Hr & Nr & Wr & Pr & Hc)
      (es' & os' & pts' & r' & (Gn' & Nd' & Ein' & Eall') & Hin' & Hcol' & _ & Hk' & _ & _ & _ & Hr' & Nr' & Wr' & Pr' & Hc').
    assert (Ees : forall p, exports_get es' p = exports_get es p).
    { apply exports_get_same; [exact Nd' | exact Nd|]. assert (Eta : forall e, e_kind e = KSchema -> e = {| e_kind := KSchema; Resolver.e_name := Resolver.e_name e; e_ptr := e_ptr e |}) by (intros [k n p] E; cbn in *; now subst k).
      intro e. split; intro I; [destruct (Ein' e I) as (Ek & s & V & X); rewrite (Eta e Ek); exact (Eall s _ _ V X) | destruct (Ein e I) as (Ek & s & V & X); rewrite (Eta e Ek); exact (Eall' s _ _ V X)]. }
    set (fn := scan_fn (op_override o) (go_types pf zero fnum std_mapping a ch1 de pts)) in *.
    assert (Efn : forall p, scan_fn (op_override o) (go_types pf zero fnum std_mapping a ch2 de pts') p = fn p).
    { intro p. unfold fn, scan_fn. destruct (oget _ _); [reflexivity|]. destruct (String.eqb _ _); [|reflexivity]. symmetry. now apply (go_types_same pf zero fnum a ch1 ch2 de ss roots os os' pts pts'). }
    rewrite (resolve_ext (ch_resolve ch2) es' es _ fn _ _ Ees Efn) in Hr'.
    destruct r as [r|]; [|congruence]. destruct r' as [r'|]; [|congruence]. cbn [c_data] in Wr, Wr', Pr, Pr'.
    destruct Pd as (Wd & Kd & md & Ed & Rd).
    assert (Td : tidy d2). { split; [exact Wd|]. split; [exact Kd|]. intros t p (L & _). rewrite Ed in L. cbn [app lookup] in L. rewrite Rd in L. discriminate. }
    assert (Hfn : forall p x, fn p = Ok x -> tidy x /\ lonely x).
    { intros p x E. split; [exact (Tfn p x E)|]. unfold fn, scan_fn in E. destruct (oget (ptr_string p) (op_override o)) as [y|] eqn:Ey.
      - injection E as <-. apply oget_in in Ey. rewrite Forall_forall in Rov. destruct (Rov _ Ey) as (_ & _ & _ & L & _). exact L.
      - destruct (String.eqb _ "go"); [|discriminate]. exact (go_types_lonely pf zero fnum a ch1 de pts p x E). }
    assert (Ld : lonely d2) by apply Hres.
    assert (Hap : forall e q t p, In e es -> ext_ref d2 q t p -> Spec_Loc.apart (comp_of e) q).
    { intros e q t p Ie E. destruct (Ein e Ie) as (Ek & s & V & X). unfold comp_of. rewrite Ek. refine (proj2 (Hxp s (Resolver.e_name e) V _) q t p E). apply exports_type_name. now exists (e_ptr e). }
    assert (Hex : forall p, expo es p <> None <-> exported_text a ss roots (ptr_string p)).
    { intro p. unfold expo, exports_get. split.
      - destruct (find _ es) as [e|] eqn:Ee; [|intro N; now elim N]. intros _. apply find_some in Ee as (Ie & Ee). apply String.eqb_eq in Ee. destruct (Ein e Ie) as (_ & s & V & X). exists s, (Resolver.e_name e), (e_ptr e). auto.
      - intros (s & n & p0 & V & X & Et). destruct (find _ es) as [e|] eqn:Ee; [discriminate|]. pose proof (find_none _ _ Ee _ (Eall s n p0 V X)) as N. cbn [e_ptr] in N. rewrite Et, String.eqb_refl in N. discriminate. }
    assert (Er : r = r').
    { refine (resolve_deterministic es fn d2 Hfn (conj Td Ld) _ Gn Hap _ _ (ch_resolve ch1) (ch_resolve ch2) (de_resolve de) (de_resolve de) r r' O3 O3' Hr Hr').
      - intros e Ie. apply (Ein e Ie).
      - intros p q q' p' _ Xp L1 Eq L2 Ep. apply Hex. apply (fn_leads_on os pts ch1 p q Hin Hcol Hk P1 O4) in L1. apply (fn_leads_on os pts ch1 q' p' Hin Hcol Hk P1 O4) in L2. rewrite Eq, Ep in L2. apply Hex in Xp. exact (Hcyc _ _ Xp L1 L2).
      - intros p p' x x' s _ _ X X' F1 F2. assert (Et : ptr_string p = ptr_string p').
        { unfold expo, exports_get in X, X'. destruct (find _ es) as [e|] eqn:Ee in X; [|discriminate]. destruct (find _ es) as [e'|] eqn:Ee' in X'; [|discriminate]. apply find_some in Ee as (Ie & Ee). apply find_some in Ee' as (Ie' & Ee'). apply String.eqb_eq in Ee. apply String.eqb_eq in Ee'.
          destruct (Ein e Ie) as (_ & s1 & V1 & X1). destruct (Ein e' Ie') as (_ & s2 & V2 & X2). assert (En : Resolver.e_name e = Resolver.e_name e') by congruence. rewrite <- Ee, <- Ee'. rewrite <- En in X2. exact (Hnames _ _ _ _ _ V1 V2 X1 X2). }
        unfold fn, scan_fn, go_types, scanner_resolve, pm_find in F1, F2. rewrite Et in F1. destruct (oget (ptr_string p') (op_override o)); [congruence|].
        destruct (String.eqb (u_scheme (p_url p)) "go"); [|discriminate]. destruct (String.eqb (u_scheme (p_url p')) "go"); [|discriminate]. congruence. }
    subst r'.
    assert (X : wf (c_data c1) /\ wf (c_data c2) /\ forall q : list string, True -> at_path q (c_data c1) = at_path q (c_data c2)).
    { apply (defaults_same _ _ _ _ _ _ _ _ (op_defops o) M3 M3' M4 M4' O5 O5' M5 M5' Ddef (fun _ => True)) with (doc1 := r) (doc2 := r); auto.
      intros p m v Op. unfold operation in Op. apply at_path_lookup in Op.
      pose proof (resolve_framed _ _ _ _ _ _ O3 Wd Kd Fx Gn Hr) as Fr.
      assert (X : exists v0, lookup [SKey "paths"; SKey p; SKey m] d2 = Some v0).
      { destruct (framed_paths d2 es (Some r) [SKey p; SKey m] Fr) as [(x & y & E & _)|[(x & y & E & _)|E]]; [|eauto|eauto|].
        - intros e t p0 E (u & A). exact (Hpx e t p0 E p m u A).
        - exists v. rewrite <- E. exact Op. }
      destruct X as (v0 & X). apply (Hone d1 d2 p m v0 Hfiles Hcomp). unfold operation. now apply at_path_lookup. }
    destruct X as (W & _ & X). specialize (X [] Logic.I). cbn in X. split; [exact W | congruence].
  Qed.
End All.
