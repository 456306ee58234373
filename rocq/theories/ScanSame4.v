(** Two scans of the same input agree outside the exported components. *)
From Coq Require Import String Ascii List Bool Arith ZArith Lia Permutation.
From Verif Require Import Route GoStr GoStrFacts Json JsonFacts Gabs Container Url Pointer PtrFacts Spec_Ptr Spec_Clone Spec_Merge MergeFacts MergeApi MergeLaws HeapApi SetFacts
  Spec_Loc LocFacts Root Spec_Root RootFacts PathsFacts Spec_Resolve Spec_ResolveOk Resolver ResolverFacts ResolverFrame ResolverAt ScanFn ScanRefs ScanKept ScanKept2 ScanFacts
  Tag Types Spec_Types TypesFacts CollectFacts CollectApi DenoteFacts Spec_Tag Spec_Schema SchemaFacts JsonText SchemaJson SchemaJsonFacts SchemaJsonApi ConfigApi ScanTypes P_At P_Types SchemaNeat
  Scan Spec_Scan Spec_Ends Spec_Kept Spec_Cmds Spec_ScanOk ScanStages ScanOk Spec_Same ScanSame ScanSame2 ScanSame3.
Import ListNotations.
Local Open Scope string_scope.
Local Open Scope nat_scope.
Local Open Scope list_scope.

(** *** References in schemas are alone *)
Lemma schema_lonely {F} (fnum : F -> num) (s : schema F) : neat (fun _ => NInt 0) s -> forall j, schema_json fnum s = Ok j -> lonely j.
Proof.
  induction 1 as [s Hr Dm DM Dd Np IHp Ni IHi Na IHa No IHo]. intros j Hj.
  destruct (schema_json_spec fnum s j Hj) as (r & addl & items & oneof & props & Jr & Ja & Ji & Jo & Jp & ->).
  assert (Mem : forall k v, In (k, v) (flat (members fnum s r addl items oneof props)) -> no_refs v \/ (s_ref s = None /\ lonely v)).
  { intros k v I. apply in_flat in I.
    assert (SC : match v with JArr _ | JObj _ => False | _ => True end -> no_refs v \/ (s_ref s = None /\ lonely v)) by (intro S; left; now apply no_refs_scalar).
    assert (NR : s_ref s = None \/ s_ref s <> None) by (destruct (s_ref s); [right; discriminate | now left]).
    unfold members, o_bool, o_str, o_int, o_flt in I.
    repeat (destruct I as [E|I]; [injection E as _ E|]); try (destruct I); try (destruct (_ : bool) in E; [injection E as <- | discriminate E]; apply SC; exact Logic.I);
      try (destruct (String.eqb _ _) in E; [discriminate E | injection E as <-]; apply SC; exact Logic.I).
    all: try (match type of E with option_map _ ?o = _ => destruct o; [injection E as <- | discriminate E] end; apply SC; exact Logic.I).
    - subst r. destruct (s_ref s) as [p|]; [|discriminate Jr]. destruct Jr as (y & Hy & [= ->]). apply marshal_str in Hy as (u & ->). now apply SC.
    - subst addl. unfold opt_json in Ja. destruct (s_addl s) as [x|] eqn:Ex; [|discriminate]. destruct Ja as (y & Hy & [= ->]). pose proof (IHa x eq_refl y Hy) as L. right. split; [|exact L]. destruct NR as [->|X]; [reflexivity|]. apply Hr in X as (_ & _ & X & _). discriminate.
    - subst items. unfold opt_json in Ji. destruct (s_items s) as [x|] eqn:Ex; [|discriminate]. destruct Ji as (y & Hy & [= ->]). pose proof (IHi x eq_refl y Hy) as L. right. split; [|exact L]. destruct NR as [->|X]; [reflexivity|]. apply Hr in X as (_ & X & _). discriminate.
    - assert (E' : v = JArr oneof) by (destruct oneof; [discriminate | now injection E as <-]). subst v. assert (O : forall y, In y oneof -> lonely y) by (intros y Iy; destruct (forall2_in_r _ _ _ _ Jo Iy) as (x & Ix & Ex); exact (IHo x Ix y Ex)).
      right. split; [|apply lonely_arr, Forall_forall; exact O].
      destruct NR as [->|X]; [reflexivity|]. apply Hr in X as (_ & _ & _ & X). rewrite X in Jo. inversion Jo; subst. discriminate E.
    - assert (E' : v = JObj props) by (destruct props; [discriminate | now injection E as <-]). subst v.
      assert (O : forall k0 y, In (k0, y) props -> lonely y /\ exists m, y = JObj m).
      { intros k0 y Iy. destruct (forall2_in_r _ _ _ _ Jp Iy) as ([k1 x] & Ix & Ek & Ex). cbn [fst snd] in *. split; [exact (IHp k1 x Ix y Ex)|]. destruct (schema_json_spec fnum x _ Ex) as (? & ? & ? & ? & ? & _ & _ & _ & _ & _ & ->). eauto. }
      right. split.
      + destruct NR as [->|X]; [reflexivity|]. apply Hr in X as (X & _). rewrite X in Jp. inversion Jp; subst. discriminate E.
      + apply lonely_flat; [|intros k0 y Iy; apply (O k0 y Iy)]. destruct (oget "$ref" props) as [y|] eqn:Ey; [|exact Logic.I]. apply oget_in in Ey. destruct (O _ _ Ey) as (_ & m & ->). exact Logic.I.
    - assert (E' : v = JArr (map JStr (s_required s))) by (destruct (s_required s); [discriminate | now injection E as <-]). subst v. left. apply no_refs_strs. }
  pose proof (schema_json_members fnum s _ Hj) as (_ & Er & _).
  destruct (s_ref s) as [p|] eqn:E.
  - apply lonely_bare. intros k v I. destruct (Mem k v I) as [X|(X & _)]; [exact X | discriminate].
  - apply lonely_flat; [rewrite Er; exact Logic.I|]. intros k v I. destruct (Mem k v I) as [X|(_ & X)]; [now apply no_refs_lonely | exact X].
Qed.
Lemma go_types_lonely {F} pf (zero : F) fnum a ch de pts p x : go_types pf zero fnum std_mapping a ch de pts p = Ok x -> lonely x.
Proof.
  intro H. unfold go_types in H. apply bind_ok in H as (s & Hs & Hx). unfold scanner_resolve in Hs. destruct (pm_find _ _ _) as [t|]; [|discriminate].
  apply (schema_lonely fnum s); [|exact Hx]. eapply conv_neat; [discriminate | apply std_mapping_neat | exact Hs | |]; [intros f _; discriminate | intros fs x0 _ _ f _; discriminate].
Qed.

(** *** Exports *)
Lemma exports_get_same es1 es2 : NoDup (map (fun e => ptr_string (e_ptr e)) es1) -> NoDup (map (fun e => ptr_string (e_ptr e)) es2) -> (forall e, In e es1 <-> In e es2) -> forall p, exports_get es1 p = exports_get es2 p.
Proof.
  assert (G : forall es e p, NoDup (map (fun e => ptr_string (e_ptr e)) es) -> In e es -> ptr_string (e_ptr e) = ptr_string p -> exports_get es p = Some e).
  { intros es e p. unfold exports_get. induction es as [|x es IH]; [intros _ []|]. cbn [map find]. intros N I E. inversion N as [|? ? N1 N2]; subst. destruct I as [->|I]; [rewrite (proj2 (String.eqb_eq _ _) E); reflexivity|].
    destruct (String.eqb_spec (ptr_string (e_ptr x)) (ptr_string p)) as [E'|_]; [|now apply IH]. elim N1. rewrite E', <- E. exact (in_map (fun e => ptr_string (e_ptr e)) _ _ I). }
  intros N1 N2 H p. destruct (exports_get es1 p) as [e|] eqn:E1.
  - apply exports_get_in in E1 as (I & E). symmetry. apply G; [exact N2 | now apply H | exact E].
  - destruct (exports_get es2 p) as [e|] eqn:E2; [|reflexivity]. apply exports_get_in in E2 as (I & E). rewrite <- E1. apply G; [exact N1 | now apply H | exact E].
Qed.

Section Same.
  Context {F : Type} (pf : string -> option F) (zero : F) (fnum : F -> num) (a : around) (ch1 ch2 : choices) (de : depths).
  Context (o : options) (ss : list source) (roots : list nat).
  (** *** References *)
  Section Types.
    Context (os1 os2 : list gobj) (pts1 pts2 : pmap).
    Hypothesis Hin1 : scan_input (ar_env a) os1. Hypothesis Hin2 : scan_input (ar_env a) os2.
    Hypothesis Hcol1 : collect_all (ar_env a) (de_walk de) os1 [] = Ok pts1. Hypothesis Hcol2 : collect_all (ar_env a) (de_walk de) os2 [] = Ok pts2.
    Hypothesis Hk1 : forall T txt, registered pts1 T txt <-> known_at a ss roots T txt. Hypothesis Hk2 : forall T txt, registered pts2 T txt <-> known_at a ss roots T txt.
    Hypothesis Hpk1 : picks_shortest (ch_pick ch1). Hypothesis Hpk2 : picks_shortest (ch_pick ch2).
    Hypothesis Hord1 : forall m, Permutation (ch_points ch1 m) m. Hypothesis Hord2 : forall m, Permutation (ch_points ch2 m) m.
    Hypothesis Hplace : one_place a ss roots.
    Lemma picked os pts ch T n : scan_input (ar_env a) os -> collect_all (ar_env a) (de_walk de) os [] = Ok pts -> (forall T txt, registered pts T txt <-> known_at a ss roots T txt) -> picks_shortest (ch_pick ch) ->
      pm_at pts T <> [] -> exists p l, ch_pick ch n (pm_at pts T) = p /\ homely p l /\ exists p', ptr_string p' = ptr_string p /\ nearest a ss roots T p'.
    Proof.
      intros Hin Hcol Hk Hpk N. destruct (Hpk n _ N) as (I & Min). pose proof Hin as (He & Hf & Ho & Hd & Hod & Hu).
      destruct (collect_home (ar_env a) He (de_walk de) os [] pts Ho) with (T := T) (p := ch_pick ch n (pm_at pts T)) as (l & Hl); [intros ? ? [] | exact Hcol | exact I|].
      exists (ch_pick ch n (pm_at pts T)), l. split; [reflexivity|]. split; [exact Hl|]. destruct (registered_pointer a os (de_walk de) pts Hin Hcol T _ I) as (p' & P & E & _ & Fr). exists p'. split; [exact E|].
      split; [apply Hk; exists (ch_pick ch n (pm_at pts T)); auto|]. split; [rewrite E; exact P|]. intros p2 K2 P2. apply Hk in K2 as (p3 & I3 & E3). destruct (registered_pointer a os (de_walk de) pts Hin Hcol T _ I3) as (p4 & P4 & _ & _ & Fr4).
      rewrite E3, P2 in P4. injection P4 as <-. rewrite Fr, Fr4. exact (Min _ I3).
    Qed.
    Lemma reference_same n T : by_reference (ar_env a) T -> @reference2schema F std_mapping (ch_pick ch1) n pts1 T = reference2schema std_mapping (ch_pick ch2) n pts2 T.
    Proof.
      intro B. unfold reference2schema.
      assert (Em : pm_at pts1 T = [] <-> pm_at pts2 T = []).
      { assert (G : forall m, (pm_at m T = [] <-> forall txt, ~ registered m T txt)).
        { intro m. split; [intros E txt (p & I & _); rewrite E in I; exact I|]. intro N. destruct (pm_at m T) as [|p l] eqn:E; [reflexivity|]. elim (N (ptr_string p)). exists p. rewrite E. split; [now left | reflexivity]. }
        rewrite !G. split; intros N txt R; apply (N txt); [apply Hk1, Hk2, R | apply Hk2, Hk1, R]. }
      destruct (pm_at pts1 T) as [|x1 l1] eqn:E1.
      - rewrite (proj1 Em eq_refl). reflexivity.
      - destruct (pm_at pts2 T) as [|x2 l2] eqn:E2; [discriminate (proj2 Em eq_refl)|].
        destruct (picked os1 pts1 ch1 T n Hin1 Hcol1 Hk1 Hpk1) as (p1 & k1 & Q1 & H1 & p1' & S1 & N1); [congruence|]. destruct (picked os2 pts2 ch2 T n Hin2 Hcol2 Hk2 Hpk2) as (p2 & k2 & Q2 & H2 & p2' & S2 & N2); [congruence|].
        rewrite E1 in Q1. rewrite E2 in Q2. rewrite Q1, Q2. assert (Ep : p1 = p2) by (apply (homely_inj _ _ _ _ H1 H2); rewrite <- S1, <- S2; exact (Hplace T p1' p2' B N1 N2)). rewrite Ep. reflexivity.
    Qed.
    Lemma go_types_same p : go_types pf zero fnum std_mapping a ch1 de pts1 p = go_types pf zero fnum std_mapping a ch2 de pts2 p.
    Proof.
      pose proof Hin1 as (He & Hf & Ho1 & Hd & Hod1 & Hu1). pose proof Hin2 as (_ & _ & Ho2 & _ & Hod2 & Hu2).
      assert (Ef : pm_find (ch_points ch1) pts1 p = pm_find (ch_points ch2) pts2 p).
      { destruct (pm_find (ch_points ch1) pts1 p) as [T|] eqn:E1.
        - assert (N1 := proj1 (collect_all_good (ar_env a) He (de_walk de) os1 [] pts1 Ho1 pm_good_nil Hcol1)).
          assert (R : exists T, registered pts1 T (ptr_string p)).
          { unfold pm_find in E1. destruct (find _ _) as [e|] eqn:Ee; [|discriminate]. apply find_some in Ee as (Ie & Xe). apply existsb_exists in Xe as (q & Iq & Eq). apply String.eqb_eq in Eq. apply (Permutation_in _ (Hord1 pts1)) in Ie.
            exists (fst e), q. split; [|now symmetry]. destruct e as [T0 l0]. cbn [fst snd] in *. rewrite (pm_at_in pts1 T0 l0 N1 Ie). exact Iq. }
          destruct R as (T' & R). pose proof (find_unique (ar_env a) He Hd os1 Ho1 Hod1 Hu1 (de_walk de) pts1 Hcol1 (ch_points ch1) p T' (Hord1 pts1) R) as E1'. rewrite E1 in E1'. injection E1' as ->.
          symmetry. apply (find_unique (ar_env a) He Hd os2 Ho2 Hod2 Hu2 (de_walk de) pts2 Hcol2 (ch_points ch2) p T' (Hord2 pts2)). apply Hk2, Hk1, R.
        - symmetry. apply pm_find_none; [apply Hord2 | apply (collect_all_good (ar_env a) He (de_walk de) os2 [] pts2 Ho2 pm_good_nil Hcol2)|]. intros T R. apply Hk2, Hk1 in R. revert R.
          apply (pm_find_none (ch_points ch1) pts1 p (Hord1 pts1) (proj1 (collect_all_good (ar_env a) He (de_walk de) os1 [] pts1 Ho1 pm_good_nil Hcol1))). exact E1. }
      unfold go_types, scanner_resolve. rewrite Ef. destruct (pm_find (ch_points ch2) pts2 p) as [t|]; [|reflexivity].
      rewrite (conv_ext pf zero (ar_env a) std_mapping (ch_pick ch1) (ch_pick ch2) pts1 pts2 Hf reference_same); [reflexivity | intros x []].
    Qed.
  End Types.

  (** *** Documents *)
  Lemma outside_apart k n : ~ is_prefix ["components"; "schemas"; n] k -> ~ is_prefix k ["components"; "schemas"; n] -> Spec_Loc.apart (comp_loc "schemas" n) (map SKey k).
  Proof.
    intros A B. assert (Inj : forall l l' : list string, map SKey l = map SKey l' -> l = l') by (induction l as [|x l IH]; intros [|y l'] E; try discriminate; [reflexivity | injection E as -> E; f_equal; auto]).
    split; intros (r & E).
    - change (comp_loc "schemas" n) with (map SKey ["components"; "schemas"; n]) in E. assert (X : exists r', r = map SKey r').
      { exists (skipn 3 k). rewrite <- skipn_map, E. reflexivity. }
      destruct X as (r' & ->). rewrite <- map_app in E. apply Inj in E. apply A. now exists r'.
    - change (comp_loc "schemas" n) with (map SKey ["components"; "schemas"; n]) in E. assert (X : exists r', r = map SKey r').
      { exists (skipn (length k) ["components"; "schemas"; n]). rewrite <- skipn_map, E. rewrite <- (map_length SKey k) at 1. now rewrite skipn_app, skipn_all, Nat.sub_diag. }
      destruct X as (r' & ->). rewrite <- map_app in E. apply Inj in E. apply B. now exists r'.
  Qed.
  Theorem same_outside d1 d2 c1 c2 : any_order ch1 -> any_order ch2 -> collecting_in_any_order ch1 -> collecting_in_any_order ch2 -> picks_shortest (ch_pick ch1) -> picks_shortest (ch_pick ch2) ->
    defaults_sound o -> files_in_order a ss roots d1 -> composed (op_root o) d1 d2 -> resolvable d2 ->
    references_in_order pf fnum zero a o ss roots d2 -> exports_in_order a ss roots d2 -> paths_in_order o d2 -> one_place a ss roots -> one_default a o ss roots ->
    made_of pf zero fnum a ch1 de o ss roots d2 c1 -> made_of pf zero fnum a ch2 de o ss roots d2 c2 ->
    wf (c_data c1) /\ wf (c_data c2) /\ forall k, outside_exports a ss roots k -> at_path k (c_data c1) = at_path k (c_data c2).
  Proof.
    intros ((M1 & M2 & M3 & M4 & M5) & O1 & O2 & O3 & O4 & O5) ((M1' & M2' & M3' & M4' & M5') & O1' & O2' & O3' & O4' & O5') Co1 Co2 P1 P2 (Ddef & _) Hfiles Hcomp Hres (_ & Rov & _) Hxp (_ & Hpx & _) Hplace Hone
      (es & os & pts & r & (Gn & Nd & Ein & Eall) & Hin & Hcol & _ & Hk & Pd & Fx & Tfn & Hr & Nr & Wr & Pr & Hc)
      (es' & os' & pts' & r' & (Gn' & Nd' & Ein' & Eall') & Hin' & Hcol' & _ & Hk' & _ & _ & _ & Hr' & Nr' & Wr' & Pr' & Hc').
    assert (Ees : forall p, exports_get es' p = exports_get es p).
    { apply exports_get_same; [exact Nd' | exact Nd|]. assert (Eta : forall e, e_kind e = KSchema -> e = {| e_kind := KSchema; Resolver.e_name := Resolver.e_name e; e_ptr := e_ptr e |}) by (intros [k n p] E; cbn in *; now subst k).
      intro e. split; intro I; [destruct (Ein' e I) as (Ek & s & V & X); rewrite (Eta e Ek); exact (Eall s _ _ V X) | destruct (Ein e I) as (Ek & s & V & X); rewrite (Eta e Ek); exact (Eall' s _ _ V X)]. }
    set (fn := scan_fn (op_override o) (go_types pf zero fnum std_mapping a ch1 de pts)) in *.
    assert (Efn : forall p, scan_fn (op_override o) (go_types pf zero fnum std_mapping a ch2 de pts') p = fn p).
    { intro p. unfold fn, scan_fn. destruct (oget _ _); [reflexivity|]. destruct (String.eqb _ _); [|reflexivity]. symmetry. now apply (go_types_same os os' pts pts'). }
    rewrite (resolve_ext (ch_resolve ch2) es' es _ fn _ _ Ees Efn) in Hr'.
    destruct r as [r|]; [|congruence]. destruct r' as [r'|]; [|congruence]. cbn [c_data] in Wr, Wr', Pr, Pr'.
    destruct Pd as (Wd & Kd & md & Ed & Rd).
    assert (Td : tidy d2). { split; [exact Wd|]. split; [exact Kd|]. intros t p (L & _). rewrite Ed in L. cbn [app lookup] in L. rewrite Rd in L. discriminate. }
    assert (Hfn : forall p x, fn p = Ok x -> tidy x /\ lonely x).
    { intros p x E. split; [exact (Tfn p x E)|]. unfold fn, scan_fn in E. destruct (oget (ptr_string p) (op_override o)) as [y|] eqn:Ey.
      - injection E as <-. apply oget_in in Ey. rewrite Forall_forall in Rov. destruct (Rov _ Ey) as (_ & _ & _ & L & _). exact L.
      - destruct (String.eqb _ "go"); [|discriminate]. exact (go_types_lonely pf zero fnum a ch1 de pts p x E). }
    assert (Ld : lonely d2) by apply Hres.
    assert (Hap : forall e q t p, In e es -> ext_ref d2 q t p -> Spec_Loc.apart (comp_loc (kind_key (e_kind e)) (Resolver.e_name e)) q).
    { intros e q t p Ie E. destruct (Ein e Ie) as (Ek & s & V & X). rewrite Ek. refine (proj2 (Hxp s (Resolver.e_name e) V _) q t p E). apply exports_type_name. now exists (e_ptr e). }
    assert (Same : forall q, (forall e, In e es -> Spec_Loc.apart (comp_loc (kind_key (e_kind e)) (Resolver.e_name e)) q) -> lookup q r = lookup q r').
    { apply (resolve_same (ch_resolve ch1) (ch_resolve ch2) es fn (de_resolve de) (de_resolve de) d2 r r'); auto. }
    assert (Sat : forall q, outside_exports a ss roots q -> at_path q r = at_path q r').
    { intros q Hq. assert (X : lookup (map SKey q) r = lookup (map SKey q) r').
      { apply Same. intros e Ie. destruct (Ein e Ie) as (Ek & s & V & Xp). rewrite Ek. destruct (Hq s (Resolver.e_name e) V) as (A & B); [apply exports_type_name; now exists (e_ptr e)|]. now apply outside_apart. }
      destruct (at_path q r) as [v|] eqn:E1; destruct (at_path q r') as [v'|] eqn:E2; try reflexivity; try (apply at_path_lookup in E1); try (apply at_path_lookup in E2); try congruence.
      - rewrite E1 in X. symmetry in X. apply at_path_lookup in X. congruence.
      - rewrite E2 in X. apply at_path_lookup in X. congruence. }
    apply (defaults_same _ _ _ _ _ _ _ _ (op_defops o) M3 M3' M4 M4' O5 O5' M5 M5' Ddef (outside_exports a ss roots)) with (doc1 := r) (doc2 := r'); auto.
    - intros p q Hp s n V X. destruct (Hp s n V X) as (A & B). split.
      + intros (z & E). destruct (app_eq_app _ _ _ _ E) as (w & [(E1 & E2)|(E1 & E2)]); [apply A; now exists w | apply B; now exists w].
      + intros (z & E). apply B. exists (q ++ z). now rewrite app_assoc.
    - intros q s n V X. split; intros (z & E); discriminate.
    - intros p m v Op. unfold operation in Op. apply at_path_lookup in Op.
      pose proof (resolve_framed _ _ _ _ _ _ O3 Wd Kd Fx Gn Hr) as Fr.
      assert (X : exists v0, lookup [SKey "paths"; SKey p; SKey m] d2 = Some v0).
      { destruct (framed_paths d2 es (Some r) [SKey p; SKey m] Fr) as [(x & y & E & _)|[(x & y & E & _)|E]]; [|eauto|eauto|].
        - intros e t p0 E (u & A). exact (Hpx e t p0 E p m u A).
        - exists v. rewrite <- E. exact Op. }
      destruct X as (v0 & X). apply (Hone d1 d2 p m v0 Hfiles Hcomp). unfold operation. now apply at_path_lookup.
  Qed.
End Same.
