(** Scan builds a document when everything is in order (proofs). *)
From Coq Require Import String Ascii List Bool Arith ZArith Lia Permutation.
From Verif Require Import GoStr GoStrFacts Json JsonFacts Gabs Container Url Pointer Spec_Ptr PtrFacts FragFacts Spec_Clone Spec_Merge CloneFacts MergeFacts MergeApi ConfigApi
  Spec_Loc LocFacts SetFacts Spec_Resolve ResolverFacts ResolverFrame ResolverTerm Path Resolver ScanFn Cmds Spec_Cmds CmdFacts Specs Spec_Specs SpecFacts Pkgs Spec_Pkgs PkgFacts Tag Spec_Tag TagFacts Types TypesFacts WalkFacts Root RootFacts Spec_Root Route PathsFacts
  SchemaJson SchemaJsonFacts SchemaJsonApi Scan ScanFacts Spec_Types CollectFacts Spec_Schema SchemaRefs DenoteFacts SchemaFacts SchemaOutcome ScanTypes Spec_Scan ScanInv ScanRefs ScanEnd ScanKept ScanKept2 Spec_Kept ScanKept3 CollectApi ScanStages P_Types Spec_Ends ScanDepth ScanEnds
  Spec_Format Spec_ResolveOk ResolverOk SchemaNeat Spec_ScanOk.
Import ListNotations.
Local Open Scope string_scope.
Local Open Scope nat_scope.
Local Open Scope list_scope.

(** *** Visiting *)
Lemma run_no_err {A} (P : A -> Prop) (fn : nat -> A -> res (A * bool)) l : (forall i y, In i l -> P y -> no_err (fn i y) (fun r => snd r = false /\ P (fst r))) ->
  forall x, P x -> no_err (run fn l x) (fun r => snd r = [] /\ P (fst r)).
Proof.
  induction l as [|i l IH]; intros H x Px; [now split|]. cbn [run]. eapply no_err_bind; [exact (H i x (or_introl eq_refl) Px)|]. intros (y & b) _ (Hb & Py). cbn [fst snd] in *. subst b.
  eapply no_err_bind; [apply (IH (fun j z Ij => H j z (or_intror Ij)) y Py)|]. intros (z & es) _ (He & Pz). cbn [fst snd] in *. subst es. now split.
Qed.
Lemma scan_with_no_err a ch de ss roots : loaded (map so_pkg ss) -> (forall i, In i roots -> i < length ss) -> length ss < de_pkgs de -> (forall n i l, Permutation (ch_imports ch n i l) l) -> is_string_sort (ch_strings ch) ->
  (forall i s, visited_at a ss roots i -> nth_error ss i = Some s -> g_errors (so_pkg s) = 0) ->
  exists vis, lists_visited a ss roots vis /\
  forall A n (fn : source -> nat -> A -> res (A * bool)) x (P : A -> Prop),
    no_err (run (fun i y => match nth_error ss i with Some s => fn s i y | None => Panic end) vis x) (fun r => snd r = [] /\ P (fst r)) ->
    no_err (scan_with a ch de n fn ss (map Some roots) x) (fun r => run (fun i y => match nth_error ss i with Some s => fn s i y | None => Panic end) vis x = Ok (r, []) /\ P r).
Proof.
  intros Hl Hr Hf Hi Hs He. destruct (scan_spec (map so_pkg ss) (ar_std a) roots Hl) as (l & Nd & Hin & _ & Hrun); [intros i I; rewrite map_length; auto|].
  exists l. split; [exact (conj Nd Hin)|]. intros A n fn x P H. unfold scan_with.
  specialize (Hrun (de_pkgs de) (ch_imports ch n) (ch_strings ch) A (fun i y => match nth_error ss i with Some s => fn s i y | None => Panic end) x). rewrite map_length in Hrun. specialize (Hrun Hf (Hi n) Hs).
  destruct (run _ l x) as [(y & es)| | |]; [|destruct H | rewrite Hrun; exact Logic.I | rewrite Hrun; exact Logic.I].
  destruct H as (H & Py). cbn [fst snd] in *. subst es. destruct Hrun as (errs & E & Pm). rewrite E. cbn [bind fst snd].
  assert (Z : flat_map (load_errors (map so_pkg ss)) l = []).
  { assert (Q : forall i, In i l -> load_errors (map so_pkg ss) i = []).
    { intros i Ii. apply Hin in Ii. unfold load_errors. rewrite nth_error_map. destruct (nth_error ss i) as [s|] eqn:En; [|reflexivity]. cbn [option_map]. now rewrite (He i s Ii En). }
    clear - Q. induction l as [|i l IH]; [reflexivity|]. cbn. rewrite (Q i (or_introl eq_refl)). apply IH. intros j Ij. apply Q. now right. }
  rewrite Z in Pm. apply Permutation_sym, Permutation_nil in Pm. subst errs. now split.
Qed.

(** *** Commands *)
Lemma oset_perm {A} k (v : A) m : oget k m = None -> Permutation (oset k v m) ((k, v) :: m).
Proof.
  induction m as [|(k' & v') m IH]; intro H; [reflexivity|]. cbn [oset oget] in *. destruct (String.compare k k') eqn:Ec.
  - apply String.compare_eq_iff in Ec. subst k'. rewrite String.eqb_refl in H. discriminate.
  - reflexivity.
  - destruct (String.eqb k k'); [discriminate|]. rewrite (IH H). constructor.
Qed.
Lemma commands_scanned s cc m : commands_of s cc -> scan_cmds {| cs_path := so_path s; cs_types := so_types s; cs_groups := so_groups s |} m = Ok (oset (so_path s) cc m, false).
Proof.
  intros (bss & B & D). unfold scan_cmds. cbn [cs_path cs_types cs_groups]. rewrite (proj2 (all_comments_spec (so_groups s) (concat bss))) by (exists bss; auto). cbn [bind].
  assert (E : parse_all (so_types s) (concat bss) = Ok cc).
  { clear B. induction D as [|b c l cs Hd D IH]; [reflexivity|]. cbn [parse_all]. apply parse_cmd_spec in Hd. rewrite Hd. cbn [bind]. rewrite IH. reflexivity. }
  now rewrite E.
Qed.
Lemma cmds_run ss (cmds : nat -> list command) l : NoDup (map so_path ss) -> NoDup l -> (forall i, In i l -> exists s, nth_error ss i = Some s /\ commands_of s (cmds i)) ->
  forall m, (forall i s, In i l -> nth_error ss i = Some s -> oget (so_path s) m = None) ->
  exists cm, run (fun i y => match nth_error ss i with Some s => scan_cmds {| cs_path := so_path s; cs_types := so_types s; cs_groups := so_groups s |} y | None => Panic end) l m = Ok (cm, []) /\
    Permutation (flat_map (fun kv => schemas_of (snd kv)) cm) (flat_map (fun kv => schemas_of (snd kv)) m ++ flat_map (fun i => schemas_of (cmds i)) l).
Proof.
  intros Np. induction l as [|i l IH]; intros Nd H m Hm; [exists m; cbn; now rewrite app_nil_r|]. inversion Nd as [|? ? Ni Nl]; subst.
  destruct (H i (or_introl eq_refl)) as (s & En & Hc). cbn [run]. rewrite En, (commands_scanned s (cmds i) m Hc). cbn [bind fst snd].
  destruct (IH Nl (fun j Ij => H j (or_intror Ij)) (oset (so_path s) (cmds i) m)) as (cm & -> & P).
  - intros j s' Ij En'. rewrite oget_oset. destruct (String.eqb_spec (so_path s') (so_path s)) as [E|E]; [|exact (Hm j s' (or_intror Ij) En')].
    exfalso. apply Ni. assert (i = j); [|congruence]. apply (proj1 (NoDup_nth_error (map so_path ss)) Np); [rewrite map_length; apply nth_error_Some; congruence|]. rewrite !nth_error_map, En, En'. cbn. now rewrite E.
  - exists cm. split; [reflexivity|]. cbn [flat_map]. rewrite P. rewrite (Permutation_flat_map _ (oset_perm (so_path s) (cmds i) m (Hm i s (or_introl eq_refl) En))). cbn [flat_map snd].
    rewrite <- app_assoc, (Permutation_app_comm (schemas_of (cmds i)) (_ ++ _)), <- app_assoc. apply Permutation_app_head. apply Permutation_app_comm.
Qed.

(** *** Files *)
Lemma map_refs_ext f g j : (forall q t, lookup (q ++ [SKey "$ref"]) j = Some (JStr t) -> f t = g t) -> wf j -> map_refs f j = map_refs g j.
Proof.
  induction j as [| | | |l IH|m IH] using json_induction; intros H W; try reflexivity.
  - cbn [map_refs]. f_equal. apply wf_arr in W. apply map_ext_in. intros x Ix. rewrite Forall_forall in IH, W. apply IH; [exact Ix | | exact (W x Ix)].
    apply In_nth_error in Ix as (i & Ei). intros q t L. apply (H (SIdx i :: q) t). cbn [app lookup]. now rewrite Ei.
  - assert (E : forall m0, (forall k v, In (k, v) m0 -> In (k, v) m) -> map_refs f (JObj m0) = map_refs g (JObj m0)); [|now apply E].
    apply wf_obj in W as (S & W). induction m0 as [|(k & v) m0 IHm]; intro Hi; [reflexivity|].
    assert (E0 : map_refs f (JObj m0) = map_refs g (JObj m0)) by (apply IHm; intros; apply Hi; now right). cbn [map_refs] in *. injection E0 as E0. f_equal. f_equal; [|exact E0]. f_equal.
    pose proof (Hi k v (or_introl eq_refl)) as Ik. assert (Eg : oget k m = Some v) by now apply sorted_in_oget.
    assert (V : map_refs f v = map_refs g v).
    { rewrite Forall_forall in IH, W. apply (IH (k, v) Ik); [|exact (W _ Ik)]. intros q t L. apply (H (SKey k :: q) t). cbn [app lookup]. now rewrite Eg. }
    destruct v; try exact V. destruct (String.eqb_spec k "$ref") as [Ek|]; [|reflexivity]. subst k. f_equal. apply (H [] s). cbn. now rewrite Eg.
Qed.
Lemma made_absolute_fun pkg t t1 t2 : made_absolute pkg t t1 -> made_absolute pkg t t2 -> t1 = t2.
Proof. intros (p & E & H) (p' & E' & H'). assert (p' = p) by congruence. subst p'. destruct H as [(A & B & ->)|(A & ->)]; destruct H' as [(A' & B' & ->)|(A' & ->)]; tauto. Qed.
Definition cloned (f : file) (d : json) : Prop := clone (c_data (f_cont f)) = Ok d.
Lemma docs_read a pkg paths l : files_ok (ar_files a) -> import_path pkg -> docs_at a pkg paths l ->
  exists ff, read_each (ar_files a) paths = Ok ff /\ Forall good_file ff /\ (forall t, file_ref ff t -> ref_ok t) /\ Forall2 cloned (map (rewritten (new_text pkg)) (filter spec_file ff)) l.
Proof.
  intros Hfs Hi. induction 1 as [|path r l E D (ff & R & G & K & C)|path c r l E N D (ff & R & G & K & C)|path doc d r l E N (f & Ha & Hc) D (ff & R & G & K & C)]; cbn [read_each].
  - exists []. split; [reflexivity|]. split; [constructor|]. split; [intros t (f & _ & _ & [] & _) | constructor].
  - rewrite E. exists ff. auto.
  - rewrite E. cbn [bind]. rewrite R. cbn [bind]. eexists. split; [reflexivity|]. split; [constructor; [|exact G]; intro X; elim (N X)|]. split.
    + intros t (f & doc & q & [<-|I] & X & Y); [elim (N X) | apply K; now exists f, doc, q].
    + cbn [filter]. unfold spec_file at 1. cbn [f_cont]. destruct (c_existsp "openapi" c) eqn:Ex; [apply existsp_openapi in Ex; elim (N Ex) | exact C].
  - rewrite E. cbn [bind]. rewrite R. cbn [bind]. destruct (Hfs _ _ E N) as (W & Kd & _). cbn [c_data] in *.
    assert (Ro : forall q t, lookup (q ++ [SKey "$ref"]) doc = Some (JStr t) -> ref_ok t) by (intros q t L; destruct (Ha q t L) as (p & Ep & _); now exists p).
    eexists. split; [reflexivity|]. split; [constructor; [|exact G]; intros _; now split|]. split.
    + intros t (g & doc' & q & [<-|I] & X & Y & L); [cbn [f_cont] in Y; injection Y as <-; exact (Ro q t L) | apply K; now exists g, doc', q].
    + cbn [filter]. unfold spec_file at 1. cbn [f_cont]. apply existsp_openapi in N. rewrite N. cbn [map]. constructor; [|exact C]. unfold cloned, rewritten. cbn [f_cont c_data].
      rewrite (map_refs_ext (new_text pkg) f doc); [exact Hc | | exact W]. intros q t L. exact (made_absolute_fun pkg t _ _ (new_text_absolute pkg t Hi (Ro q t L)) (Ha q t L)).
Qed.
Lemma files_scanned a ch i s st dir l : (forall i n l, Permutation (ch_refs ch i n l) l) -> files_ok (ar_files a) -> import_path (so_path s) ->
  get_pkg_path (ar_gopath a) (ar_missing a) (so_path s) (so_module s) = Ok dir -> docs_at a (so_path s) [join2 dir "oapi.yaml"; join2 dir "oapi.yml"; join2 dir "oapi.json"] l -> sorted (sp_ptrs st) ->
  exists cc pp, scan_specs (ch_refs ch i) (ar_gopath a) (ar_missing a) (ar_files a) {| ss_path := so_path s; ss_module := so_module s |} st = Ok ({| sp_conts := sp_conts st ++ cc; sp_ptrs := pp |}, false) /\ sorted pp /\ Forall2 cloned cc l.
Proof.
  intros Ho Hfs Hi Hd D Ss. destruct (docs_read a _ _ _ Hfs Hi D) as (ff & R & G & K & C). unfold scan_specs. cbn [ss_path ss_module]. rewrite Hd. unfold read_dir. change (map (join2 dir) spec_names) with [join2 dir "oapi.yaml"; join2 dir "oapi.yml"; join2 dir "oapi.json"]. rewrite R.
  destruct (proj1 (scan_files_spec (ch_refs ch i) (so_path s) ff (Ho i) G 0 (sp_ptrs st) Ss) K) as (pp & -> & Sp & _). eexists _, pp. split; [reflexivity|]. now split.
Qed.
Lemma specs_run a ch ss (docs : nat -> list json) vis : (forall i n l, Permutation (ch_refs ch i n l) l) -> files_ok (ar_files a) ->
  (forall i, In i vis -> exists s dir, nth_error ss i = Some s /\ import_path (so_path s) /\ get_pkg_path (ar_gopath a) (ar_missing a) (so_path s) (so_module s) = Ok dir /\
     docs_at a (so_path s) [join2 dir "oapi.yaml"; join2 dir "oapi.yml"; join2 dir "oapi.json"] (docs i)) ->
  forall st, sorted (sp_ptrs st) -> exists cc pp, run (fun i y => match nth_error ss i with Some s => scan_specs (ch_refs ch i) (ar_gopath a) (ar_missing a) (ar_files a) {| ss_path := so_path s; ss_module := so_module s |} y | None => Panic end) vis st
    = Ok ({| sp_conts := sp_conts st ++ cc; sp_ptrs := pp |}, []) /\ Forall2 cloned cc (flat_map docs vis).
Proof.
  intros Ho Hfs. induction vis as [|i vis IH]; intros H st Ss; [exists [], (sp_ptrs st); cbn [run flat_map]; rewrite app_nil_r; destruct st; split; [reflexivity | constructor]|].
  destruct (H i (or_introl eq_refl)) as (s & dir & En & Hi & Hd & D). destruct (files_scanned a ch i s st dir (docs i) Ho Hfs Hi Hd D Ss) as (cc & pp & E & Sp & C). cbn [run]. rewrite En, E. cbn [bind fst snd].
  destruct (IH (fun j Ij => H j (or_intror Ij)) {| sp_conts := sp_conts st ++ cc; sp_ptrs := pp |} Sp) as (cc' & pp' & -> & C'). cbn [sp_conts bind]. exists (cc ++ cc'), pp'. split; [rewrite app_assoc; reflexivity|]. cbn [flat_map]. now apply Forall2_app.
Qed.
Lemma forall2_perm {A B} (R : A -> B -> Prop) l l' m : Permutation l' l -> Forall2 R l m -> exists m', Permutation m' m /\ Forall2 R l' m'.
Proof. intros P F. destruct (Permutation_Forall2 (Permutation_sym P) F) as (m' & Pm & Fm). exists m'. split; [now apply Permutation_sym | exact Fm]. Qed.
Lemma containers_ok (ord : nat -> morder) l ds : (forall n, perm_oracle (ord n)) -> Forall (fun c => plain_doc (c_data c)) l -> Forall2 (fun c d => clone (c_data c) = Ok d) l ds ->
  forall n d r, wf (JObj d) -> strictly (JObj d) ds r -> containers_merge_from ord merge_strict n (Some (JObj d)) l = Ok (Some r).
Proof.
  intros Ho Hl F. induction F as [|x y l ds Ec F IH]; intros n d r Wd St; [inversion St; reflexivity|]. inversion St as [|? ? d' ? ? M S']; subst. cbn [containers_merge_from].
  destruct (plain_clone _ _ (Forall_inv Hl) Ec) as (Wx & _ & m & -> & _). assert (Ci : clone (JObj m) = Ok (JObj m)) by (eapply clone_idem; exact Ec).
  assert (E : c_merge (ord n) merge_strict (Some (JObj d)) x = c_merge (ord n) merge_strict (Some (JObj d)) (Some (JObj m))) by (unfold c_merge, c_clone; cbn [c_data]; now rewrite Ec, Ci).
  rewrite E. destruct (c_merge_obj (ord n) merge_strict d m (JObj m) (Ho n) good_strict Wd Wx Ci) as [(r' & -> & W' & M')|(_ & J)].
  - rewrite (merged_fun _ _ _ _ _ M' M) in * |- *. cbn [bind]. destruct (merged_objs _ _ _ _ M) as (? & ? & d1 & _ & _ & ->). exact (IH (Forall_inv_tail Hl) (S n) d1 r W' S').
  - exfalso. revert J. eapply merged_not_rejected. exact M.
Qed.

(** *** The root configuration *)
Lemma root_ok_composed (ord : nat -> morder) root d d' : (forall n, perm_oracle (ord n)) -> canon_obj root -> (forall k, In k section_names -> ~ scalar (section k root)) ->
  wf (JObj d) -> fixed (JObj d) -> (forall k, In k section_names -> ~ scalar (section k (JObj d))) -> composed root (JObj d) d' -> merge_with_root ord root (Some (JObj d)) = Ok (Some d').
Proof.
  intros Ho Hc Hs Wd Fd Hd (r & m & m' & Er & E & -> & W' & Oth & Sec). injection E as <-.
  assert (In_sec : forall k, In k section_names <-> In k ["components"; "info"; "paths"; "security"; "servers"; "tags"; "externalDocs"]) by (intro k; cbn; tauto).
  assert (Sec' : Forall (fun x => section_result (fst x) (snd x) (JObj d) (JObj r) (JObj m')) sections).
  { unfold sections. repeat (apply Forall_cons_iff in Sec; destruct Sec as (? & Sec)). repeat (apply Forall_cons; [assumption|]). constructor. }
  assert (Oth' : forall k, ~ In k section_names -> oget k m' = oget k d) by (intros k N; apply Oth; now rewrite <- In_sec).
  pose proof (merge_root_ends ord root d Ho Hc Hs Wd Fd Hd) as E. destruct (merge_with_root ord root (Some (JObj d))) as [c| | |] eqn:Em; try destruct E.
  - destruct (root_sections ord root d c Ho Hc Hs Wd Fd Em) as (r0 & d0 & E0 & _ & -> & W0 & _ & O0 & S0). rewrite Er in E0. injection E0 as <-. do 3 f_equal. exact (composed_unique d r d0 m' W0 W' O0 Oth' S0 Sec').
  - exfalso. destruct Hc as (Wr & Kr & rm & ->). unfold merge_with_root, c_make in Em. rewrite Er in Em. cbn [bind] in Em. pose proof (clone_wf _ _ Wr Er) as Wr'. pose proof (clone_idem _ _ Er) as Fr.
    assert (Hs' : Forall (fun x => ~ scalar (section (snd x) (JObj r))) sections).
    { apply Forall_forall. intros x Ix. specialize (Hs (snd x) (in_map snd _ _ Ix)). intro S. apply Hs. clear Hs.
      pose proof (clone_lookup [SKey (snd x)] _ _ Er) as L. unfold section in *. cbn [lookup] in L. destruct (oget (snd x) r) as [y|]; [|destruct S]. destruct (oget (snd x) rm) as [z|]; [|destruct L]. exact (clone_scalar z y L S). }
    assert (Hd' : Forall (fun x => ~ scalar (section (snd x) (JObj d))) sections) by (apply Forall_forall; intros x Ix; apply Hd; now apply in_map).
    destruct (merge_sections_spec ord r sections Ho sections_usable sections_nodup Wr' (fun k => section_fixed k _ Wr' Fr) Hs' 0 d Wd (fun k _ => section_fixed k _ Wd Fd) Hd') as [(d0 & X & _)|(_ & x & Ix & J)]; [congruence|].
    rewrite Forall_forall in Sec'. destruct (Sec' x Ix) as [(Z1 & Z2 & _)|(_ & M)]; [|exact (merged_not_rejected _ _ _ _ M J)].
    rewrite Z1, Z2 in J. cbn [obj_part] in J. destruct J as (p & y & z & L & L' & N & _). destruct p as [|k p]; [|discriminate]. injection L as <-. injection L' as <-. discriminate.
Qed.

(** *** Go types *)
Lemma std_mapping_neat {F} (fnum : F -> num) t (s : schema F) : std_mapping t = Some s -> neat fnum s /\ forall p, ~ Spec_Schema.has_ref p s.
Proof.
  unfold std_mapping. destruct (String.eqb _ _); [|discriminate]. intros [= <-]. split; [apply neat_bare; try reflexivity; exact (dry_none fnum)|].
  intros p R. inversion R as [? E|? ? ? I|? ? E|? ? E|? ? I]; subst; try discriminate; destruct I.
Qed.
Section GoTypes.
  Context {F : Type} (pf : string -> option F) (zero : F) (fnum : F -> num) (a : around) (ch : choices).
  Context (ss : list source) (os : list gobj) (fuel0 : nat) (pts : pmap).
  Hypothesis Hin : scan_input (ar_env a) os.
  Hypothesis Hcol : collect_all (ar_env a) fuel0 os [] = Ok pts.
  Hypothesis Hfound : forall T, In T (map fst pts) -> found_type (ar_env a) ss T.
  Hypothesis Hhandy : forall fs, found_type (ar_env a) ss (TStruct fs) -> handy pf (ar_env a) fs.
  Hypothesis Hpk : picks_shortest (ch_pick ch).
  Hypothesis Hord : forall m, Permutation (ch_points ch m) m.
  Lemma registered_pointer T p : In p (pm_at pts T) -> exists p', ptr_parse (ptr_string p) = Ok p' /\ ptr_string p' = ptr_string p /\ u_scheme (p_url p') = "go" /\ p_frag p' = p_frag p.
  Proof.
    intro I1. pose proof Hin as (He & Hf & Ho & Hd & Hod & Hu). destruct (collect_all_good (ar_env a) He fuel0 os [] pts Ho (pm_good_nil) Hcol) as (_ & G). destruct (G _ _ I1) as (l & (Ip & Gp & Fr & Nn & Tk)).
    assert (Pc : forall f, f = snd l -> Forall (fun t => has_char "%" t = false) f).
    { intros f ->. pose proof (at_loc_text p l (conj Ip (conj Gp (conj Fr (conj Nn Tk))))) as Tx.
      destruct (registered_denotes (ar_env a) He os Ho fuel0 pts Hcol T (ptr_string p) (ex_intro _ p (conj I1 eq_refl))) as (pk & n & t1 & toks & ts & t2 & Hr & Ht & _ & Et & _).
      destruct (root_ok (ar_env a) He os Ho _ _ _ Hod Hr) as (A1 & A2 & A3 & _). rewrite Tx in Et. apply loc_text_inj in Et as (_ & ->); [|exact Ip | exact A1 | exact Tk | constructor; [now apply ident_tok in A2 | now apply (trail_toks (ar_env a) He _ _ _ _ Ht)]].
      constructor; [now apply ident_tok in A2 | now apply (trail_percent (ar_env a) t1 toks ts t2)]. }
    destruct (go_roundtrip (fst l) p Ip Gp (Pc _ Fr)) as (S1 & _ & _ & _ & p2 & P2 & F2 & Sc & _ & G2). exists p2. split; [exact P2|]. split; [|split; [exact Sc | exact F2]].
    destruct (go_roundtrip (fst l) p2 Ip G2 (Pc _ (eq_trans F2 Fr))) as (S2 & _). rewrite S1, S2, F2. reflexivity.
  Qed.
  Lemma go_types_no_err de p T : fnum zero <> NBad -> registered pts T (ptr_string p) -> has_schema pf fnum a T -> (forall T' p', refers pf a T T' -> In p' (pm_at pts T') -> plain_key (ptr_string p')) ->
    no_err (go_types pf zero fnum std_mapping a ch de pts p) (fun x => resolvable x /\ forall q t p', ext_ref x q t p' -> u_scheme (p_url p') = "go" /\ exists T', refers pf a T T' /\ registered pts T' (ptr_string p')).
  Proof.
    intros Hz R HS Hplain. pose proof Hin as (He & Hf & Ho & Hd & Hod & Hu). pose proof (find_unique (ar_env a) He Hd os Ho Hod Hu fuel0 pts Hcol (ch_points ch) p T (Hord pts) R) as Ef.
    assert (U : under (ar_env a) T = T). { destruct (collect_all_reg (ar_env a) He fuel0 os pts Ho Hcol) as [_ G]. destruct (G _ _ R) as (t' & ET & _). rewrite ET. now apply under_flat. }
    assert (Refs : forall f f2 s p0, scanner_resolve pf zero (ar_env a) std_mapping (ch_pick ch) f f2 (ch_points ch) pts p = Ok s -> Spec_Schema.has_ref p0 s -> exists T', refers pf a T T' /\ In p0 (pm_at pts T')).
    { intros f f2 s p0 Es Hr. unfold scanner_resolve in Es. rewrite Ef in Es. destruct (conv_leads pf fnum zero (ar_env a) std_mapping (ch_pick ch) Hf Hpk (std_mapping_neat fnum) _ _ _ _ _ _ _ _ Es Hr) as [(fs & x & E & V & Et & t' & Er & I)|(N & t' & Er & I)].
      - exists (under (ar_env a) t'). split; [|exact I]. left. exists fs, x, t'. rewrite U in E. auto.
      - exists (under (ar_env a) t'). split; [|exact I]. right. rewrite U in N. split; [exact N|]. exists t'. auto. }
    assert (X : exists de', no_shallower de de' /\ exists x, go_types pf zero fnum std_mapping a ch de' pts p = Ok x).
    { destruct (closed_exists (ar_env a) T) as (L & HL). pose (M := S (max (length L) (max (de_type de) (de_fields de)))).
      exists {| de_pkgs := de_pkgs de; de_walk := de_walk de; de_type := M; de_fields := M; de_resolve := de_resolve de |}. split; [unfold no_shallower; cbn; unfold M; lia|]. unfold go_types. cbn [de_type de_fields].
      assert (Q : exists s, scanner_resolve pf zero (ar_env a) std_mapping (ch_pick ch) M M (ch_points ch) pts p = Ok s).
      { destruct HS as [(fs & -> & Tf & Hx)|(N & Hel)].
        - apply (C50_resolve_struct F pf zero (ar_env a) std_mapping (ch_pick ch) fuel0 os pts M M (ch_points ch) p fs L Hin Hcol (Hord pts) R HL); [unfold M; lia | unfold M; lia|]. split; [exact Tf | intros x V; exact (proj1 (Hx x V))].
        - apply (C50_resolve_other F pf zero (ar_env a) std_mapping (ch_pick ch) fuel0 os pts M M (ch_points ch) p T L Hin Hcol (Hord pts) R N HL); [unfold M; lia | exact Hel]. }
      destruct Q as (s & Es). rewrite Es. cbn [bind]. apply schema_json_ok. intros p0 Hr. destruct (Refs _ _ _ _ Es Hr) as (T' & RT & I). exact (Hplain T' p0 RT I). }
    destruct X as (de' & D & x & Ex). destruct (go_types_deeper pf zero fnum std_mapping a ch de de' pts p D) as [E|E]; [rewrite E; exact Logic.I|]. rewrite E in Ex. rewrite Ex. cbn [no_err].
    pose proof (go_types_tidy pf zero fnum std_mapping a ch de std_mapping_ok ss pts Hf Hfound Hord Hhandy p x Ex) as Tx. unfold go_types in Ex. apply bind_ok in Ex as (s & Es & Ej).
    assert (Ns : neat fnum s).
    { pose proof Es as Ec. unfold scanner_resolve in Ec. rewrite Ef in Ec. refine (conv_neat pf fnum zero (ar_env a) std_mapping (ch_pick ch) Hz (std_mapping_neat fnum) pts _ _ _ T _ s Ec (tag_zero_dry fnum) _).
      intros fs y Eu Vy. rewrite U in Eu. destruct HS as [(fs' & E' & _ & Hx)|(N & _)]; [|now destruct (N fs)]. rewrite Eu in E'. injection E' as <-. exact (proj2 (Hx y Vy)). }
    destruct (schema_neat fnum s Ns x Ej) as (Lx & Nx).
    assert (Ref : forall q t, lookup (q ++ [SKey "$ref"]) x = Some (JStr t) -> exists T' p0 p', refers pf a T T' /\ In p0 (pm_at pts T') /\ t = ptr_string p0 /\ ptr_parse t = Ok p' /\ ptr_string p' = t /\ u_scheme (p_url p') = "go").
    { intros q t L. destruct (schema_refs fnum s x t Ej (ex_intro _ q L)) as (p0 & Hr & ->). destruct (Refs _ _ _ _ Es Hr) as (T' & RT & I). destruct (registered_pointer T' p0 I) as (p' & P & S & G & _). exists T', p0, p'. auto 8. }
    split.
    - split; [left; destruct (schema_json_spec fnum s x Ej) as (? & ? & ? & ? & ? & _ & _ & _ & _ & _ & ->); eauto|]. split; [exact Nx|]. split; [exact Tx|]. split; [exact Lx|]. intros q t L. destruct (Ref q t L) as (_ & _ & p' & _ & _ & _ & P & _). eauto.
    - intros q t p' (L & P & _). destruct (Ref q t L) as (T' & p0 & p2 & RT & I & Et & P2 & S2 & G2). assert (p2 = p') by congruence. subst p2. split; [exact G2|]. exists T'. split; [exact RT|]. exists p0. split; [exact I | congruence].
  Qed.
End GoTypes.

(** *** Operations *)
Lemma resolve_framed ord es fn fuel doc r : (forall pos l, Permutation (ord pos l) l) -> wf doc -> keys_ok Spec_Loc.plain doc -> fixed doc ->
  Forall (fun e => good_name (Resolver.e_name e)) es -> resolve ord es fn fuel (Some doc) = Ok r -> framed (excluded doc es) doc r.
Proof.
  intros Ho Hw Hk Fx Hg H. apply resolve_inv in H as (doc' & f & refs & -> & Hc & He & s' & Hl & ->). assert (doc' = doc) by (unfold fixed in Fx; congruence). subst doc'.
  destruct (extract_refs (ord []) doc refs (Ho []) Hw Hk He) as (_ & Hre & _).
  destruct (top_loop ord es fn f [] [] (framed (excluded doc es) doc) doc) with (4 := Hre) (6 := Hl) as [Hf Hn].
  - intros e v c c' Hin. apply framed_entity; [exact Hin|]. rewrite Forall_forall in Hg. now apply Hg.
  - intros q0 t p val c c' Hext Hs. eapply framed_replace; [exact Hk | reflexivity | apply Hext | exact Hs | apply ext_at_spec; eauto].
  - intros q0 t p fr c c' Hext Hs. eapply framed_update; [exact Hk | reflexivity | apply Hext | exact Hs | apply ext_at_spec; eauto].
  - apply framed_refl.
  - unfold st_cx. now rewrite Hn.
Qed.
Lemma excluded_above j es e q : excluded j es e = true -> above e (SKey "paths" :: q) -> exists t p, ext_ref j e t p.
Proof.
  unfold excluded. intros H (r & E). apply orb_true_iff in H as [H|H]; [now apply ext_at_spec|]. exfalso. apply existsb_exists in H as (x & _ & H). destruct (loc_dec (comp_of x) e) as [<-|]; [discriminate E | discriminate H].
Qed.
Lemma framed_paths j es c q : framed (excluded j es) j c -> (forall e t p, ext_ref j e t p -> ~ above e (SKey "paths" :: q)) ->
  (exists m m', lookup (SKey "paths" :: q) j = Some (JObj m) /\ lookup (SKey "paths" :: q) (c_data c) = Some (JObj m')) \/
  (exists l l', lookup (SKey "paths" :: q) j = Some (JArr l) /\ lookup (SKey "paths" :: q) (c_data c) = Some (JArr l')) \/
  lookup (SKey "paths" :: q) (c_data c) = lookup (SKey "paths" :: q) j.
Proof.
  intros (Sh & Out) N. set (p := SKey "paths" :: q) in *.
  assert (Cl : clear_of (excluded j es) p) by (intros e X A; destruct (excluded_above _ _ _ _ X A) as (t & p' & E); exact (N e t p' E A)). destruct (Sh p Cl) as (S1 & S2).
  assert (Oth : match lookup p j with Some (JObj _) | Some (JArr _) => False | _ => True end -> lookup p (c_data c) = lookup p j).
  { intro L. apply Out. intros e X. split; [exact (Cl e X)|]. intros (r & E). unfold excluded in X. apply orb_true_iff in X as [X|X].
    - apply ext_at_spec in X as (t & p' & X & _). subst e. rewrite <- app_assoc, lookup_app in X. destruct (lookup p j) as [v|]; [|discriminate]. exact (scalar_no_ref r v t (match v as v0 return match Some v0 with Some (JObj _) | Some (JArr _) => False | _ => True end -> match v0 with JArr _ | JObj _ => False | _ => True end with JArr _ | JObj _ => fun x => x | _ => fun _ => Logic.I end L) X).
    - apply existsb_exists in X as (x & _ & X). destruct (loc_dec (comp_of x) e) as [<-|]; [discriminate E | discriminate X]. }
  destruct (lookup p j) as [[| | | |l|m]|]; try (right; right; exact (Oth Logic.I)).
  - destruct (S2 l eq_refl) as (l' & El). right. left. eauto.
  - destruct (S1 m eq_refl) as (m' & Em). left. eauto.
Qed.
Lemma at_path_lookup p : forall j v, at_path p j = Some v <-> lookup (map SKey p) j = Some v.
Proof. induction p as [|k p IH]; intros j v; [reflexivity|]. cbn [at_path map lookup]. destruct j; try tauto. destruct (oget k m); [apply IH | tauto]. Qed.
Lemma defaults_no_err ch o es d c : (forall l, Permutation (ch_paths ch l) l) -> perm_oracle (ch_ops ch) -> (forall l, Permutation (ch_defs ch l) l) -> (forall n i, perm_oracle (ch_def ch n i)) ->
  wf (c_data c) -> fixed (c_data c) -> Forall ok_default (op_defops o) -> c <> None -> framed (excluded (JObj d) es) (JObj d) c -> paths_in_order o (JObj d) ->
  exists c', set_paths_defaults (ch_paths ch) (ch_ops ch) (ch_defs ch) (ch_def ch) (op_defops o) c = Ok c'.
Proof.
  intros Hp Hm Hd Ho W Fx Hdef Hc Fr (Sec & Ext & App). destruct c as [doc|]; [clear Hc|congruence]. cbn [c_data] in *.
  assert (Root : exists x, doc = JObj x).
  { destruct Fr as (Sh & _). assert (Cl : clear_of (excluded (JObj d) es) []); [|destruct (proj1 (Sh [] Cl) d eq_refl) as (m' & E); injection E as ->; eauto].
    intros e X (r & A). symmetry in A. apply app_eq_nil in A as (-> & _). destruct (excluded_above _ _ [] [] X (ex_intro _ _ eq_refl)) as (t & p & E). exact (Ext _ _ _ E "" "" _ eq_refl). }
  destruct Root as (x & ->).
  assert (N : forall q, length q <= 2 -> forall e t p, ext_ref (JObj d) e t p -> ~ above e (SKey "paths" :: map SKey q)).
  { intros q Lq e t p E (r & A). destruct q as [|a [|b [|? ?]]]; cbn [map length] in *; try lia.
    - apply (Ext _ _ _ E "" "" (r ++ [SKey ""; SKey ""])). rewrite app_assoc, <- A. reflexivity.
    - apply (Ext _ _ _ E a "" (r ++ [SKey ""])). rewrite app_assoc, <- A. reflexivity.
    - apply (Ext _ _ _ E a b r). exact A. }
  destruct Sec as [Sec|Sha].
  - assert (L : oget "paths" x = None \/ oget "paths" x = Some JNull).
    { assert (L0 : oget "paths" d = None \/ oget "paths" d = Some JNull) by (unfold section in Sec; destruct (oget "paths" d); [right; congruence | now left]).
      destruct (framed_paths _ _ _ [] Fr (N [] (Nat.le_0_l 2))) as [(m & m' & E & _)|[(l & l' & E & _)|E]]; cbn [lookup c_data] in E.
      - destruct L0 as [L0|L0]; rewrite L0 in E; discriminate.
      - destruct L0 as [L0|L0]; rewrite L0 in E; discriminate.
      - destruct L0 as [L0|L0]; rewrite L0 in E; destruct (oget "paths" x); try discriminate; [now left | right; congruence]. }
    exists (Some (JObj x)). unfold set_paths_defaults.
    assert (E : paths_of (ch_paths ch) (ch_ops ch) (Some (JObj x)) = Ok []).
    { unfold paths_of, c_path, c_search. change (dot_path "paths") with ["paths"]. cbn [search c_data]. assert (Z : Permutation (ch_paths ch []) []) by apply Hp. apply Permutation_sym, Permutation_nil in Z.
      destruct L as [L|L]; rewrite L; cbn [c_children c_data bind]; rewrite Z; reflexivity. }
    rewrite E. cbn [bind]. rewrite loop_nothing. reflexivity.
  - destruct Sha as (d0 & pm & E0 & Ep & It). injection E0 as <-.
    assert (Shx : shaped (JObj x)).
    { destruct (framed_paths _ _ _ [] Fr (N [] (Nat.le_0_l 2))) as [(m & m' & E & E')|[(l & l' & E & _)|E]]; cbn [lookup c_data] in *; rewrite ?Ep in E; try discriminate.
      - destruct (oget "paths" x) as [v|] eqn:Ex; [|discriminate]. injection E' as ->. exists x, m'. split; [reflexivity|]. split; [exact Ex|]. intros p y Ey.
        destruct (framed_paths _ _ _ [SKey p] Fr (N [p] (le_S _ _ (le_n 1)))) as [(n & n' & G & G')|[(l & l' & G & _)|G]]; cbn [lookup c_data] in *.
        + rewrite Ex, Ey in G'. injection G' as ->. now left.
        + rewrite Ep in G. destruct (oget p pm) as [z|] eqn:Ez; [|discriminate]. injection G as ->. destruct (It p _ Ez); discriminate.
        + rewrite Ex, Ey, Ep in G. destruct (oget p pm) as [z|] eqn:Ez; [|discriminate]. injection G as ->. exact (It p z Ez).
      - destruct (oget "paths" x) as [v|] eqn:Ex; [|discriminate]. injection E as ->. exists x, pm. auto. }
    destruct (defaults_total (ch_paths ch) (ch_ops ch) (ch_defs ch) (ch_def ch) (op_defops o) (JObj x) Hp Hm Hd Ho Shx W Fx Hdef) as (c' & E).
    + intros pat op p m v I Op. apply (at_path_lookup ["paths"; p; m]) in Op. cbn [map] in Op.
      destruct (framed_paths _ _ _ [SKey p; SKey m] Fr (N [p; m] (le_n 2))) as [(n & n' & G & G')|[(l & l' & G & G')|G]]; cbn [c_data] in *.
      * destruct (App pat op p m (JObj n) I) as (b & Hb & Hv); [apply (at_path_lookup ["paths"; p; m]); exact G|]. exists b. split; [exact Hb|]. intros _. left. rewrite Op in G'. injection G' as ->. reflexivity.
      * destruct (App pat op p m (JArr l) I) as (b & Hb & Hv); [apply (at_path_lookup ["paths"; p; m]); exact G|]. exists b. split; [exact Hb|]. intro B. destruct (Hv B) as [X|[X|X]]; try discriminate. right. now right.
      * rewrite Op in G. symmetry in G. exact (App pat op p m v I (proj2 (at_path_lookup ["paths"; p; m] _ _) G)).
    + exists c'. exact E.
Qed.

(** *** All stages *)
Section Ok.
  Context {F : Type} (pf : string -> option F) (zero : F) (fnum : F -> num) (a : around) (ch : choices) (de : depths).
  Context (o : options) (ss : list source) (roots : list nat).
  (** How the document c is made of the composed document d2. *)
  Definition exports_found_all (es : list export) : Prop :=
    Forall (fun e => good_name (Resolver.e_name e)) es /\ NoDup (map (fun e => ptr_string (e_ptr e)) es) /\
    (forall e, In e es -> e_kind e = KSchema /\ exists s, visited a ss roots s /\ exports_type s (Resolver.e_name e) (e_ptr e)) /\
    (forall s n p, visited a ss roots s -> exports_type s n p -> In {| e_kind := KSchema; Resolver.e_name := n; e_ptr := p |} es).
  Definition made_of (d2 : json) (c : cont) : Prop := exists es os pts c3,
    exports_found_all es /\ scan_input (ar_env a) os /\ collect_all (ar_env a) (de_walk de) os [] = Ok pts /\ (forall T, In T (map fst pts) -> found_type (ar_env a) ss T) /\
    (forall T txt, registered pts T txt <-> known_at a ss roots T txt) /\ plain_doc d2 /\ fixed d2 /\ tidy_fn (scan_fn (op_override o) (go_types pf zero fnum std_mapping a ch de pts)) /\
    resolve (ch_resolve ch) es (scan_fn (op_override o) (go_types pf zero fnum std_mapping a ch de pts)) (de_resolve de) (Some d2) = Ok c3 /\ c3 <> None /\ wf (c_data c3) /\ pure (c_data c3) /\
    set_paths_defaults (ch_paths ch) (ch_ops ch) (ch_defs ch) (ch_def ch) (op_defops o) c3 = Ok c.
  Theorem scan_doc_made dd1 dd2 : any_order ch -> visiting_in_any_order ch -> collecting_in_any_order ch -> picks_shortest (ch_pick ch) ->
    (forall fs, found_type (ar_env a) ss (TStruct fs) -> handy pf (ar_env a) fs) -> files_ok (ar_files a) -> canon_obj (op_root o) -> usual_root (op_root o) -> Forall (fun kv => tidy (snd kv)) (op_override o) ->
    loaded (map so_pkg ss) -> (forall i, In i roots -> i < length ss) ->
    sound_scopes (ar_env a) ss -> packages_sound a ss roots -> files_sound a ss roots -> starts_sound a ss roots -> defaults_sound o -> one_meaning a ss roots ->
    commands_in_order a ss roots -> files_in_order a ss roots dd1 -> composed (op_root o) dd1 dd2 -> resolvable dd2 ->
    references_in_order pf fnum zero a o ss roots dd2 -> exports_in_order a ss roots dd2 -> paths_in_order o dd2 -> length ss < de_pkgs de ->
    no_err (scan_doc pf zero fnum std_mapping a ch de o ss (map Some roots)) (made_of dd2).
  Proof.
    intros ((M1 & M2 & M3 & M4 & M5) & O1 & O2 & O3 & O4 & O5) (V1 & V2 & V3) (X1 & X2 & X3 & X4) Hpk Hh Hfs Hroot Hur Hov Hload Hrange (Se & Sf & Sd & So & Su) (Pn & Pv & Pnames) (Fr & Fsec) Hst0 (Ddef & Drt) Hone
      (cmds & Hcmds & Hexp) (docs & Hdocs & Hmerge) Hcomp Hres (Rz & Rov & Rin & Rsch & Rpl) Hxp Hpaths HPk.
    destruct (scan_with_no_err a ch de ss roots Hload Hrange HPk V1 V2 (fun i s V E => proj1 (Hcmds i s V E))) as (vis & (Nvis & Hvis) & Hrun).
    assert (Hsrc : forall i, In i vis -> exists s, nth_error ss i = Some s /\ visited_at a ss roots i /\ visited a ss roots s).
    { intros i Ii. apply Hvis in Ii as V. pose proof V as (r0 & Ir & R). assert (L : i < length (map so_pkg ss)) by exact (reach_lt _ _ _ _ R). rewrite map_length in L. destruct (nth_error ss i) as [s|] eqn:En; [|apply nth_error_None in En; lia]. exists s. split; [reflexivity|]. split; [exact V|]. exists r0, i. auto. }
    unfold Scan.scan_doc.
    (* commands *)
    destruct (cmds_run ss cmds vis Pn Nvis) with (m := @nil (string * list command)) as (cm & Rcm & Pcm); [intros i Ii; destruct (Hsrc i Ii) as (s & En & V & _); exists s; split; [exact En | exact (proj2 (Hcmds i s V En))] | reflexivity |]. cbn [flat_map app] in Pcm.
    eapply no_err_bind; [refine (Hrun _ 0 _ _ (fun x => x = cm) _); rewrite Rcm; now split|]. intros cm' _ (_ & ->).
    destruct (exported_iff (ch_cmds1 ch) cm (V3 cm)) as (XE & _ & XO).
    assert (Nexp : NoDup (map (fun x => ptr_string (snd x)) (flat_map (fun kv => schemas_of (snd kv)) cm))) by (eapply Permutation_NoDup; [apply Permutation_map, Permutation_sym, Pcm | exact (Hexp vis (conj Nvis Hvis))]).
    destruct XO as [XO|(es & Hes)]; [apply XE in XO; now elim XO|]. rewrite Hes. cbn [bind].
    (* files *)
    destruct (specs_run a ch ss docs vis O1 Hfs) with (st := {| sp_conts := []; sp_ptrs := [] |}) as (cc & ppf & Rst & Ccc); [|exact Logic.I|].
    { intros i Ii. destruct (Hsrc i Ii) as (s & En & V & Vs). destruct (Hdocs i s V En) as (dir & Hd & D). exists s, dir. split; [exact En|]. split; [exact (proj1 (Pv s Vs)) | auto]. }
    cbn [sp_conts app] in Rst. set (st := {| sp_conts := cc; sp_ptrs := ppf |}) in *.
    eapply no_err_bind; [refine (Hrun _ 1 _ _ (fun x => x = st) _); rewrite Rst; now split|]. intros st' Hst (_ & ->).
    assert (Dst : Forall (fun f => plain_doc (c_data (f_cont f))) (sp_conts st)).
    { refine (scan_with_inv (fun x => Forall (fun f => plain_doc (c_data (f_cont f))) (sp_conts x)) _ _ _ _ _ _ _ _ _ _ _ Hst); [|constructor].
      intros s i y y' b _ Hy E. exact (scan_specs_docs _ _ _ _ _ _ _ _ (O1 i) Hfs Hy E). }
    assert (Dl : Forall (fun c => plain_doc (c_data c)) (map f_cont (ch_files ch (sp_conts st)))).
    { apply Forall_map. rewrite Forall_forall in *. intros f If. apply Dst. eapply Permutation_in; [apply O2 | exact If]. }
    destruct (forall2_perm cloned cc (ch_files ch cc) (flat_map docs vis) (O2 cc) Ccc) as (dl & Pdl & Cdl).
    assert (Em : specs_merge (ch_merge ch) (ch_files ch) st = Ok (Some dd1)).
    { refine (containers_ok (ch_merge ch) _ dl M1 Dl _ 0 [] dd1 (conj Logic.I Logic.I) (Hmerge vis dl (conj Nvis Hvis) Pdl)). unfold st. cbn [sp_conts]. clear - Cdl. induction Cdl as [|f x l m Hf C IH]; cbn [map]; [apply Forall2_nil | apply Forall2_cons; [exact Hf | exact IH]]. }
    rewrite Em. cbn [bind].
    destruct (specs_found a ch O1 Hfs ss roots vis st Hvis Rst) as (SF1 & SF2).
    destruct (spec_ptrs_found a ch O1 Hfs ss roots vis st Hvis Rst) as (SP0 & SP1 & SP2).
    destruct (cmds_found a ss roots vis cm Hvis Rcm) as (CF1 & CF2).
    pose proof (exports_found a ch ss roots vis cm es Hvis V3 Rcm Hes) as EF.
    assert (Gn : Forall (fun e => good_name (Resolver.e_name e)) es). { apply Forall_forall. intros e Ie. destruct (EF e Ie) as (_ & s & Vs & Es). exact (Pnames s _ Vs Es). }
    pose proof Em as Em'. change (specs_merge (ch_merge ch) (ch_files ch) st) with (containers_merge_from (ch_merge ch) merge_strict 0 (Some (JObj [])) (map f_cont (ch_files ch (sp_conts st)))) in Em'.
    destruct (containers_keep (ch_merge ch) _ M1 Dl 0 [] (Some dd1) (conj Logic.I Logic.I) eq_refl Em') as (d1 & Ed1 & W1 & F1 & _). injection Ed1 as ->.
    pose proof (containers_from (ch_merge ch) _ M1 Dl 0 [] _ (conj Logic.I Logic.I) eq_refl Em') as K1'. cbn [c_data] in K1'.
    assert (From1 : forall q v, q <> [] -> lookup q (JObj d1) = Some v -> exists s doc y v', visited a ss roots s /\ spec_doc_of a s doc /\ clone (kept_doc s doc) = Ok y /\ lookup q y = Some v' /\ like v v').
    { intros q v N L. destruct (K1' q v L) as (v' & [X|(x & y & Ix & Ey & Ly)] & E); [destruct q as [|[] ?]; [congruence | discriminate | discriminate]|].
      apply in_map_iff in Ix as (g & <- & Ig). apply (Permutation_in _ (O2 _)) in Ig. destruct (SF2 g Ig) as (s & doc & Vs & Hd & Eg). rewrite Eg in Ey. exists s, doc, y, v'. auto. }
    (* pointers *)
    set (pp1 := pointers_merge (ch_p1 ch) (ch_p2 ch) [] (map_pointers (ch_cmds2 ch) (ch_p1 ch) (ch_p2 ch) cm)) in *.
    set (pp := pointers_merge (ch_p1 ch) (ch_p2 ch) pp1 (sp_ptrs st)) in *.
    destruct (map_pointers_spec (ch_cmds2 ch) (ch_p1 ch) (ch_p2 ch) cm (X1 cm) X2 X3) as (MP0 & MP1 & MP2).
    assert (Spp1 : sorted pp1) by (unfold pp1, pointers_merge; apply PtrFacts.assign_sorted, PtrFacts.assign_sorted; exact Logic.I).
    assert (Gpp1 : forall k, oget k pp1 = oget k (map_pointers (ch_cmds2 ch) (ch_p1 ch) (ch_p2 ch) cm)).
    { intro k. unfold pp1. rewrite (PtrFacts.pointers_merge_get _ _ [] _ k X2 X3 Logic.I MP0). now destruct (oget k (map_pointers _ _ _ _)). }
    assert (Gpp : forall k, oget k pp = match oget k (sp_ptrs st) with Some v => Some v | None => oget k pp1 end) by (intro k; exact (PtrFacts.pointers_merge_get _ _ pp1 _ k X2 X3 Spp1 SP0)).
    assert (Spp : sorted pp) by (unfold pp, pointers_merge; apply PtrFacts.assign_sorted, PtrFacts.assign_sorted; exact Logic.I).
    assert (Given : forall k p, oget k pp = Some p -> ptr_string p = k /\ given_ptr a ss roots p).
    { intros k p E. rewrite Gpp in E. destruct (oget k (sp_ptrs st)) as [p'|] eqn:Es.
      - injection E as ->. destruct (SP2 k p Es) as (Ek & s & doc & q & t & p0 & Vs & Hd & L & Pt & Ep). split; [exact Ek|]. right. exists s, doc, q, t. split; [exact Vs|]. split; [exact Hd|]. split; [exact L|]. exists p0. auto.
      - rewrite Gpp1 in E. destruct (MP1 k p E) as (Ek & n & Hn). split; [exact Ek|]. left. destruct (CF1 n p Hn) as (s & X). now exists s, n. }
    assert (Taken : forall p, given_ptr a ss roots p -> exists p', oget (ptr_string p) pp = Some p').
    { intros p [(s & n & Vs & Es)|(s & doc & q & t & Vs & Hd & L & p0 & Pt & ->)].
      - rewrite Gpp. destruct (oget _ (sp_ptrs st)); [eauto|]. rewrite Gpp1. pose proof (MP2 n p (CF2 Pn s n p Vs Es)) as X. destruct (oget _ _); [eauto | congruence].
      - rewrite Gpp. pose proof (SP1 s doc q t Vs Hd L) as X. unfold new_text in X. rewrite Pt in X. destruct (oget _ (sp_ptrs st)); [eauto | congruence]. }
    (* types *)
    set (all := flat_map (fun s => objects_of (so_types s) (so_scope s) (map snd pp)) ss). destruct (closed_all (ar_env a) all) as (L & CL1 & CL2). pose (W := S (max (length L) (de_walk de))).
    pose (D1 := {| de_pkgs := de_pkgs de; de_walk := W; de_type := de_type de; de_fields := de_fields de; de_resolve := de_resolve de |}).
    assert (Iall : forall s i ob, visited a ss roots s -> In ob (objects_of (so_types s) (so_scope s) (map snd (ch_types ch i pp))) -> In ob all /\ starts_at a ss roots ob).
    { intros s i ob Vs I. apply objects_in in I as (p & h & r & Ip & Sc & Pp & Fg & Sh). apply in_map_iff in Ip as ((k & p') & E & Ip). cbn [snd] in E. subst p'. apply (Permutation_in _ (X4 i pp)) in Ip. split.
      - apply in_flat_map. exists s. split; [destruct Vs as (? & ? & _ & _ & En); exact (nth_error_In _ _ En)|]. apply objects_in. exists p, h, r. split; [exact (in_map snd _ _ Ip) | auto].
      - exists s, p, h, r. split; [exact Vs|]. split; [|auto]. apply (Given k p). now apply sorted_in_oget. }
    assert (Ook : forall s h ob, visited a ss roots s -> so_scope s h = Some ob -> obj_ok ob /\ fields_distinct (o_type ob)). { intros s h ob (? & ? & _ & _ & En). apply So. exact (nth_error_In _ _ En). }
    pose (fn2 := fun w s i m => do m' <- scan_types (ar_env a) w (so_types s) (so_scope s) (map snd (ch_types ch i pp)) m ; Ok (m', false)).
    assert (E4 : no_err (scan_with a ch de 2 (fn2 (de_walk de)) ss (map Some roots) []) (fun _ => True)).
    { assert (Q : no_err (scan_with a ch D1 2 (fn2 W) ss (map Some roots) []) (fun _ => True)).
      { destruct (scan_with_no_err a ch D1 ss roots Hload Hrange HPk V1 V2 (fun i s V E => proj1 (Hcmds i s V E))) as (vis' & (_ & Hvis') & Hrun').
        eapply no_err_weak; [refine (Hrun' _ 2 _ _ (fun _ => True) _)|auto]. apply (run_no_err (fun _ : pmap => True)); [|exact Logic.I]. intros i y Ii _. apply Hvis' in Ii as (r0 & Ir & R). destruct (nth_error ss i) as [s|] eqn:En; [|exact Logic.I].
        assert (Vs : visited a ss roots s) by (exists r0, i; auto). unfold fn2. rewrite scan_collects.
        destruct (collect_all_outcome (ar_env a) Se W (objects_of (so_types s) (so_scope s) (map snd (ch_types ch i pp))) L) with (m := y) as (_ & Ht).
        - apply Forall_forall. intros ob I. apply objects_in in I as (p & h & r & _ & _ & _ & _ & Sh). exact (proj1 (Ook s h ob Vs Sh)).
        - apply Forall_forall. intros ob I. exact (proj1 (Hst0 ob (proj2 (Iall s i ob Vs I)))).
        - apply Forall_forall. intros ob I. split; [exact (CL2 ob (proj1 (Iall s i ob Vs I))) | exact CL1].
        - unfold W. lia.
        - destruct Ht as (m' & ->); [|now split]. intro X. apply Exists_exists in X as (ob & I & Rr). exact (proj2 (Hst0 ob (proj2 (Iall s i ob Vs I))) Rr). }
      destruct (scan_with_deeper a ch de D1 2 (fn2 (de_walk de)) (fn2 W) ss (map Some roots) []) as [E|E]; [unfold no_shallower; cbn; unfold W; lia | | rewrite E; exact Logic.I | now rewrite E in Q].
      intros s i y. unfold fn2. apply deeper_bind; [|intro; apply deeper_refl]. apply scan_types_deeper. unfold W. lia. }
    fold (fn2 (de_walk de)). eapply no_err_bind; [exact E4|]. intros pts Hpts _. clear E4.
    (* the root configuration *)
    assert (Sec1 : forall k, In k section_names -> ~ scalar (section k (JObj d1))).
    { intros k Ik Sk. unfold section in Sk. destruct (oget k d1) as [v|] eqn:Ev; [|destruct Sk].
      destruct (From1 [SKey k] v) as (s & doc & y & v' & Vs & Hd & Ey & Ly & Lk); [discriminate | cbn; now rewrite Ev|].
      assert (v' = v) by (apply Lk; destruct v; try destruct Sk; reflexivity). subst v'. pose proof (clone_lookup [SKey k] _ _ Ey) as X. rewrite Ly in X. destruct (lookup [SKey k] (kept_doc s doc)) as [z|] eqn:Ez; [|destruct X].
      apply clone_scalar in X; [|exact Sk]. unfold kept_doc in Ez. rewrite map_refs_lookup in Ez. destruct (lookup [SKey k] doc) as [w|] eqn:Ew; [|discriminate]. injection Ez as <-.
      apply (Fsec s doc Vs Hd k Ik). pose proof Hd as (dir & name & _ & _ & _ & m & v0 & -> & _). unfold section. cbn [lookup] in Ew. destruct (oget k m) as [w'|]; [|discriminate]. injection Ew as ->. destruct w; try exact Logic.I; destruct X. }
    pose proof (root_ok_composed (ch_root ch) (op_root o) d1 dd2 M2 Hroot Hur W1 F1 Sec1 Hcomp) as Hc2. rewrite Hc2. cbn [bind].
    destruct (root_sections (ch_root ch) (op_root o) d1 _ M2 Hroot Hur W1 F1 Hc2) as (r & d2 & Er & Wr & E2 & W2 & F2 & _ & _). injection E2 as ->.
    pose proof (specs_merge_plain _ _ _ _ M1 O2 Dst Em) as P1. pose proof (merge_root_plain _ _ _ _ M2 Hroot P1 Hc2) as P2. cbn [c_data] in P2.
    (* the registered types *)
    pose proof (scan_with_runs a ch de ss roots Hload Hrange HPk V1 V2) as (vis' & Hvis' & Hrun').
    pose proof (Hrun' _ _ _ _ _ Hpts) as Rpts. destruct (types_run _ _ _ _ _ _ _ Rpts) as (os & Hos & Ios).
    assert (Ios' : forall ob, In ob os -> exists s h, In s ss /\ visited a ss roots s /\ so_scope s h = Some ob /\ starts_at a ss roots ob).
    { intros ob I. apply Ios in I as (i & s & Ii & En & I). assert (Vs : visited a ss roots s) by (apply Hvis' in Ii as (r0 & Ir & R); now exists r0, i). pose proof (proj2 (Iall s i ob Vs I)) as St. apply objects_in in I as (p & h & rr & _ & _ & _ & _ & Sc). exists s, h. split; [exact (nth_error_In _ _ En)|]. auto. }
    assert (Hinp : scan_input (ar_env a) os).
    { split; [exact Se|]. split; [exact Sf|]. split; [apply Forall_forall; intros ob I; destruct (Ios' ob I) as (s & h & _ & Vs & Sc & _); exact (proj1 (Ook s h ob Vs Sc))|]. split; [exact Sd|].
      split; [apply Forall_forall; intros ob I; destruct (Ios' ob I) as (s & h & _ & Vs & Sc & _); exact (proj2 (Ook s h ob Vs Sc))|]. apply Su. intros ob I. destruct (Ios' ob I) as (s & h & Is & _ & Sc & _). eauto. }
    assert (Hpf : forall T, In T (map fst pts) -> found_type (ar_env a) ss T) by exact (pts_found pf zero fnum std_mapping a ch de ss _ _ pts Hpts).
    assert (Known : forall T txt, known_at a ss roots T txt -> registered pts T txt).
    { intros T txt (ob & pk & (s & p0 & h & rr & Vs & Gp & Sc & Pp & Fg & Sh) & Ep & Lo). apply (collect_all_exact (ar_env a) Se (de_walk de) os [] pts (proj1 (proj2 (proj2 Hinp))) Hos). right. exists ob. split; [|exists pk; auto].
      destruct (Taken p0 Gp) as (p1 & E1). destruct (Given _ _ E1) as (T1 & G1). destruct (Hone p1 p0 G1 Gp T1) as (A1 & A2 & A3).
      destruct Vs as (r0 & i & Ir & R & En). apply Ios. exists i, s. split; [apply Hvis'; eauto|]. split; [exact En|]. apply objects_in. exists p1, h, rr. split; [|rewrite A1, A2, A3; auto].
      apply in_map_iff. exists (ptr_string p0, p1). split; [reflexivity|]. eapply Permutation_in; [apply Permutation_sym, X4 | now apply oget_in]. }
    assert (Unknown : forall T txt, registered pts T txt -> known_at a ss roots T txt).
    { intros T txt R. apply (collect_all_exact (ar_env a) Se (de_walk de) os [] pts (proj1 (proj2 (proj2 Hinp))) Hos) in R as [(p & I & _)|(ob & I & pk & Ep & Lo)]; [destruct I|]. destruct (Ios' ob I) as (_ & _ & _ & _ & _ & St). exists ob, pk. auto. }
    (* resolving *)
    set (fn := scan_fn (op_override o) (go_types pf zero fnum std_mapping a ch de pts)).
    pose (Q := fun p => overridden o p \/ (u_scheme (p_url p) = "go" /\ exists T, registered pts T (ptr_string p) /\ in_use pf a o ss roots (JObj d2) T)).
    assert (RQ : forall p, referred o (JObj d2) p -> Q p).
    { intros p R. destruct (Rin p R) as [X|(Sc & T & K)]; [now left|]. destruct (oget (ptr_string p) (op_override o)) eqn:Eo; [left; unfold overridden; congruence|]. right. split; [exact Sc|]. exists T. split; [now apply Known|]. apply (iu_ref pf a o ss roots (JObj d2) p T R); [unfold overridden; congruence | exact K]. }
    assert (Tfn : tidy_fn fn).
    { intros p x E. unfold fn, scan_fn in E. destruct (oget (ptr_string p) (op_override o)) as [y|] eqn:Ey.
      - injection E as <-. apply oget_in in Ey. rewrite Forall_forall in Hov. exact (Hov _ Ey).
      - destruct (String.eqb _ "go"); [|discriminate]. exact (go_types_tidy pf zero fnum std_mapping a ch de std_mapping_ok ss pts Sf Hpf O4 Hh p x E). }
    assert (Rref : forall q t p, ext_ref (JObj d2) q t p -> referred o (JObj d2) p) by (intros q t p E; exists (JObj d2), q, t; auto).
    assert (E6 : no_err (resolve (ch_resolve ch) es fn (de_resolve de) (Some (JObj d2))) (fun c => c <> None)).
    { refine (resolve_no_err (ch_resolve ch) es fn (de_resolve de) (JObj d2) O3 Gn Q _ Hres _ _).
      - intros p Qp. unfold fn, scan_fn. destruct (oget (ptr_string p) (op_override o)) as [y|] eqn:Ey.
        + apply oget_in in Ey. cbn [no_err]. split; [rewrite Forall_forall in Rov; exact (Rov _ Ey)|]. intros q t p' E. apply RQ. exists y, q, t. split; [right; exact (in_map snd _ _ Ey) | exact E].
        + destruct Qp as [X|(Sc & T & RT & IU)]; [elim X; exact Ey|]. rewrite Sc. cbn [String.eqb Ascii.eqb Bool.eqb].
          eapply no_err_weak; [refine (go_types_no_err pf zero fnum a ch ss os (de_walk de) pts Hinp Hos Hpf Hh Hpk O4 de p T Rz RT (Rsch T IU) _)|].
          * intros T' p' Rf I. apply (Rpl T T' (ptr_string p') IU Rf). apply Unknown. exists p'. auto.
          * cbn beta. intros x (Rx & Hx). split; [exact Rx|]. intros q t p' E. destruct (Hx q t p' E) as (Sc' & T' & Rf & RT'). destruct (oget (ptr_string p') (op_override o)) eqn:Eo; [left; unfold overridden; congruence|].
            right. split; [exact Sc'|]. exists T'. split; [exact RT'|]. exact (iu_step pf a o ss roots (JObj d2) T T' _ IU Rf (Unknown _ _ RT') Eo).
      - intros q t p E. split; [exact (RQ p (Rref q t p E))|]. intros e Ie. destruct (EF e Ie) as (Ek & s & Vs & Es). unfold comp_of. rewrite Ek. exact (proj2 (Hxp s _ Vs Es) q t p E).
      - intros e Ie. destruct (EF e Ie) as (Ek & s & Vs & Es). rewrite Ek. exact (proj1 (Hxp s _ Vs Es)). }
    eapply no_err_bind; [exact E6|]. intros c3 Hc3 Nc3. clear E6.
    (* defaults *)
    assert (W3 : wf (c_data c3)) by (refine (resolve_wf _ _ _ _ (Some (JObj d2)) c3 _ W2 Hc3); intros p x E; apply (Tfn p x E)).
    assert (P3 : pure (c_data c3)).
    { refine (resolve_pure es Gn (ch_resolve ch) _ _ (Some (JObj d2)) c3 O3 _ _ Hc3); [|apply keys_ok_nicely, P2]. intros p x E. apply keys_ok_nicely. apply (Tfn p x E). }
    destruct (defaults_no_err ch o es d2 c3 M3 M4 O5 M5 W3 (proj2 P3) Ddef Nc3 (resolve_framed _ _ _ _ _ _ O3 W2 (proj1 (proj2 P2)) F2 Gn Hc3) Hpaths) as (c' & Hc'). rewrite Hc'. destruct (es_found _ _ _ V3 Hes) as (EF1 & EF2 & EF3).
    exists es, os, pts, c3. refine (conj (conj Gn (conj EF3 (conj _ _))) (conj Hinp (conj Hos (conj Hpf (conj _ (conj P2 (conj F2 (conj Tfn (conj Hc3 (conj Nc3 (conj W3 (conj P3 Hc')))))))))))).
    - intros e Ie. destruct (EF1 e Ie) as (Ek & Ce). split; [exact Ek | exact (CF1 _ _ Ce)].
    - intros s n p Vs Es. exact (EF2 n p (CF2 Pn s n p Vs Es)).
    - intros T txt. split; [apply Unknown | apply Known].
  Qed.
  Theorem scan_doc_no_err : any_order ch -> visiting_in_any_order ch -> collecting_in_any_order ch -> picks_shortest (ch_pick ch) ->
    (forall fs, found_type (ar_env a) ss (TStruct fs) -> handy pf (ar_env a) fs) -> files_ok (ar_files a) -> canon_obj (op_root o) -> usual_root (op_root o) -> Forall (fun kv => tidy (snd kv)) (op_override o) ->
    loaded (map so_pkg ss) -> (forall i, In i roots -> i < length ss) ->
    sound_scopes (ar_env a) ss -> packages_sound a ss roots -> files_sound a ss roots -> starts_sound a ss roots -> defaults_sound o -> one_meaning a ss roots ->
    in_order pf fnum zero a o ss roots -> length ss < de_pkgs de ->
    no_err (scan_doc pf zero fnum std_mapping a ch de o ss (map Some roots)) (fun _ => True).
  Proof.
    intros A1 A2 A3 A4 A5 A6 A7 A8 A9 B1 B2 B3 B4 B5 B6 B7 B8 (C1 & dd1 & dd2 & C2 & C3 & C4 & C5 & C6 & C7) D.
    apply (no_err_weak _ (made_of dd2)); [|auto]. now apply (scan_doc_made dd1 dd2).
  Qed.
End Ok.
