(** Scan: the parts of the specification files found in the document (proofs). *)
From Coq Require Import String Ascii List Bool Arith ZArith Lia Permutation.
From Verif Require Import GoStr GoStrFacts Json JsonFacts Gabs Container Url Pointer Spec_Clone Spec_Merge CloneFacts MergeFacts ConfigApi
  Spec_Loc LocFacts Spec_Resolve ResolverFacts ResolverFrame Path Resolver ScanFn Cmds Spec_Cmds CmdFacts Specs Spec_Specs SpecFacts Pkgs Spec_Pkgs PkgFacts Types Root RootFacts Spec_Root PathsFacts
  SchemaJson Scan ScanFacts Spec_Types Spec_Schema ScanTypes Spec_Scan ScanInv ScanRefs ScanEnd ScanKept ScanKept2 Spec_Kept.
Import ListNotations.
Local Open Scope string_scope.
Local Open Scope nat_scope.
Local Open Scope list_scope.

(** *** Visits *)
Lemma run_inv {A} (P : A -> Prop) (fn : nat -> A -> res (A * bool)) l : (forall i y y', In i l -> P y -> fn i y = Ok (y', false) -> P y') -> forall x r, P x -> run fn l x = Ok (r, []) -> P r.
Proof.
  induction l as [|i l IH]; intros Hf x r Hx H; cbn [run] in H; [now injection H as <-|]. apply bind_ok in H as ((y & b) & Hy & H). apply bind_ok in H as ((z & es) & Hz & H). cbn [fst snd] in *.
  injection H as <- He. destruct b; [discriminate|]. subst es. eapply IH; [| |exact Hz]; [intros j u u' I; apply Hf; now right|]. eapply Hf; [now left | exact Hx | exact Hy].
Qed.
Lemma run_hit {A} (P Q : A -> Prop) (fn : nat -> A -> res (A * bool)) i l : In i l -> (forall i y y', In i l -> P y -> fn i y = Ok (y', false) -> P y') -> (forall j y y', fn j y = Ok (y', false) -> P y -> Q y -> Q y') ->
  (forall y y', P y -> fn i y = Ok (y', false) -> Q y') -> forall x r, P x -> run fn l x = Ok (r, []) -> Q r.
Proof.
  induction l as [|j l IH]; intros I HP HQ Hit x r Hx H; [destruct I|]. cbn [run] in H. apply bind_ok in H as ((y & b) & Hy & H). apply bind_ok in H as ((z & es) & Hz & H). cbn [fst snd] in *.
  injection H as <- He. destruct b; [discriminate|]. subst es. pose proof (HP j x y (or_introl eq_refl) Hx Hy) as Py.
  assert (HP' : forall k u u', In k l -> P u -> fn k u = Ok (u', false) -> P u') by (intros k u u' Ik; apply HP; now right).
  destruct I as [<-|I].
  - refine (proj2 (run_inv (fun u => P u /\ Q u) fn l _ y z (conj Py (Hit _ _ Hx Hy)) Hz)). intros k u u' Ik (Pu & Qu) E. split; [exact (HP' _ _ _ Ik Pu E) | exact (HQ _ _ _ E Pu Qu)].
  - exact (IH I HP' HQ Hit y z Py Hz).
Qed.
Lemma scan_with_runs a ch de ss roots : loaded (map so_pkg ss) -> (forall i, In i roots -> i < length ss) -> length ss < de_pkgs de -> (forall n i l, Permutation (ch_imports ch n i l) l) -> is_string_sort (ch_strings ch) ->
  exists l, (forall x, In x l <-> exists r, In r roots /\ reach (ar_std a) (map so_pkg ss) r x) /\
  forall A n (fn : source -> nat -> A -> res (A * bool)) x r, scan_with a ch de n fn ss (map Some roots) x = Ok r -> run (fun i y => match nth_error ss i with Some s => fn s i y | None => Panic end) l x = Ok (r, []).
Proof.
  intros Hl Hr Hf Hi Hs. destruct (scan_spec (map so_pkg ss) (ar_std a) roots Hl) as (l & _ & Hin & _ & Hrun); [intros i I; rewrite map_length; auto|]. exists l. split; [exact Hin|]. intros A n fn x r H.
  unfold scan_with in H. apply bind_ok in H as ((r' & errs) & H & E). cbn [fst snd] in E. destruct errs as [|e errs]; [|discriminate]. injection E as <-.
  specialize (Hrun (de_pkgs de) (ch_imports ch n) (ch_strings ch) A (fun i y => match nth_error ss i with Some s => fn s i y | None => Panic end) x). rewrite map_length in Hrun. specialize (Hrun Hf (Hi n) Hs).
  destruct (run _ l x) as [(y & es)| | |]; try congruence. destruct Hrun as (errs & E & P). rewrite H in E. injection E as -> <-. apply Permutation_nil, app_eq_nil in P as (_ & P). apply map_eq_nil in P. now subst.
Qed.

(** *** Specification files *)
Lemma read_each_iff fs l ff : read_each fs l = Ok ff -> forall p c, In {| f_path := p; f_cont := c |} ff <-> In p l /\ fs p = Some (Ok c).
Proof.
  revert ff. induction l as [|p l IH]; intros ff H p0 c; cbn [read_each] in H; [injection H as <-; cbn; tauto|]. destruct (fs p) as [x|] eqn:E.
  - apply bind_ok in H as (c1 & -> & H). apply bind_ok in H as (cc & Hcc & H). injection H as <-. cbn [In]. rewrite (IH _ Hcc). split.
    + intros [[= <- <-]|(I & F)]; auto.
    + intros ([<-|I] & F); [left; congruence | auto].
  - rewrite (IH _ H). cbn [In]. split; [tauto|]. intros ([<-|I] & F); [congruence | auto].
Qed.
Lemma hash_ptr r p : ptr_parse ("#" +++ r) = Ok p -> u_scheme (p_url p) = "" /\ exists f, ptr_string p = ptr_string {| p_url := p_url new_pointer; p_frag := f |}.
Proof.
  change ("#" +++ r) with (String "#" r). unfold ptr_parse. destruct (String.eqb (String "#" r) "" || String.eqb (String "#" r) "#"); [intros [= <-]; split; [reflexivity | eexists; reflexivity]|].
  unfold url_parse. cbn [cut_char Ascii.eqb Bool.eqb]. cbn. destruct (unescape EFragment r) as [y|]; cbn; [|discriminate].
  destruct (new_fragment y) as [f| | |]; cbn; try discriminate. intros [= <-]. split; [reflexivity|]. exists f. reflexivity.
Qed.
Lemma hash_local r p : ptr_parse ("#" +++ r) = Ok p -> is_external p = false.
Proof. intro H. apply hash_ptr in H as (H & _). unfold is_external. now rewrite H. Qed.
Lemma hash_new_text path r : ref_ok ("#" +++ r) -> (exists p, ptr_parse ("#" +++ r) = Ok p /\ new_text path ("#" +++ r) = ptr_string p) /\ forall p, ptr_parse (new_text path ("#" +++ r)) = Ok p -> is_external p = false.
Proof.
  intros (p & Hp). destruct (hash_ptr _ _ Hp) as (S & f & E).
  assert (N : new_text path ("#" +++ r) = ptr_string p) by (unfold new_text; rewrite Hp; unfold abs_ptr; now rewrite S).
  split; [exists p; auto|]. intros p0 H0. rewrite N, E in H0. exact (local_not_external _ _ H0).
Qed.
Section Specs.
  Context (a : around) (ch : choices).
  Hypothesis Hord : forall i n l, Permutation (ch_refs ch i n l) l.
  Hypothesis Hfs : files_ok (ar_files a).
  Let fn (s : source) (i : nat) := scan_specs (ch_refs ch i) (ar_gopath a) (ar_missing a) (ar_files a) {| ss_path := so_path s; ss_module := so_module s |}.
  (** One file of a package, as the scanner keeps it. *)
  Definition kept_doc (s : source) (doc : json) : json := map_refs (new_text (so_path s)) doc.
  Lemma scan_specs_step s i st st' : sorted (sp_ptrs st) -> fn s i st = Ok (st', false) -> sorted (sp_ptrs st') /\
    (forall f, In f (sp_conts st) -> In f (sp_conts st')) /\
    (forall doc, spec_doc_of a s doc -> (forall q t, lookup (q ++ [SKey "$ref"]) doc = Some (JStr t) -> ref_ok t) /\ exists f, In f (sp_conts st') /\ f_cont f = Some (kept_doc s doc)) /\
    (forall f, In f (sp_conts st') -> In f (sp_conts st) \/ exists doc, spec_doc_of a s doc /\ f_cont f = Some (kept_doc s doc)).
  Proof.
    intros Sp H. unfold fn, scan_specs in H. cbn [ss_path ss_module] in H. destruct (get_pkg_path _ _ _ _) as [d| | |] eqn:Ed; try discriminate. destruct (read_dir (ar_files a) d) as [ff| | |] eqn:Er; try discriminate.
    assert (G : Forall good_file ff). { apply Forall_forall. intros [p c] I X. apply (read_each_iff _ _ _ Er) in I as (_ & F). cbn [f_cont] in *. destruct (Hfs _ _ F X) as (W & K & _). auto. }
    destruct (scan_files_spec (ch_refs ch i) (so_path s) ff (Hord i) G 0 (sp_ptrs st) Sp) as (H1 & H2).
    destruct (scan_files (ch_refs ch i) 0 (so_path s) ff (sp_ptrs st)) as [[cc| | |] pp] eqn:E; try discriminate. injection H as <-.
    assert (Ok' : forall t, file_ref ff t -> ref_ok t). { intros t Ht. destruct (ptr_parse_ok_err t) as [X|X]; [exact X|]. destruct H2 as (pp' & X'); [|discriminate]. exists t. split; [exact Ht|]. intros (p & Hp). congruence. }
    destruct (H1 Ok') as (pp' & [= -> ->] & S' & _). cbn [sp_conts sp_ptrs]. split; [exact S'|]. split; [intros; apply in_or_app; now left|]. split.
    - intros doc (dir & name & Ed' & In' & F & m & v & -> & Om). assert (dir = d) by congruence. subst dir.
      assert (If : In {| f_path := join2 d name; f_cont := Some (JObj m) |} ff) by (apply (read_each_iff _ _ _ Er); split; [now apply in_map | exact F]).
      assert (Sd : is_spec_doc (Some (JObj m))) by (now exists m, v).
      split; [intros q t L; apply Ok'; exists {| f_path := join2 d name; f_cont := Some (JObj m) |}, (JObj m), q; auto|].
      exists (rewritten (new_text (so_path s)) {| f_path := join2 d name; f_cont := Some (JObj m) |}). split; [|reflexivity]. apply in_or_app. right. apply in_map. apply filter_In. split; [exact If|]. now apply existsp_openapi.
    - intros f I. apply in_app_or in I as [I|I]; [now left|]. right. apply in_map_iff in I as ([p c] & <- & I). apply filter_In in I as (I & X). unfold spec_file in X. cbn [f_cont] in X. apply existsp_openapi in X as (m & v & -> & Om).
      apply (read_each_iff _ _ _ Er) in I as (I & F). apply in_map_iff in I as (name & <- & I). exists (JObj m). split; [|reflexivity]. exists d, name. split; [exact Ed|]. split; [exact I|]. split; [exact F|]. now exists m, v.
  Qed.
  Lemma specs_found ss roots l st : (forall x, In x l <-> exists r, In r roots /\ reach (ar_std a) (map so_pkg ss) r x) ->
    run (fun i y => match nth_error ss i with Some s => fn s i y | None => Panic end) l {| sp_conts := []; sp_ptrs := [] |} = Ok (st, []) ->
    (forall s doc, visited a ss roots s -> spec_doc_of a s doc -> (forall q t, lookup (q ++ [SKey "$ref"]) doc = Some (JStr t) -> ref_ok t) /\ exists f, In f (sp_conts st) /\ f_cont f = Some (kept_doc s doc)) /\
    (forall f, In f (sp_conts st) -> exists s doc, visited a ss roots s /\ spec_doc_of a s doc /\ f_cont f = Some (kept_doc s doc)).
  Proof.
    intros Hin H. pose (P := fun st => sorted (sp_ptrs st)).
    assert (HP : forall i y y', In i l -> P y -> match nth_error ss i with Some s => fn s i y | None => Panic end = Ok (y', false) -> P y').
    { intros i y y' _ Py E. destruct (nth_error ss i) as [s|]; [|discriminate]. exact (proj1 (scan_specs_step _ _ _ _ Py E)). }
    split.
    - intros s doc (r & i & Ir & R & En) Hd. refine (run_hit P (fun st => (forall q t, lookup (q ++ [SKey "$ref"]) doc = Some (JStr t) -> ref_ok t) /\ exists f, In f (sp_conts st) /\ f_cont f = Some (kept_doc s doc)) _ i l _ HP _ _ _ _ _ H).
      + apply Hin. eauto.
      + intros j y y' E Py (X & f & If & Ef). destruct (nth_error ss j) as [s'|]; [|discriminate]. split; [exact X|]. exists f. split; [|exact Ef]. exact (proj1 (proj2 (scan_specs_step _ _ _ _ Py E)) f If).
      + intros y y' Py E. rewrite En in E. exact (proj1 (proj2 (proj2 (scan_specs_step _ _ _ _ Py E))) doc Hd).
      + exact I.
    - refine (proj2 (run_inv (fun st => P st /\ forall f, In f (sp_conts st) -> exists s doc, visited a ss roots s /\ spec_doc_of a s doc /\ f_cont f = Some (kept_doc s doc)) _ l _ _ _ _ H)).
      + intros i y y' Ii (Py & Hy) E. split; [exact (HP _ _ _ Ii Py E)|]. destruct (nth_error ss i) as [s|] eqn:En; [|discriminate]. intros f If.
        destruct (proj2 (proj2 (proj2 (scan_specs_step _ _ _ _ Py E))) f If) as [X|(doc & Hd & Ef)]; [exact (Hy f X)|]. exists s, doc. split; [|auto]. apply Hin in Ii as (r & Ir & R). now exists r, i.
      + split; [exact I | intros f []].
  Qed.
End Specs.

(** *** Exports *)
Lemma bodies_in g bs b : bodies g bs -> In b bs -> exists t, In t g /\ is_command t b.
Proof. induction 1 as [|t l r N B IH|t b0 l r C B IH]; intro I; [destruct I|destruct (IH I) as (t' & A & D); exists t'; split; [now right | exact D]|]. destruct I as [<-|I]; [exists t; split; [now left | exact C]|]. destruct (IH I) as (t' & A & D). exists t'. split; [now right | exact D]. Qed.
Lemma parse_all_in tp l : forall cc, parse_all tp l = Ok cc -> forall c, In c cc -> exists b, In b l /\ parse_cmd tp b = Ok c.
Proof.
  induction l as [|x l IH]; intros cc H c I; cbn [parse_all] in H; [injection H as <-; destruct I|]. apply bind_ok in H as (c0 & H0 & H). apply bind_ok in H as (cc' & H1 & H). injection H as <-.
  destruct I as [<-|I]; [exists x; split; [now left | exact H0]|]. destruct (IH _ H1 c I) as (b & A & B). exists b. split; [now right | exact B].
Qed.
Lemma all_comments_in gs : forall cs, all_comments gs = Ok cs -> forall b, In b cs -> exists g t, In g gs /\ In t g /\ is_command t b.
Proof.
  induction gs as [|g gs IH]; intros cs H b I; cbn [all_comments] in H; [injection H as <-; destruct I|]. apply bind_ok in H as (x & Hx & H). apply bind_ok in H as (y & Hy & H). injection H as <-.
  apply in_app_or in I as [I|I].
  - apply comment_group_spec in Hx. destruct (bodies_in _ _ _ Hx I) as (t & A & B). exists g, t. split; [now left | auto].
  - destruct (IH _ Hy b I) as (g' & t & A & B). exists g', t. split; [now right | exact B].
Qed.
Lemma exports_found a ch ss roots l cm es : (forall x, In x l <-> exists r, In r roots /\ reach (ar_std a) (map so_pkg ss) r x) -> (forall m, Permutation (ch_cmds1 ch m) m) ->
  run (fun i y => match nth_error ss i with Some s => scan_cmds {| cs_path := so_path s; cs_types := so_types s; cs_groups := so_groups s |} y | None => Panic end) l [] = Ok (cm, []) ->
  exported_components (ch_cmds1 ch) cm = Ok es -> forall e, In e es -> e_kind e = KSchema /\ exists s, visited a ss roots s /\ exports_name s (e_name e).
Proof.
  intros Hin Ho H He e Ie. destruct (exported_iff (ch_cmds1 ch) cm (Ho cm)) as (_ & X & _). destruct (X es He) as (P & _ & K). rewrite Forall_forall in K. split; [auto|].
  assert (I : In (e_name e, e_ptr e) (flat_map (fun kv => schemas_of (snd kv)) cm)). { eapply Permutation_in; [exact P|]. apply in_map_iff. eauto. }
  apply in_flat_map in I as ([k cc] & Ik & I). cbn [snd] in I. unfold schemas_of in I. apply in_flat_map in I as (c & Ic & I). destruct c as [|n p]; [destruct I|]. destruct I as [[= -> ->]|[]].
  assert (G : forall k cc n p, In (k, cc) cm -> In (CSchema n p) cc -> exists s, visited a ss roots s /\ exports_name s n).
  { refine (run_inv (fun cm : cmd_map => forall k cc n p, In (k, cc) cm -> In (CSchema n p) cc -> exists s, visited a ss roots s /\ exports_name s n) _ l _ _ _ _ H); [|intros ? ? ? ? []].
    intros i y y' Ii Hy E k0 cc0 n p I0 In0. destruct (nth_error ss i) as [s|] eqn:En; [|discriminate]. unfold scan_cmds in E. cbn [cs_groups cs_types cs_path] in E. apply bind_ok in E as (comments & Ec & E). destruct (parse_all (so_types s) comments) as [cc1| | |] eqn:Ep; try discriminate.
    injection E as <-. apply oset_in_inv in I0 as [(-> & ->)|I0]; [|exact (Hy _ _ _ _ I0 In0)].
    destruct (parse_all_in _ _ _ Ep _ In0) as (b & Ib & Eb). destruct (all_comments_in _ _ Ec b Ib) as (g & t & Ig & It & C). exists s. split; [apply Hin in Ii as (r & Ir & R); now exists r, i|].
    exists g, t, b, p. split; [exact Ig|]. split; [exact It|]. split; [exact C|]. now apply parse_cmd_spec. }
  exact (G _ _ _ _ Ik Ic).
Qed.

(** *** The whole scan *)
Lemma map_refs_numbers f j : numbers (map_refs f j) = numbers j.
Proof.
  induction j as [|b|n|s|l IH|m IH] using json_induction; try reflexivity.
  - cbn [map_refs numbers]. induction IH as [|x l Hx _ IHl]; [reflexivity|]. cbn [map]. now rewrite Hx, IHl.
  - cbn [map_refs numbers]. induction IH as [|[k x] m Hx _ IHm]; [reflexivity|]. cbn [snd] in Hx. rewrite IHm. f_equal. destruct x; try exact Hx. now destruct (String.eqb k "$ref").
Qed.
Lemma clone_leaf_kind v v' : clone v = Ok v' -> is_obj v = false -> v <> JNull -> is_obj v' = false /\ v' <> JNull.
Proof.
  intros H N Nn. destruct v as [|b|n|s|l|m]; try discriminate N; [now elim Nn| | | |]; try (injection H as <-; split; [reflexivity | discriminate]).
  - destruct n as [z|mm e|]; cbn in H; try discriminate; injection H as <-; (split; [reflexivity | discriminate]).
  - rewrite clone_arr_eq in H. apply bind_ok in H as (l' & _ & H). injection H as <-. split; [reflexivity | discriminate].
Qed.

Section Whole.
  Context {F : Type} (pf : string -> option F) (zero : F) (fnum : F -> num) (a : around) (ch : choices) (de : depths).
  Local Notation scan_doc := (scan_doc pf zero fnum std_mapping a ch de).
  Local Notation scan := (scan pf zero fnum std_mapping a ch de).
  Lemma scan_doc_keeps o ss roots c : any_order ch -> visiting_in_any_order ch -> flat_env (ar_env a) -> (forall fs, found_type (ar_env a) ss (TStruct fs) -> handy pf (ar_env a) fs) ->
    files_ok (ar_files a) -> canon_obj (op_root o) -> usual_root (op_root o) -> Forall (fun kv => tidy (snd kv)) (op_override o) -> Forall ok_default (op_defops o) ->
    loaded (map so_pkg ss) -> (forall i, In i roots -> i < length ss) -> length ss < de_pkgs de ->
    (forall s name, visited a ss roots s -> exports_name s name -> good_name name) ->
    scan_doc o ss (map Some roots) = Ok c ->
    forall s doc k q v, visited a ss roots s -> spec_doc_of a s doc -> ~ In NBad (numbers doc) -> lookup (SKey k :: q) doc = Some v -> is_obj v = false -> v <> JNull ->
    ~ In k ["info"; "security"; "servers"; "tags"] -> (In k ["components"; "paths"; "externalDocs"] -> exists k' q', q = SKey k' :: q') ->
    (forall s' doc', visited a ss roots s' -> spec_doc_of a s' doc' -> only_local_refs doc' (SKey k :: q)) -> only_local_refs (op_root o) (SKey k :: q) ->
    (forall s' name, visited a ss roots s' -> exports_name s' name -> Spec_Loc.apart (comp_loc "schemas" name) (SKey k :: q)) ->
    exists v', clone (at_loc (new_text (so_path s)) (SKey k :: q) v) = Ok v' /\ lookup (SKey k :: q) (c_data c) = Some v' /\
      forall q0 t, SKey k :: q = q0 ++ [SKey "$ref"] -> v = JStr t -> ref_ok t.
  Proof.
    intros ((M1 & M2 & M3 & M4 & M5) & O1 & O2 & O3 & O4 & O5) (V1 & V2 & V3) Hflat Hh Hfs Hroot Hur Hov Hdef Hload Hrange Hfuel Hnames H. unfold Scan.scan_doc in H.
    destruct (scan_with_runs a ch de ss roots Hload Hrange Hfuel V1 V2) as (vis & Hvis & Hrun).
    apply bind_ok in H as (cm & Hcm & H). apply Hrun in Hcm. apply bind_ok in H as (es & Hes & H). apply bind_ok in H as (st & Hst & H).
    assert (Dst : Forall (fun f => plain_doc (c_data (f_cont f))) (sp_conts st)).
    { refine (scan_with_inv (fun x => Forall (fun f => plain_doc (c_data (f_cont f))) (sp_conts x)) _ _ _ _ _ _ _ _ _ _ _ Hst); [|constructor].
      intros s i y y' b _ Hy E. exact (scan_specs_docs _ _ _ _ _ _ _ _ (O1 i) Hfs Hy E). }
    apply Hrun in Hst. apply bind_ok in H as (c1 & Hc1 & H).
    cbv zeta in H. apply bind_ok in H as (pts & Hpts & H). apply bind_ok in H as (c2 & Hc2 & H). apply bind_ok in H as (c3 & Hc3 & H).
    destruct (specs_found a ch O1 Hfs ss roots vis st Hvis Hst) as (SF1 & SF2).
    pose proof (exports_found a ch ss roots vis cm es Hvis V3 Hcm Hes) as EF.
    assert (Gn : Forall (fun e => good_name (e_name e)) es). { apply Forall_forall. intros e Ie. destruct (EF e Ie) as (_ & s & Vs & Es). exact (Hnames s _ Vs Es). }
    pose proof (specs_merge_plain _ _ _ _ M1 O2 Dst Hc1) as D1. pose proof (merge_root_plain _ _ _ _ M2 Hroot D1 Hc2) as D2.
    assert (Hpf : forall T, In T (map fst pts) -> found_type (ar_env a) ss T) by exact (pts_found pf zero fnum std_mapping a ch de ss _ _ pts Hpts).
    assert (Tfn : tidy_fn (scan_fn (op_override o) (go_types pf zero fnum std_mapping a ch de pts))).
    { intros p x E. unfold scan_fn in E. destruct (oget (ptr_string p) (op_override o)) as [y|] eqn:Ey.
      - injection E as <-. rewrite Forall_forall in Hov. apply (Hov (ptr_string p, y)). now apply oget_in.
      - destruct (String.eqb _ "go"); [|discriminate]. exact (go_types_tidy pf zero fnum std_mapping a ch de std_mapping_ok ss pts Hflat Hpf O4 Hh p x E). }
    assert (W3 : wf (c_data c3)) by (eapply resolve_wf; [intros p x E; apply (Tfn p x E) | apply D2 | exact Hc3]).
    assert (P3 : pure (c_data c3)).
    { refine (resolve_pure es Gn (ch_resolve ch) _ _ c2 c3 O3 _ _ Hc3); [|apply keys_ok_nicely, D2]. intros p x E. apply keys_ok_nicely. apply (Tfn p x E). }
    unfold specs_merge, containers_merge, c_new in Hc1.
    assert (Dl : Forall (fun c => plain_doc (c_data c)) (map f_cont (ch_files ch (sp_conts st)))).
    { apply Forall_map. rewrite Forall_forall in *. intros f If. apply Dst. eapply Permutation_in; [apply O2 | exact If]. }
    destruct (containers_keep (ch_merge ch) _ M1 Dl 0 [] c1 (conj I I) eq_refl Hc1) as (d1 & -> & W1 & F1 & _ & K1 & S1).
    destruct (root_keep (ch_root ch) (op_root o) d1 c2 M2 Hroot Hur W1 F1 Hc2) as (d2 & -> & W2 & F2 & K2 & S2).
    destruct (resolve_frame (ch_resolve ch) es _ _ (JObj d2) c3 O3 W2 (proj1 (proj2 D2)) Gn Hc3) as (d2' & Ec2 & R3). rewrite F2 in Ec2. injection Ec2 as <-.
    intros s doc k q v Vs Hd Nb L N Nn N4 N3 Loc LocR Ex.
    destruct (SF1 s doc Vs Hd) as (RefOk & f & If & Ef).
    assert (Lk : lookup (SKey k :: q) (kept_doc s doc) = Some (at_loc (new_text (so_path s)) (SKey k :: q) v)) by (unfold kept_doc; rewrite map_refs_lookup, L; reflexivity).
    destruct (clone_cases (kept_doc s doc)) as [(y & Ey)|Ey]; [|exfalso; apply clone_fails in Ey; unfold kept_doc in Ey; rewrite map_refs_numbers in Ey; now apply Nb].
    pose proof (clone_lookup (SKey k :: q) _ _ Ey) as Cl. rewrite Lk in Cl. destruct (lookup (SKey k :: q) y) as [v'|] eqn:Ly; [|destruct Cl].
    assert (Na : is_obj (at_loc (new_text (so_path s)) (SKey k :: q) v) = false /\ at_loc (new_text (so_path s)) (SKey k :: q) v <> JNull).
    { unfold at_loc. destruct v; cbn; try (split; [exact N || reflexivity | discriminate || exact Nn]); try discriminate N. destruct (ends_ref _); (split; [reflexivity | discriminate]). }
    destruct (clone_leaf_kind _ _ Cl (proj1 Na) (proj2 Na)) as (Nv' & Nn'). exists v'. split; [exact Cl|].
    split; [|intros q0 t Eq Ev; subst v; apply (RefOk q0 t); now rewrite <- Eq].
    assert (L1 : lookup (SKey k :: q) (JObj d1) = Some v').
    { refine (K1 (f_cont f) y _ _ _ _ Ly Nv'); [|rewrite Ef; exact Ey]. apply in_map. eapply Permutation_in; [apply Permutation_sym, O2 | exact If]. }
    assert (L2 : lookup (SKey k :: q) (JObj d2) = Some v').
    { apply K2; [exact L1 | exact Nv' | exact N4|]. intro I3. destruct (N3 I3) as (k' & q' & ->). cbn [lookup] in L1. unfold section. destruct (oget k d1) as [[| | | | |mm]|]; try discriminate. reflexivity. }
    enough (L3 : lookup (SKey k :: q) (c_data c3) = Some v').
    { destruct c3 as [d3|]; [|discriminate]. destruct (defaults_keep_at _ _ _ _ _ _ _ M3 M4 O5 M5 W3 P3 Hdef H) as (d4 & -> & K4). exact (K4 _ _ L3 Nv' Nn'). }
    rewrite R3; [exact L2 | |].
    - intros q0 t p (Lt & Pt & Et). destruct (S2 _ _ Lt) as [Lt1|Lr].
      + destruct (S1 _ _ Lt1) as [X|(x & Ix & Lx)]; [destruct q0 as [|[] ?]; discriminate|]. apply in_map_iff in Ix as (g & <- & Ig). apply (Permutation_in _ (O2 _)) in Ig.
        destruct (SF2 g Ig) as (s' & doc' & Vs' & Hd' & Eg). rewrite Eg in Lx. cbn [c_data] in Lx. unfold kept_doc in Lx. rewrite map_refs_lookup in Lx.
        destruct (lookup (q0 ++ [SKey "$ref"]) doc') as [x|] eqn:Lx0; [|discriminate]. injection Lx as Lx. unfold at_loc in Lx. destruct x; try discriminate Lx.
        rewrite ends_ref_snoc in Lx. cbn in Lx. injection Lx as Lx. destruct (Loc s' doc' Vs' Hd' q0 _ Lx0) as [A|(r & Er)]; [exact A|]. exfalso.
        subst s0. destruct (hash_new_text (so_path s') r (proj1 (SF1 s' doc' Vs' Hd') q0 _ Lx0)) as (_ & X). rewrite Lx in X. rewrite (X p Pt) in Et. discriminate.
      + destruct (LocR q0 t Lr) as [A|(r & Er)]; [exact A|]. exfalso. subst t. rewrite (hash_local _ _ Pt) in Et. discriminate.
    - intros e Ie. destruct (EF e Ie) as (Ek & s' & Vs' & Es'). rewrite Ek. exact (Ex s' _ Vs' Es').
  Qed.
  Theorem scan_keeps l o dir ss roots d e : any_order ch -> visiting_in_any_order ch -> flat_env (ar_env a) ->
    (forall dir ss roots, ar_load a dir = Ok (ss, roots) -> forall fs, found_type (ar_env a) ss (TStruct fs) -> handy pf (ar_env a) fs) ->
    files_ok (ar_files a) -> apply_opts l no_options = Ok o -> canon_obj (op_root o) -> usual_root (op_root o) -> Forall (fun kv => tidy (snd kv)) (op_override o) -> Forall ok_default (op_defops o) ->
    (op_dir o = Some dir \/ op_dir o = None /\ ar_cwd a = Ok dir) -> ar_load a dir = Ok (ss, map Some roots) ->
    loaded (map so_pkg ss) -> (forall i, In i roots -> i < length ss) -> length ss < de_pkgs de ->
    (forall s name, visited a ss roots s -> exports_name s name -> good_name name) ->
    scan l = Ok (Some d, e) ->
    forall s doc k q v, visited a ss roots s -> spec_doc_of a s doc -> ~ In NBad (numbers doc) -> lookup (SKey k :: q) doc = Some v -> v <> JNull ->
    ~ In k ["info"; "security"; "servers"; "tags"] -> (In k ["components"; "paths"; "externalDocs"] -> exists k' q', q = SKey k' :: q') ->
    (forall s' doc', visited a ss roots s' -> spec_doc_of a s' doc' -> only_local_refs doc' (SKey k :: q)) -> only_local_refs (op_root o) (SKey k :: q) ->
    (forall s' name, visited a ss roots s' -> exports_name s' name -> Spec_Loc.apart (comp_loc "schemas" name) (SKey k :: q)) ->
    kept_at (SKey k :: q) v d.
  Proof.
    intros Ho Hv Hflat Hh Hfs Eo Hroot Hur Hov Hdef Hdir Hld Hload Hrange Hfuel Hnames H. unfold Scan.scan in H. rewrite Eo in H. cbn [on_err] in H.
    assert (Ed : match op_dir o with Some d0 => Ok d0 | None => ar_cwd a end = Ok dir) by (destruct Hdir as [-> |(-> & E)]; [reflexivity | exact E]). rewrite Ed in H. cbn [on_err] in H. rewrite Hld in H. cbn [on_err fst snd] in H.
    apply on_err_ok in H as [(_ & [=])|(c' & Hd & H)]. injection H as -> _.
    intros s doc k q v Vs Sd Nb L Nn N4 N3 Loc LocR Ex. destruct (is_obj v) eqn:N; [destruct v; try discriminate; exact I|].
    destruct (scan_doc_keeps o ss roots _ Ho Hv Hflat (Hh _ _ _ Hld) Hfs Hroot Hur Hov Hdef Hload Hrange Hfuel Hnames Hd s doc k q v Vs Sd Nb L N Nn N4 N3 Loc LocR Ex) as (v' & Cv & Lv & Rv). cbn [c_data] in Lv.
    unfold kept_at. destruct v as [|b|n|t|li|m]; try discriminate N; cbn [at_loc] in Cv.
    - now elim Nn.
    - cbn in Cv. now injection Cv as <-.
    - apply clone_same in Cv. inversion Cv as [| |n0 n' R| | |]; subst. eauto.
    - unfold at_loc in Cv. destruct (ends_ref (SKey k :: q)) eqn:Er.
      + apply ends_ref_iff in Er as (q0 & Eq). left. split; [eauto|]. cbn in Cv. injection Cv as <-. destruct (Loc s doc Vs Sd q0 t) as [A|(r & Er)].
        * rewrite <- Eq. exact L.
        * exfalso. destruct A as (A & _). apply A. rewrite Eq. now exists [SKey "$ref"].
        * subst t. destruct (hash_new_text (so_path s) r (Rv q0 _ Eq eq_refl)) as ((p & Hp & Et) & _). exists p. split; [exact Hp|]. now rewrite <- Et.
      + right. split; [intro X; apply ends_ref_iff in X; congruence|]. cbn in Cv. now injection Cv as <-.
    - cbn [map_refs] in Cv. rewrite clone_arr_eq in Cv. apply bind_ok in Cv as (l' & Hl & Cv). injection Cv as <-. exists l'. split; [exact Lv|]. apply clone_list_ok in Hl. clear - Hl.
      assert (G : forall x y : list json, Forall2 (fun x y => clone x = Ok y) x y -> length y = length x) by (induction 1; cbn; congruence). rewrite (G _ _ Hl). apply map_length.
  Qed.
End Whole.
