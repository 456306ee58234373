(** Scan: two specification files that disagree (proofs). *)
From Coq Require Import String Ascii List Bool Arith ZArith Lia Permutation.
From Verif Require Import GoStr GoStrFacts Json JsonFacts Gabs Container Url Pointer Spec_Clone Spec_Merge CloneFacts MergeFacts MergeLaws MergeApi
  Spec_Loc LocFacts Spec_Resolve ResolverFacts Path Resolver ScanFn Cmds Specs Spec_Specs SpecFacts Pkgs Spec_Pkgs PkgFacts Types Root RootFacts Spec_Root
  SchemaJson Scan ScanFacts Spec_Scan ScanInv ScanKept2 Spec_Kept ScanKept3.
Import ListNotations.
Local Open Scope string_scope.
Local Open Scope nat_scope.
Local Open Scope list_scope.

(** The document holds a value at p, an object or not. *)
Definition kind_at (p : list string) (b : bool) (j : json) : Prop := exists x, at_path p j = Some x /\ is_obj x = b.
Lemma strict_kind p b : forall d s r, merged merge_strict d s r -> kind_at p b d -> kind_at p b r.
Proof.
  induction p as [|k p IH]; intros d s r M (x & P & B); destruct (merged_objs _ _ _ _ M) as (d0 & s0 & r0 & -> & -> & ->).
  - injection P as <-. exists (JObj r0). auto.
  - cbn [at_path] in P. destruct (merged_inv _ _ _ _ M) as (c' & [= <-] & _ & K). specialize (K k). destruct (oget k d0) as [y|]; [|discriminate]. unfold kind_at. cbn [at_path].
    inversion K as [|v1 E1 E2 E3|v1 E1 E2 E3|d1 s1 r1 H1 H2 M1 E1 E2 E3|d1 s1 r1 H1 M1 E1 E2 E3]; subst; [eauto | |discriminate]. exact (IH _ _ _ M1 (ex_intro _ x (conj P eq_refl))).
Qed.
Lemma at_path_lookup p j : at_path p j = lookup (map SKey p) j.
Proof. pose proof (lookup_keys p j []) as E. rewrite app_nil_r in E. rewrite E. now destruct (at_path p j). Qed.
Lemma is_obj_map_refs f j : is_obj (map_refs f j) = is_obj j. Proof. now destruct j. Qed.
Lemma clone_kind p b j j' : clone j = Ok j' -> kind_at p b j -> kind_at p b j'.
Proof.
  intros H (x & P & B). rewrite at_path_lookup in P. pose proof (clone_lookup (map SKey p) _ _ H) as L. rewrite P in L. unfold kind_at. rewrite at_path_lookup. destruct (lookup (map SKey p) j') as [y|]; [|destruct L].
  exists y. split; [reflexivity|]. subst b. destruct x as [|?|n|?|l|m]; cbn [is_obj].
  - now injection L as <-.
  - now injection L as <-.
  - destruct n; cbn in L; try discriminate; now injection L as <-.
  - now injection L as <-.
  - rewrite clone_arr_eq in L. apply bind_ok in L as (? & _ & L). now injection L as <-.
  - rewrite clone_obj_eq in L. apply bind_ok in L as (? & _ & L). now injection L as <-.
Qed.
Lemma refs_kind p b f j : kind_at p b j -> kind_at p b (map_refs f j).
Proof.
  intros (x & P & B). rewrite at_path_lookup in P. unfold kind_at. rewrite at_path_lookup, map_refs_lookup, P. eexists. split; [reflexivity|]. subst b. unfold at_loc. destruct x; try apply is_obj_map_refs. now destruct (ends_ref _).
Qed.
Lemma kinds_clash p b1 b2 d s r : b1 && b2 = false -> kind_at p b1 d -> kind_at p b2 s -> merged merge_strict d s r -> False.
Proof. intros Hb (x & Px & Bx) (y & Py & By) M. eapply merged_not_rejected; [exact M|]. exists p, x, y. subst. auto. Qed.
(** Two elements of a list, at different positions. *)
Definition two {A} (P Q : A -> Prop) (l : list A) : Prop := exists x y r, P x /\ Q y /\ Permutation l (x :: y :: r).
Lemma two_perm {A} (P Q : A -> Prop) l l' : Permutation l l' -> two P Q l -> two P Q l'.
Proof. intros Pm (x & y & r & Px & Qy & Pm'). exists x, y, r. split; [exact Px|]. split; [exact Qy|]. eapply Permutation_trans; [apply Permutation_sym; exact Pm | exact Pm']. Qed.
Lemma two_sym {A} (P Q : A -> Prop) l : two P Q l -> two Q P l.
Proof. intros (x & y & r & Px & Qy & Pm). exists y, x, r. split; [exact Qy|]. split; [exact Px|]. eapply Permutation_trans; [exact Pm | apply perm_swap]. Qed.
Lemma two_app {A} (P Q : A -> Prop) a b x y : In x a -> P x -> In y b -> Q y -> two P Q (a ++ b).
Proof.
  intros Ix Px Iy Qy. apply in_split in Ix as (a1 & a2 & ->). apply in_split in Iy as (b1 & b2 & ->). exists x, y, (a1 ++ a2 ++ b1 ++ b2). split; [exact Px|]. split; [exact Qy|].
  rewrite <- app_assoc. cbn [app]. symmetry. eapply Permutation_trans; [|apply Permutation_middle]. apply perm_skip. rewrite !app_assoc. apply Permutation_middle.
Qed.
Lemma two_more {A} (P Q : A -> Prop) a b : two P Q a -> two P Q (a ++ b).
Proof. intros (x & y & r & Px & Qy & Pm). exists x, y, (r ++ b). split; [exact Px|]. split; [exact Qy|]. exact (Permutation_app_tail b Pm). Qed.
Lemma two_differ {A} (P Q : A -> Prop) l x y : In x l -> In y l -> x <> y -> P x -> Q y -> two P Q l.
Proof.
  intros Ix Iy N Px Qy. apply in_split in Ix as (a & b & ->). apply in_app_or in Iy as [Iy|[E|Iy]]; [|now elim N|].
  - apply two_sym. exact (two_app Q P a (x :: b) y x Iy Qy (or_introl eq_refl) Px).
  - replace (a ++ x :: b) with ((a ++ [x]) ++ b) by (now rewrite <- app_assoc). eapply two_app; [|exact Px | exact Iy | exact Qy]. apply in_or_app. right. now left.
Qed.
Lemma two_cons {A} (P Q : A -> Prop) z l : two P Q (z :: l) -> (P z /\ Exists Q l) \/ (Q z /\ Exists P l) \/ two P Q l.
Proof.
  intros (x & y & r & Px & Qy & Pm). assert (Iz : In z (x :: y :: r)) by (eapply Permutation_in; [exact Pm | now left]).
  destruct Iz as [-> |[-> |Iz]].
  - apply Permutation_cons_inv in Pm. left. split; [exact Px|]. apply Exists_exists. exists y. split; [eapply Permutation_in; [apply Permutation_sym; exact Pm | now left] | exact Qy].
  - right; left. split; [exact Qy|]. apply (fun H => Permutation_trans H (perm_swap _ _ _)) in Pm. apply Permutation_cons_inv in Pm. apply Exists_exists. exists x. split; [eapply Permutation_in; [apply Permutation_sym; exact Pm | now left] | exact Px].
  - right; right. apply in_split in Iz as (r1 & r2 & ->). exists x, y, (r1 ++ r2). split; [exact Px|]. split; [exact Qy|].
    apply (Permutation_cons_inv (a := z)). eapply Permutation_trans; [exact Pm|]. change (x :: y :: r1 ++ z :: r2) with ((x :: y :: r1) ++ z :: r2). exact (Permutation_sym (Permutation_middle (x :: y :: r1) r2 z)).
Qed.

(** *** Strict merging *)
Section Strict.
  Context (ord : nat -> morder) (p : list string) (b1 b2 : bool).
  Hypothesis Ho : forall n, perm_oracle (ord n).
  Hypothesis Hb : b1 && b2 = false.
  Definition brings (b : bool) (c : cont) : Prop := kind_at p b (c_data c) /\ exists y, clone (c_data c) = Ok y.
  Lemma brings_step b c d c' n : wf (JObj d) -> plain_doc (c_data c) -> brings b c -> c_merge (ord n) merge_strict (Some (JObj d)) c = Ok c' -> exists d', c' = Some (JObj d') /\ wf (JObj d') /\ kind_at p b (JObj d') /\ (forall b', b && b' = false -> ~ kind_at p b' (JObj d)).
  Proof.
    intros Wd Pl (K & y & Ey) H. destruct (c_merge_step _ _ _ _ _ (Ho n) good_strict Wd Pl H) as [(m & r & Ec & Wm & M & -> & Wr)|(Nc & _)]; [|now elim (Nc y)].
    destruct (merged_objs _ _ _ _ M) as (? & ? & r0 & _ & _ & ->). exists r0. split; [reflexivity|]. split; [exact Wr|]. pose proof (clone_kind _ _ _ _ Ec K) as Km. split.
    - exact (strict_kind _ _ _ _ _ (merged_strict_comm _ _ _ M) Km).
    - intros b' Hb' Kd. refine (kinds_clash p b' b _ _ _ _ Kd Km M). now rewrite andb_comm.
  Qed.
  Lemma plain_step c d c' n : wf (JObj d) -> plain_doc (c_data c) -> c_merge (ord n) merge_strict (Some (JObj d)) c = Ok c' -> exists d', c' = Some (JObj d') /\ wf (JObj d') /\ forall b, kind_at p b (JObj d) -> kind_at p b (JObj d').
  Proof.
    intros Wd Pl H. destruct (c_merge_step _ _ _ _ _ (Ho n) good_strict Wd Pl H) as [(m & r & Ec & Wm & M & -> & Wr)|(_ & ->)]; [|eauto].
    destruct (merged_objs _ _ _ _ M) as (? & ? & r0 & _ & _ & ->). exists r0. split; [reflexivity|]. split; [exact Wr|]. intros b. exact (strict_kind _ _ _ _ _ M).
  Qed.
  Lemma merge_after b b' l : b && b' = false -> Forall (fun c => plain_doc (c_data c)) l -> Exists (brings b) l -> forall n d c', wf (JObj d) -> kind_at p b' (JObj d) ->
    containers_merge_from ord merge_strict n (Some (JObj d)) l <> Ok c'.
  Proof.
    intros Hbb. induction l as [|x l IH]; intros Hl He n d c' Wd Kd H; [inversion He|]. cbn [containers_merge_from] in H. apply bind_ok in H as (c1 & H1 & H).
    inversion He as [? ? Bx|? ? El]; subst.
    - destruct (brings_step b _ _ _ _ Wd (Forall_inv Hl) Bx H1) as (_ & _ & _ & _ & N). exact (N b' Hbb Kd).
    - destruct (plain_step _ _ _ _ Wd (Forall_inv Hl) H1) as (d' & -> & W' & K'). exact (IH (Forall_inv_tail Hl) El _ _ _ W' (K' _ Kd) H).
  Qed.
  Lemma merge_two l : Forall (fun c => plain_doc (c_data c)) l -> two (brings b1) (brings b2) l -> forall n d c', wf (JObj d) -> containers_merge_from ord merge_strict n (Some (JObj d)) l <> Ok c'.
  Proof.
    induction l as [|x l IH]; intros Hl T n d c' Wd H.
    - destruct T as (u & v & r & _ & _ & Pm). apply Permutation_nil in Pm. discriminate.
    - cbn [containers_merge_from] in H. apply bind_ok in H as (c1 & H1 & H). apply two_cons in T as [(Bx & El)|[(Bx & El)|T]].
      + destruct (brings_step b1 _ _ _ _ Wd (Forall_inv Hl) Bx H1) as (d' & -> & W' & K' & _). refine (merge_after b2 b1 l _ (Forall_inv_tail Hl) El _ _ _ W' K' H). now rewrite andb_comm.
      + destruct (brings_step b2 _ _ _ _ Wd (Forall_inv Hl) Bx H1) as (d' & -> & W' & K' & _). exact (merge_after b1 b2 l Hb (Forall_inv_tail Hl) El _ _ _ W' K' H).
      + destruct (plain_step _ _ _ _ Wd (Forall_inv Hl) H1) as (d' & -> & W' & _). exact (IH (Forall_inv_tail Hl) T _ _ _ W' H).
  Qed.
End Strict.

(** *** The files that are read *)
Section Files.
  Context (a : around) (ch : choices) (ss : list source).
  Hypothesis Hord : forall i n l, Permutation (ch_refs ch i n l) l.
  Hypothesis Hfs : files_ok (ar_files a).
  Let fn (i : nat) (y : sstate) := match nth_error ss i with Some s => scan_specs (ch_refs ch i) (ar_gopath a) (ar_missing a) (ar_files a) {| ss_path := so_path s; ss_module := so_module s |} y | None => Panic end.
  Definition is_file (path : string) (doc : json) (f : file) : Prop := f_path f = path /\ exists g, f_cont f = Some (map_refs g doc).
  Lemma step_app i st st' : sorted (sp_ptrs st) -> fn i st = Ok (st', false) -> sorted (sp_ptrs st') /\ exists new, sp_conts st' = sp_conts st ++ new /\
    forall path doc, spec_file_at a ss i path doc -> Exists (is_file path doc) new.
  Proof.
    unfold fn. intros Sp H. destruct (nth_error ss i) as [s|] eqn:Es; [|discriminate]. pose proof (scan_specs_step a ch Hord Hfs s i st st' Sp H) as (S' & _ & _). split; [exact S'|].
    unfold scan_specs in H. cbn [ss_path ss_module] in H. destruct (get_pkg_path _ _ _ _) as [d| | |] eqn:Ed; try discriminate. destruct (read_dir (ar_files a) d) as [ff| | |] eqn:Er; try discriminate.
    assert (G : Forall good_file ff). { apply Forall_forall. intros [p c] I X. apply (read_each_iff _ _ _ Er) in I as (_ & F). cbn [f_cont] in *. destruct (Hfs _ _ F X) as (W & K & _). auto. }
    destruct (scan_files_spec (ch_refs ch i) (so_path s) ff (Hord i) G 0 (sp_ptrs st) Sp) as (H1 & H2).
    destruct (scan_files (ch_refs ch i) 0 (so_path s) ff (sp_ptrs st)) as [[cc| | |] pp] eqn:E; try discriminate. injection H as <-.
    assert (Ok' : forall t, file_ref ff t -> ref_ok t). { intros t Ht. destruct (ptr_parse_ok_err t) as [X|X]; [exact X|]. destruct H2 as (pp' & X'); [|discriminate]. exists t. split; [exact Ht|]. intros (p & Hp). congruence. }
    destruct (H1 Ok') as (pp' & [= -> ->] & _). cbn [sp_conts]. eexists. split; [reflexivity|]. intros path doc (s' & dir & name & Es' & Ed' & In' & -> & F & m & v & -> & Om).
    assert (s' = s) by congruence. subst s'. assert (dir = d) by congruence. subst dir. apply Exists_exists.
    exists (rewritten (new_text (so_path s)) {| f_path := join2 d name; f_cont := Some (JObj m) |}). split; [|split; [reflexivity | eexists; reflexivity]].
    apply in_map, filter_In. split; [|apply existsp_openapi; now exists m, v]. apply (read_each_iff _ _ _ Er). split; [now apply in_map | exact F].
  Qed.
  Lemma files_two_after l i2 p1 doc1 p2 doc2 : In i2 l -> spec_file_at a ss i2 p2 doc2 -> forall y r, sorted (sp_ptrs y) -> Exists (is_file p1 doc1) (sp_conts y) -> run fn l y = Ok (r, []) ->
    two (is_file p1 doc1) (is_file p2 doc2) (sp_conts r).
  Proof.
    intros I2 S2 y r Sy Ey H. refine (run_hit (fun y => sorted (sp_ptrs y) /\ Exists (is_file p1 doc1) (sp_conts y)) (fun y => two (is_file p1 doc1) (is_file p2 doc2) (sp_conts y)) fn i2 l I2 _ _ _ y r (conj Sy Ey) H).
    - intros i u u' _ (Su & Eu) E. destruct (step_app _ _ _ Su E) as (S' & new & -> & _). split; [exact S'|]. apply Exists_app. now left.
    - intros i u u' E (Su & _) T. destruct (step_app _ _ _ Su E) as (_ & new & -> & _). now apply two_more.
    - intros u u' (Su & Eu) E. destruct (step_app _ _ _ Su E) as (_ & new & -> & N). specialize (N _ _ S2). apply Exists_exists in Eu as (x & Ix & Px), N as (z & Iz & Pz). eapply two_app; eassumption.
  Qed.
  Lemma files_two l i1 i2 p1 doc1 p2 doc2 : In i1 l -> In i2 l -> (i1, p1) <> (i2, p2) -> spec_file_at a ss i1 p1 doc1 -> spec_file_at a ss i2 p2 doc2 -> forall y r, sorted (sp_ptrs y) -> run fn l y = Ok (r, []) ->
    two (is_file p1 doc1) (is_file p2 doc2) (sp_conts r).
  Proof.
    intros I1 I2 N S1 S2. induction l as [|j l IH]; intros y r Sy H; [destruct I1|]. pose proof H as H0. cbn [run] in H. apply bind_ok in H as ((u & b) & Hu & H). apply bind_ok in H as ((z & es) & Hz & H). cbn [fst snd] in *.
    injection H as -> He. destruct b; [discriminate|]. subst es. destruct (step_app _ _ _ Sy Hu) as (Su & new & Eu & Nw).
    destruct (Nat.eq_dec i1 i2) as [<-|Ni].
    - assert (Np : p1 <> p2) by congruence. refine (run_hit (fun y => sorted (sp_ptrs y)) (fun y => two (is_file p1 doc1) (is_file p2 doc2) (sp_conts y)) fn i1 (j :: l) I1 _ _ _ y r Sy H0).
      + intros i v v' _ Sv E. exact (proj1 (step_app _ _ _ Sv E)).
      + intros i v v' E Sv T. destruct (step_app _ _ _ Sv E) as (_ & nw & -> & _). now apply two_more.
      + intros v v' Sv E. destruct (step_app _ _ _ Sv E) as (_ & nw & -> & N'). pose proof (N' _ _ S1) as E1. pose proof (N' _ _ S2) as E2. apply Exists_exists in E1 as (x1 & Ix1 & P1), E2 as (x2 & Ix2 & P2).
        eapply two_differ; [apply in_or_app; right; exact Ix1 | apply in_or_app; right; exact Ix2 | | exact P1 | exact P2]. intros ->. destruct P1 as (P1 & _), P2 as (P2 & _). congruence.
    - destruct I1 as [-> |I1].
      + destruct I2 as [E|I2]; [now elim Ni|]. refine (files_two_after l i2 p1 doc1 p2 doc2 I2 S2 u r Su _ Hz). rewrite Eu. apply Exists_app. right. now apply Nw.
      + destruct I2 as [-> |I2].
        * apply two_sym. refine (files_two_after l i1 p2 doc2 p1 doc1 I1 S1 u r Su _ Hz). rewrite Eu. apply Exists_app. right. now apply Nw.
        * exact (IH I1 I2 u r Su Hz).
  Qed.
End Files.

Section Whole.
  Context {F : Type} (pf : string -> option F) (zero : F) (fnum : F -> num) (a : around) (ch : choices) (de : depths).
  Local Notation scan := (scan pf zero fnum std_mapping a ch de).
  Theorem scan_clash l o dir ss roots i1 i2 p1 p2 doc1 doc2 p x y r : any_order ch -> visiting_in_any_order ch -> files_ok (ar_files a) -> apply_opts l no_options = Ok o ->
    (op_dir o = Some dir \/ op_dir o = None /\ ar_cwd a = Ok dir) -> ar_load a dir = Ok (ss, map Some roots) ->
    loaded (map so_pkg ss) -> (forall i, In i roots -> i < length ss) -> length ss < de_pkgs de ->
    (exists r, In r roots /\ reach (ar_std a) (map so_pkg ss) r i1) -> (exists r, In r roots /\ reach (ar_std a) (map so_pkg ss) r i2) -> (i1, p1) <> (i2, p2) ->
    spec_file_at a ss i1 p1 doc1 -> spec_file_at a ss i2 p2 doc2 -> ~ In NBad (numbers doc1) -> ~ In NBad (numbers doc2) ->
    at_path p doc1 = Some x -> at_path p doc2 = Some y -> is_obj x && is_obj y = false ->
    scan l = Ok r -> r = (None, true).
  Proof.
    intros ((M1 & M2 & M3 & M4 & M5) & O1 & O2 & O3 & O4 & O5) (V1 & V2 & V3) Hfs Eo Hdir Hld Hload Hrange Hfuel R1 R2 Nf S1 S2 B1 B2 X Y Hb H. unfold Scan.scan in H. rewrite Eo in H. cbn [on_err] in H.
    assert (Ed : match op_dir o with Some d0 => Ok d0 | None => ar_cwd a end = Ok dir) by (destruct Hdir as [-> |(-> & E)]; [reflexivity | exact E]). rewrite Ed in H. cbn [on_err] in H. rewrite Hld in H. cbn [on_err fst snd] in H.
    apply on_err_ok in H as [(_ & <-)|(c' & Hd & H)]; [reflexivity|]. exfalso. clear H. unfold scan_doc in Hd.
    destruct (scan_with_runs a ch de ss roots Hload Hrange Hfuel V1 V2) as (vis & Hvis & Hrun).
    apply bind_ok in Hd as (cm & _ & H). apply bind_ok in H as (es & _ & H). apply bind_ok in H as (st & Hst & H).
    assert (Dst : Forall (fun f => plain_doc (c_data (f_cont f))) (sp_conts st)).
    { refine (scan_with_inv (fun x => Forall (fun f => plain_doc (c_data (f_cont f))) (sp_conts x)) _ _ _ _ _ _ _ _ _ _ _ Hst); [|constructor].
      intros s i z z' b _ Hz E. exact (scan_specs_docs _ _ _ _ _ _ _ _ (O1 i) Hfs Hz E). }
    apply Hrun in Hst. apply bind_ok in H as (c1 & Hc1 & _). clear Hrun.
    assert (T : two (is_file p1 doc1) (is_file p2 doc2) (sp_conts st)).
    { refine (files_two a ch ss O1 Hfs vis i1 i2 p1 doc1 p2 doc2 _ _ Nf S1 S2 _ st _ Hst); [now apply Hvis | now apply Hvis | exact I]. }
    unfold specs_merge, containers_merge, c_new in Hc1. revert Hc1. refine (merge_two (ch_merge ch) p (is_obj x) (is_obj y) M1 Hb _ _ _ 0 [] c1 (conj I I)).
    - apply Forall_map. rewrite Forall_forall in *. intros f If. apply Dst. eapply Permutation_in; [apply O2 | exact If].
    - eapply two_perm; [apply Permutation_map, Permutation_sym, O2|]. destruct T as (f1 & f2 & rest & (_ & g1 & E1) & (_ & g2 & E2) & Pm). exists (f_cont f1), (f_cont f2), (map f_cont rest).
      assert (G : forall doc g z, ~ In NBad (numbers doc) -> at_path p doc = Some z -> brings p (is_obj z) (Some (map_refs g doc))).
      { intros doc g z Nb Az. split; [apply refs_kind; exists z; auto|]. cbn [c_data]. destruct (clone_cases (map_refs g doc)) as [X'|X']; [exact X'|]. exfalso. apply clone_fails in X'. rewrite map_refs_numbers in X'. now apply Nb. }
      split; [rewrite E1; now apply G|]. split; [rewrite E2; now apply G|]. exact (Permutation_map f_cont Pm).
  Qed.
End Whole.
