(** Scan comes to an end, with a document or an error (proofs). *)
From Coq Require Import String Ascii List Bool Arith ZArith Lia Permutation.
From Verif Require Import GoStr GoStrFacts Json JsonFacts Gabs Container Url Pointer Spec_Ptr PtrFacts FragFacts Spec_Clone Spec_Merge CloneFacts MergeFacts MergeApi ConfigApi
  Spec_Loc LocFacts SetFacts Spec_Resolve ResolverFacts ResolverFrame ResolverTerm Path Resolver ScanFn Cmds Spec_Cmds CmdFacts Specs Spec_Specs SpecFacts Pkgs Spec_Pkgs PkgFacts Tag Spec_Tag TagFacts Types TypesFacts WalkFacts Root RootFacts Spec_Root Route PathsFacts
  SchemaJson SchemaJsonFacts SchemaJsonApi Scan ScanFacts Spec_Types CollectFacts Spec_Schema SchemaRefs DenoteFacts SchemaFacts SchemaOutcome ScanTypes Spec_Scan ScanInv ScanRefs ScanEnd ScanKept ScanKept2 Spec_Kept ScanKept3 CollectApi ScanStages P_Types Spec_Ends ScanDepth.
Import ListNotations.
Local Open Scope string_scope.
Local Open Scope nat_scope.
Local Open Scope list_scope.

Lemma returns_iff {A} (r : res A) : returns r <-> ok_or_err r.
Proof. unfold returns. destruct r; cbn; (split; [|auto]); intros; try tauto; eauto; try (left; eauto; fail); destruct H as [(v & H)|H]; discriminate. Qed.

(** *** Setting a value *)
Lemma setp_ends path v c : ok_or_err (c_setp path v c).
Proof.
  unfold c_setp. destruct (clone_cases v) as [[x ->]| ->]; cbn [bind]; [|exact Logic.I]. unfold c_set.
  destruct c as [j|]; [|exact Logic.I]. rewrite root_set_nonempty by apply dot_path_nonempty.
  destruct (gset_err_or_ok x (dot_path path) true (denull j)) as [[r ->]| ->]; exact Logic.I.
Qed.
Lemma on_cx_ends f s : (forall c, ok_or_err (f c)) -> ok_or_err (on_cx f s).
Proof. intro H. unfold on_cx. destruct (snd s); apply ok_or_err_bind; auto; intros; exact Logic.I. Qed.
Lemma replace_ends k v c : ok_or_err (replace_ptr k v c).
Proof. unfold replace_ptr. destruct (isref k); [apply setp_ends | exact Logic.I]. Qed.
Lemma update_ends k f c : ok_or_err (update_ptr_local k f c).
Proof. unfold update_ptr_local, update_ptr. destruct (isref k); [apply setp_ends | exact Logic.I]. Qed.
Lemma r_set_ends es p k v s : ok_or_err (r_set es p k v s).
Proof.
  unfold r_set. destruct (exports_get es p) as [e|]; [|apply on_cx_ends; intro; apply replace_ends]. apply ok_or_err_bind.
  - unfold on_root. apply ok_or_err_bind; [apply setp_ends | intros; exact Logic.I].
  - intros. apply on_cx_ends. intro. apply update_ends.
Qed.
Lemma r_set_rec_ends es p k s : ok_or_err (r_set_recursive es p k s).
Proof.
  unfold r_set_recursive. destruct (exports_get es p) as [e|]; [destruct (is_scheme e)|]; apply on_cx_ends; intro; first [apply update_ends | apply replace_ends].
Qed.
Lemma parse_ends t : ok_or_err (ptr_parse t).
Proof. destruct (ptr_parse_ok_err t) as [(p & ->)| ->]; exact Logic.I. Qed.
Lemma make_ends x : ok_or_err (c_make x).
Proof. unfold c_make. destruct (clone_cases x) as [[y ->]| ->]; exact Logic.I. Qed.
Lemma extract_ends ord k c : ok_or_err (extract_key ord k c).
Proof. unfold extract_key, c_flatten. destruct (c_data c); exact Logic.I. Qed.

(** *** Resolving *)
Section Resolve.
  Context (ord : list nat -> list (string * json) -> list (string * json)) (es : list export) (fn : ptr -> res json).
  Context (U : list string) (Q : ptr -> Prop).
  Hypothesis Hord : forall pos l, Permutation (ord pos l) l.
  Hypothesis HQ : forall p, Q p -> In (ptr_string p) U.
  Hypothesis Hfn : forall p, Q p -> ok_or_err (fn p).
  Hypothesis HfnQ : forall p x, Q p -> fn p = Ok x -> wf x /\ forall p', mentions x p' -> Q p'.
  Lemma iterator_ends : forall fuel pos pp s, wf (c_data (st_cx s)) -> (forall p, mentions (c_data (st_cx s)) p -> Q p) ->
    NoDup (map ptr_string pp) -> incl (map ptr_string pp) U -> length U < fuel + length pp -> ok_or_err (iterator ord es fn fuel pos pp s).
  Proof.
    induction fuel as [|f IH]; intros pos pp s Hw Hm Hnd Hinc Hlen.
    - exfalso. pose proof (NoDup_incl_length Hnd Hinc) as L. rewrite map_length in L. lia.
    - rewrite iterator_S. apply ok_or_err_bind; [apply extract_ends|]. intros refs He.
      assert (Hrefs : forall key t p, In (key, JStr t) refs -> ptr_parse t = Ok p -> is_external p = true -> Q p).
      { intros key t p Hin Hp Hx. apply Hm. destruct (st_cx s) as [j|]; [|discriminate].
        exact (extract_mentions (ord pos) j refs key t p (Hord pos) Hw He Hin Hp Hx). }
      clear He Hm Hw. generalize 0 as i. revert s. induction refs as [|[key v] refs IHl]; intros s i; [exact Logic.I|].
      cbn [rloop]. apply ok_or_err_bind.
      + unfold rstep. destruct v as [| | |t| |]; try exact Logic.I.
        apply ok_or_err_bind; [apply parse_ends|]. intros p Hp. destruct (is_external p) eqn:Hx; cbn [negb]; [|exact Logic.I].
        destruct (path_has pp p) eqn:Hh; [apply r_set_rec_ends|].
        assert (Qp : Q p) by (eapply Hrefs; [now left | exact Hp | exact Hx]).
        apply ok_or_err_bind; [now apply Hfn|]. intros x Hx'. apply ok_or_err_bind; [apply make_ends|].
        intros nc Hnc. unfold c_make in Hnc. apply bind_ok in Hnc as (x' & Hcl & E). injection E as <-.
        apply ok_or_err_bind; [|intros; apply r_set_ends].
        destruct (HfnQ _ _ Qp Hx') as [Wx Mx].
        apply IH; cbn [st_cx snd c_data].
        * eapply clone_wf; eassumption.
        * intros p' Hp'. apply Mx. eapply clone_mentions; eassumption.
        * rewrite map_app. apply LocFacts.NoDup_app; [exact Hnd | cbn; constructor; [intros [] | constructor] |].
          intros y H1 [<-|[]]. apply path_has_spec in H1. congruence.
        * rewrite map_app. apply incl_app; [exact Hinc|]. intros y [<-|[]]. now apply HQ.
        * rewrite app_length. cbn [length]. lia.
      + intros s' _. apply IHl. intros key' t p Hin. apply (Hrefs key' t p). now right.
  Qed.
  Lemma resolve_ends c fuel : wf (c_data c) -> (forall p, mentions (c_data c) p -> Q p) -> length U < fuel -> ok_or_err (resolve ord es fn fuel c).
  Proof.
    intros Hw Hm Hf. unfold resolve. apply ok_or_err_bind; [|intros; exact Logic.I].
    apply iterator_ends; cbn [st_cx snd fst].
    - unfold c_clone. destruct (clone_cases (c_data c)) as [[x E]|E]; rewrite E; cbn [c_data]; [eapply clone_wf; eassumption | exact Logic.I].
    - intros p Hp. apply Hm. unfold c_clone in Hp. destruct (clone_cases (c_data c)) as [[x E]|E]; rewrite E in Hp; cbn [c_data] in Hp.
      + eapply clone_mentions; eassumption.
      + exfalso. destruct Hp as (q & k & t & L & _). destruct q as [|[|] q]; discriminate.
    - constructor.
    - intros x [].
    - cbn. lia.
  Qed.
End Resolve.

(** *** Texts of a document *)
Fixpoint strs (j : json) : list string :=
  match j with
  | JStr t => [t]
  | JArr l => (fix go (l : list json) := match l with [] => [] | x :: r => strs x ++ go r end) l
  | JObj m => (fix go (m : list (string * json)) := match m with [] => [] | (_, x) :: r => strs x ++ go r end) m
  | _ => []
  end.
Lemma strs_lookup q : forall j t, lookup q j = Some (JStr t) -> In t (strs j).
Proof.
  induction q as [|[k|i] q IH]; intros j t H.
  - cbn in H. injection H as ->. now left.
  - cbn [lookup] in H. destruct j as [| | | | |m]; try discriminate. cbn [strs]. destruct (oget k m) as [v|] eqn:E; [|discriminate]. apply IH in H. apply oget_in in E. clear IH. induction m as [|(k0 & x) m IHm]; [destruct E|].
    apply in_app_iff. destruct E as [[= -> ->]|E]; [now left | right; auto].
  - cbn [lookup] in H. destruct j as [| | | |l|]; try discriminate. cbn [strs]. destruct (nth_error l i) as [v|] eqn:E; [|discriminate]. apply IH in H. apply nth_error_In in E. clear IH. induction l as [|x l IHl]; [destruct E|].
    apply in_app_iff. destruct E as [->|E]; [now left | right; auto].
Qed.
Definition ptext (t : string) : string := match ptr_parse t with Ok p => ptr_string p | _ => "" end.
Lemma mentions_strs j p : mentions j p -> In (ptr_string p) (map ptext (strs j)).
Proof. intros (q & k & t & L & _ & P & _). apply in_map_iff. exists t. split; [unfold ptext; now rewrite P | exact (strs_lookup _ _ _ L)]. Qed.

(** *** Commands, specification files *)
Lemma scan_cmds_ends s y : Forall (Forall (fun t => 2 <= String.length t)) (cs_groups s) -> ok_or_err (scan_cmds s y).
Proof.
  intro H. unfold scan_cmds. apply ok_or_err_bind.
  - induction H as [|g gs Hg H IH]; [exact Logic.I|]. cbn [all_comments]. apply ok_or_err_bind; [|intros; apply ok_or_err_bind; [exact IH | intros; exact Logic.I]]. clear - Hg.
    induction Hg as [|t g Ht Hg IH]; [exact Logic.I|]. cbn [parse_comment_group]. apply Nat.ltb_ge in Ht. rewrite Ht. apply ok_or_err_bind; [exact IH|]. intros cc _. destruct (has_prefix _ _); exact Logic.I.
  - intros cs _. destruct (parse_all_spec (cs_types s) cs) as [(cc & -> & _)|(-> & _)]; exact Logic.I.
Qed.
Lemma export_ends cc : forall es, ok_or_err (export_all cc es).
Proof. induction cc as [|[args|n p] cc IH]; intro es; [exact Logic.I | apply IH|]. cbn [export_all]. destruct (exports_get es p); [exact Logic.I | apply IH]. Qed.
Lemma rewrite_ends pkg refs : forall c pp, ok_or_err (fst (rewrite_refs pkg refs c pp)).
Proof.
  induction refs as [|(k & v) refs IH]; intros c pp; [exact Logic.I|]. cbn [rewrite_refs]. destruct v as [| | |t| |]; try exact Logic.I; try apply IH.
  destruct (ptr_parse_ok_err t) as [(p & ->)| ->]; [|exact Logic.I]. pose proof (setp_ends k (JStr (ptr_string (abs_ptr pkg p))) c) as X. destruct (c_setp _ _ c); try destruct X; [apply IH | exact Logic.I].
Qed.
Lemma scan_files_ends ord ff : forall n pkg pp, ok_or_err (fst (scan_files ord n pkg ff pp)).
Proof.
  induction ff as [|f ff IH]; intros n pkg pp; [exact Logic.I|]. cbn [scan_files]. destruct (negb _); [apply IH|].
  pose proof (extract_ends (ord n) "$ref" (f_cont f)) as X. destruct (extract_key _ _ _) as [refs| | |]; try destruct X; [|exact Logic.I].
  pose proof (rewrite_ends pkg refs (f_cont f) pp) as Y. destruct (rewrite_refs pkg refs (f_cont f) pp) as [[c| | |] pp']; cbn [fst] in Y; try destruct Y; [|exact Logic.I].
  specialize (IH (S n) pkg pp'). destruct (scan_files ord (S n) pkg ff pp') as [[cc| | |] pp'']; cbn [fst] in *; try destruct IH; exact Logic.I.
Qed.
Lemma scan_specs_ends ord gp miss fs s st : (forall path x, fs path = Some x -> ok_or_err x) -> ok_or_err (scan_specs ord gp miss fs s st).
Proof.
  intro H. unfold scan_specs. assert (X : ok_or_err (get_pkg_path gp miss (ss_path s) (ss_module s))).
  { unfold get_pkg_path. repeat match goal with |- context [match ?x with _ => _ end] => destruct x end; exact Logic.I. }
  destruct (get_pkg_path _ _ _ _) as [d| | |]; try destruct X; [|exact Logic.I].
  assert (Y : ok_or_err (read_dir fs d)).
  { unfold read_dir. generalize (map (join2 d) spec_names). induction l as [|p l IH]; [exact Logic.I|]. cbn [read_each]. destruct (fs p) as [x|] eqn:E; [|exact IH]. apply ok_or_err_bind; [exact (H _ _ E)|]. intros. apply ok_or_err_bind; [exact IH | intros; exact Logic.I]. }
  destruct (read_dir fs d) as [ff| | |]; try destruct Y; [|exact Logic.I].
  pose proof (scan_files_ends ord ff 0 (ss_path s) (sp_ptrs st)) as Z. destruct (scan_files _ _ _ _ _) as [[cc| | |] pp]; cbn [fst] in Z; try destruct Z; exact Logic.I.
Qed.

Lemma reach_lt std ps r i : reach std ps r i -> i < length ps.
Proof. induction 1 as [i (p & E & _)|i j k _ _ _ IH]; [apply nth_error_Some; congruence | exact IH]. Qed.
(** *** Visiting the packages *)
Lemma run_ends {A} (P : A -> Prop) (fn : nat -> A -> res (A * bool)) l : (forall i y, In i l -> P y -> ok_or_err (fn i y) /\ forall y' b, fn i y = Ok (y', b) -> P y') ->
  forall x, P x -> ok_or_err (run fn l x).
Proof.
  induction l as [|i l IH]; intros H x Px; [exact Logic.I|]. cbn [run]. destruct (H i x (or_introl eq_refl) Px) as (A1 & A2). apply ok_or_err_bind; [exact A1|]. intros (y & b) E. cbn [fst snd].
  apply ok_or_err_bind; [|intros; exact Logic.I]. apply IH; [intros j z Ij; apply H; now right | exact (A2 _ _ E)].
Qed.
Lemma scan_with_ends a ch de ss roots : loaded (map so_pkg ss) -> (forall i, In i roots -> i < length ss) -> length ss < de_pkgs de -> (forall n i l, Permutation (ch_imports ch n i l) l) -> is_string_sort (ch_strings ch) ->
  forall A (P : A -> Prop) n (fn : source -> nat -> A -> res (A * bool)) x,
    (forall s i y, visited a ss roots s -> P y -> ok_or_err (fn s i y) /\ forall y' b, fn s i y = Ok (y', b) -> P y') -> P x -> ok_or_err (scan_with a ch de n fn ss (map Some roots) x).
Proof.
  intros Hl Hr Hf Hi Hs A P n fn x Hfn Px. destruct (scan_spec (map so_pkg ss) (ar_std a) roots Hl) as (l & _ & Hin & _ & Hrun); [intros i I; rewrite map_length; auto|].
  unfold scan_with. specialize (Hrun (de_pkgs de) (ch_imports ch n) (ch_strings ch) A (fun i y => match nth_error ss i with Some s => fn s i y | None => Panic end) x). rewrite map_length in Hrun. specialize (Hrun Hf (Hi n) Hs).
  assert (R : ok_or_err (run (fun i y => match nth_error ss i with Some s => fn s i y | None => Panic end) l x)).
  { apply (run_ends P); [|exact Px]. intros i y Ii Py. apply Hin in Ii as (r & Ir & Re). destruct (nth_error ss i) as [s|] eqn:En.
    - apply Hfn; [now exists r, i | exact Py].
    - exfalso. assert (L : i < length (map so_pkg ss)) by exact (reach_lt _ _ _ _ Re). rewrite map_length in L. apply nth_error_None in En. lia. }
  destruct (run _ l x) as [(y & es)| | |]; try destruct R.
  - destruct Hrun as (errs & -> & _). cbn [bind fst snd]. destruct errs; exact Logic.I.
  - rewrite Hrun. exact Logic.I.
Qed.

(** *** Merging *)
Lemma containers_ends (ord : nat -> morder) l : (forall n, perm_oracle (ord n)) -> Forall (fun c => plain_doc (c_data c)) l -> forall n d, wf (JObj d) -> ok_or_err (containers_merge_from ord merge_strict n (Some (JObj d)) l).
Proof.
  intro Ho. induction l as [|x l IH]; intros Hl n d Wd; [exact Logic.I|]. cbn [containers_merge_from]. apply ok_or_err_bind.
  - destruct (clone_cases (c_data x)) as [[y Ec]|Ec].
    + destruct (plain_clone _ _ (Forall_inv Hl) Ec) as (Wx & _ & m & -> & _). assert (Ci : clone (JObj m) = Ok (JObj m)) by (eapply clone_idem; exact Ec).
      assert (E : c_merge (ord n) merge_strict (Some (JObj d)) x = c_merge (ord n) merge_strict (Some (JObj d)) (Some (JObj m))) by (unfold c_merge, c_clone; cbn [c_data]; now rewrite Ec, Ci).
      rewrite E. destruct (c_merge_obj (ord n) merge_strict d m (JObj m) (Ho n) good_strict Wd Wx Ci) as [(r & -> & _)|(-> & _)]; exact Logic.I.
    + unfold c_merge, c_clone. rewrite Ec. exact Logic.I.
  - intros c1 H1. destruct (c_merge_step _ _ _ _ _ (Ho n) good_strict Wd (Forall_inv Hl) H1) as [(m & r & Ec & Wm & M & -> & Wr)|(Nc & ->)]; [|exact (IH (Forall_inv_tail Hl) _ _ Wd)].
    destruct (merged_objs _ _ _ _ M) as (a & b & d1 & _ & _ & ->). exact (IH (Forall_inv_tail Hl) _ _ Wr).
Qed.
Lemma merge_root_ends (ord : nat -> morder) root d : (forall n, perm_oracle (ord n)) -> canon_obj root -> (forall k, In k section_names -> ~ scalar (section k root)) ->
  wf (JObj d) -> fixed (JObj d) -> (forall k, In k section_names -> ~ scalar (section k (JObj d))) -> ok_or_err (merge_with_root ord root (Some (JObj d))).
Proof.
  intros Ho Hc Hs Wd Fd Hd. destruct Hc as (Wr & Kr & rm & ->). unfold merge_with_root. apply ok_or_err_bind; [apply make_ends|]. intros c Ec.
  unfold c_make in Ec. apply bind_ok in Ec as (x & Ex & Er). injection Er as <-.
  destruct (clone_obj_inv _ _ Ex) as (r & -> & _). pose proof (clone_wf _ _ Wr Ex) as Wr'. pose proof (clone_idem _ _ Ex) as Fr.
  assert (Hs' : Forall (fun x => ~ scalar (section (snd x) (JObj r))) sections).
  { apply Forall_forall. intros x Ix. specialize (Hs (snd x) (in_map snd _ _ Ix)). intro S. apply Hs. clear Hs.
    pose proof (clone_lookup [SKey (snd x)] _ _ Ex) as L. unfold section in *. cbn [lookup] in L. destruct (oget (snd x) r) as [y|]; [|destruct S]. destruct (oget (snd x) rm) as [z|]; [|destruct L].
    destruct z as [|b|n|s|l|m]; cbn; auto.
    - cbn in L. injection L as <-. destruct S.
    - rewrite clone_arr_eq in L. apply bind_ok in L as (l' & _ & L). injection L as <-. destruct S.
    - rewrite clone_obj_eq in L. apply bind_ok in L as (l' & _ & L). injection L as <-. destruct S. }
  assert (Hd' : Forall (fun x => ~ scalar (section (snd x) (JObj d))) sections) by (apply Forall_forall; intros x Ix; apply Hd; now apply in_map).
  destruct (merge_sections_spec ord r sections Ho sections_usable sections_nodup Wr' (fun k => section_fixed k _ Wr' Fr) Hs' 0 d Wd (fun k _ => section_fixed k _ Wd Fd) Hd') as [(d' & -> & _)|(-> & _)]; exact Logic.I.
Qed.

(** *** References *)
Lemma plain_mentions j p : keys_ok Spec_Loc.plain j -> mentions j p -> exists q t, ext_ref j q t p.
Proof.
  intros K (q & k & t & L & Hk & P & X). exists q, t. split; [|auto]. destruct Hk as [-> |(k' & ->)]; [exact L|]. exfalso.
  destruct (keys_ok_lookup _ _ _ _ K L) as (_ & Kk). destruct (Kk (k' +++ ".$ref")) as (_ & D & _); [apply in_app_iff; right; now left|].
  rewrite has_char_app in D. apply orb_false_iff in D as (_ & D). discriminate.
Qed.

Lemma scalar_no_ref q v t : match v with JArr _ | JObj _ => False | _ => True end -> lookup (q ++ [SKey "$ref"]) v <> Some (JStr t).
Proof. intros H L. destruct v; try destruct H; destruct q as [|[] ?]; discriminate. Qed.
Lemma schema_refs {F} (fnum : F -> num) s : forall j t, schema_json fnum s = Ok j -> Spec_Resolve.has_ref j t -> exists p, Spec_Schema.has_ref p s /\ t = ptr_string p.
Proof.
  induction s as [s IHa IHi IHo IHp] using schema_induction. intros j t Hj (q & L).
  destruct (schema_json_spec fnum s j Hj) as (r & addl & items & oneof & props & Hr & Ha & Hi & Ho & Hp & ->). destruct q as [|st q].
  - pose proof (schema_json_members fnum s _ Hj) as (_ & E & _). cbn [app lookup] in L. rewrite E in L. destruct (s_ref s) as [p|] eqn:Er; [|discriminate]. cbn in L. exists p. split; [now constructor | congruence].
  - destruct st as [k|]; [|discriminate]. cbn [app lookup] in L. destruct (oget k _) as [v|] eqn:Ev; [|discriminate]. apply flat_get in Ev; [|apply members_increasing]. rename Ev into I.
    assert (SC : match v with JArr _ | JObj _ => False | _ => True end -> exists p, Spec_Schema.has_ref p s /\ t = ptr_string p) by (intro S; elim (scalar_no_ref _ _ _ S L)).
    unfold members, o_bool, o_str, o_int, o_flt in I.
    repeat (destruct I as [E|I]; [injection E as _ E|]); try (destruct I); try (destruct (_ : bool) in E; [injection E as <- | discriminate E]; apply SC; exact Logic.I);
      try (destruct (String.eqb _ _) in E; [discriminate E | injection E as <-]; apply SC; exact Logic.I);
      try (match type of E with option_map _ ?o = _ => destruct o; [injection E as <- | discriminate E] end; apply SC; exact Logic.I).
    + subst r. destruct (s_ref s) as [p|]; [|discriminate Hr]. destruct Hr as (y & Hy & [= ->]). apply marshal_str in Hy as (u & ->). now apply SC.
    + subst addl. unfold opt_json in Ha. destruct (s_addl s) as [x|] eqn:Ex; [|discriminate]. destruct Ha as (y & Hy & [= ->]). destruct (IHa x eq_refl y t Hy (ex_intro _ q L)) as (p & R & ->). exists p. split; [exact (hr_addl p s x Ex R) | reflexivity].
    + subst items. unfold opt_json in Hi. destruct (s_items s) as [x|] eqn:Ex; [|discriminate]. destruct Hi as (y & Hy & [= ->]). destruct (IHi x eq_refl y t Hy (ex_intro _ q L)) as (p & R & ->). exists p. split; [exact (hr_items p s x Ex R) | reflexivity].
    + assert (E' : v = JArr oneof) by (destruct oneof; [discriminate | now injection E as <-]). subst v. clear E SC. destruct q as [|[k0|i] q]; try discriminate. cbn [app lookup] in L. destruct (nth_error oneof i) as [y|] eqn:Ey; [|discriminate].
      apply nth_error_In in Ey. assert (Q : exists x, In x (s_oneof s) /\ schema_json fnum x = Ok y). { clear - Ho Ey. induction Ho as [|x z l js E H IH]; [destruct Ey|]. destruct Ey as [<-|Ey]; [exists x; split; [now left | exact E]|]. destruct (IH Ey) as (w & I & Ew). exists w. split; [now right | exact Ew]. }
      destruct Q as (x & Ix & Ex). rewrite Forall_forall in IHo. destruct (IHo x Ix y t Ex (ex_intro _ q L)) as (p & R & ->). exists p. split; [exact (hr_oneof p s x Ix R) | reflexivity].
    + assert (E' : v = JObj props) by (destruct props; [discriminate | now injection E as <-]). subst v. clear E SC.
      assert (Q : forall a b, In (a, b) props -> exists x, In (a, x) (s_props s) /\ schema_json fnum x = Ok b).
      { clear - Hp. induction Hp as [|[a x] [a' y] l js (E & Ex) H IH]; intros c b I; [destruct I|]. cbn [fst snd] in *. subst a'. destruct I as [[= -> ->]|I]; [exists x; split; [now left | exact Ex]|].
        destruct (IH _ _ I) as (z & Iz & Ez). exists z. split; [now right | exact Ez]. }
      assert (G : forall k0 y, oget k0 props = Some y -> forall q0, lookup (q0 ++ [SKey "$ref"]) y = Some (JStr t) -> exists p, Spec_Schema.has_ref p s /\ t = ptr_string p).
      { intros k0 y Ey q0 L0. apply oget_in in Ey. destruct (Q _ _ Ey) as (x & Ix & Ex). rewrite Forall_forall in IHp. destruct (IHp (k0, x) Ix y t Ex (ex_intro _ q0 L0)) as (p & R & ->). exists p. split; [exact (hr_prop p s k0 x Ix R) | reflexivity]. }
      destruct q as [|[k0|i] q]; try discriminate.
      * cbn [app lookup] in L. destruct (oget "$ref" props) as [y|] eqn:Ey; [|discriminate]. injection L as ->. exfalso. apply oget_in in Ey. destruct (Q _ _ Ey) as (x & _ & Ex). destruct (schema_json_spec fnum x _ Ex) as (? & ? & ? & ? & ? & _ & _ & _ & _ & _ & X). discriminate X.
      * cbn [app lookup] in L. destruct (oget k0 props) as [y|] eqn:Ey; [|discriminate]. exact (G k0 y Ey q L).
    + assert (E' : v = JArr (map JStr (s_required s))) by (destruct (s_required s); [discriminate | now injection E as <-]). subst v. exfalso. destruct q as [|[k0|i] q]; try discriminate. cbn [app lookup] in L. destruct (nth_error _ i) as [y|] eqn:Ey; [|discriminate].
      apply nth_error_In, in_map_iff in Ey as (u & <- & _). exact (scalar_no_ref q (JStr u) t Logic.I L).
Qed.

(** *** Go types *)
Lemma trail_percent env t toks ts u : env_ok env -> trail env t toks ts u -> field_names_ok t = true -> Forall (fun t => has_char "%" t = false) toks.
Proof.
  intro He. induction 1 as [t|t tok t1 toks ts u Hs Ht IH]; intro H; [constructor|]. destruct (names_step env He t tok t1 H Hs) as [H1 _]. constructor; [|auto].
  apply (names_under env He) in H. destruct Hs as [t fs i e E Hin Hx|t e E|t e E|t n e E|t k e E|t d e E]; try reflexivity. rewrite E in H. cbn in H. rewrite forallb_forall in H. specialize (H _ Hin). cbn in H. apply andb_true_iff in H as [A _]. now apply ident_tok in A.
Qed.
Section GoTypes.
  Context {F : Type} (pf : string -> option F) (zero : F) (fnum : F -> num) (a : around) (ch : choices).
  Context (ss : list source) (os : list gobj) (fuel0 : nat) (pts : pmap).
  Hypothesis Hin : scan_input (ar_env a) os.
  Hypothesis Hcol : collect_all (ar_env a) fuel0 os [] = Ok pts.
  Hypothesis Hfound : forall T, In T (map fst pts) -> found_type (ar_env a) ss T.
  Hypothesis Hhandy : forall fs, found_type (ar_env a) ss (TStruct fs) -> handy pf (ar_env a) fs.
  Hypothesis Htags : forall fs, found_type (ar_env a) ss (TStruct fs) -> forall fs' i t, looked_at pf (ar_env a) fs fs' -> In (i, t) fs' -> f_tag i = "" \/ blank (f_tag i) = false.
  Hypothesis Hpk : picks_shortest (ch_pick ch).
  Hypothesis Hord : forall m, Permutation (ch_points ch m) m.
  Lemma registered_key T t : registered pts T t -> In T (map fst pts).
  Proof. intros (p & I & _). apply pm_at_entry in I as (l & I & _). exact (in_map fst _ _ I). Qed.
  Lemma registered_text T t : registered pts T t -> In t (map ptr_string (flat_map snd pts)).
  Proof. intros (p & I & <-). apply pm_at_entry in I as (l & I & I'). apply in_map, in_flat_map. exists (T, l). auto. Qed.
  Lemma closed_bound : exists N, forall T, In T (map fst pts) -> exists L, closed_types (ar_env a) T L /\ length L < N.
  Proof.
    generalize (map fst pts). induction l as [|T l (N & IH)]; [exists 0; intros T []|]. destruct (closed_exists (ar_env a) T) as (L & HL). exists (S (max N (length L))).
    intros T' [<-|I]; [exists L; split; [exact HL | lia]|]. destruct (IH T' I) as (L' & H1 & H2). exists L'. split; [exact H1 | lia].
  Qed.
  Lemma go_types_ends : exists N, forall de p T, N < de_type de -> N < de_fields de -> registered pts T (ptr_string p) -> ok_or_err (go_types pf zero fnum std_mapping a ch de pts p).
  Proof.
    destruct closed_bound as (N & HN). exists N. intros de p T H1 H2 R. unfold go_types. apply ok_or_err_bind; [|intros s _; destruct (schema_json_res fnum s) as [(j & ->)| ->]; exact Logic.I].
    pose proof (registered_key _ _ R) as KT. destruct (HN T KT) as (L & HL & LN). assert (L1 : length L < de_type de) by lia. assert (L2 : length L < de_fields de) by lia.
    pose proof Hin as (He & Hf & Ho & Hd & Hod & Hu). pose proof (find_unique (ar_env a) He Hd os Ho Hod Hu fuel0 pts Hcol (ch_points ch) p T (Hord pts) R) as Ef.
    assert (U : under (ar_env a) T = T). { destruct (collect_all_reg (ar_env a) He fuel0 os pts Ho Hcol) as [_ G]. destruct (G _ _ R) as (t' & ET & _). rewrite ET. now apply under_flat. }
    assert (NF : scanner_resolve pf zero (ar_env a) std_mapping (ch_pick ch) (de_type de) (de_fields de) (ch_points ch) pts p <> OutOfFuel).
    { unfold scanner_resolve. rewrite Ef. apply (C50_terminates F pf zero (ar_env a) std_mapping (ch_pick ch) L); auto. }
    assert (NP : scanner_resolve pf zero (ar_env a) std_mapping (ch_pick ch) (de_type de) (de_fields de) (ch_points ch) pts p <> Panic).
    { intro E. destruct (proj2 (C57_resolve F pf zero (ar_env a) std_mapping (ch_pick ch) fuel0 os pts (de_type de) (de_fields de) (ch_points ch) p Hin Hcol (Hord pts)) T L R HL L1 L2 E) as (fs & fs' & i & t1 & -> & Lk & I & N1 & N2).
      destruct (Htags fs (Hfound _ KT) fs' i t1 Lk I) as [X|X]; congruence. }
    destruct (scanner_resolve _ _ _ _ _ _ _ _ _ _); try exact Logic.I; congruence.
  Qed.
  Lemma go_types_refs de p x p' : go_types pf zero fnum std_mapping a ch de pts p = Ok x -> mentions x p' -> exists T, registered pts T (ptr_string p').
  Proof.
    intros E M. pose proof Hin as (He & Hf & Ho & Hd & Hod & Hu). pose proof (go_types_tidy pf zero fnum std_mapping a ch de std_mapping_ok ss pts Hf Hfound Hord Hhandy p x E) as (Wx & Kx & _).
    destruct (plain_mentions _ _ Kx M) as (q & t & L & P & X). unfold go_types in E. apply bind_ok in E as (s & Es & Ej).
    destruct (schema_refs fnum s x t Ej (ex_intro _ q L)) as (p0 & R & ->). unfold scanner_resolve in Es. destruct (pm_find _ _ _) as [T|]; [|discriminate].
    destruct (C50_references F pf zero (ar_env a) std_mapping (ch_pick ch) fuel0 os pts _ _ _ _ _ s p0 Hin Hpk Hcol Es R) as [(t' & _ & Rg & _)|(txt & o & So & Ro)].
    - exists (under (ar_env a) t'). destruct Rg as (p1 & I1 & E1). destruct (collect_all_good (ar_env a) He fuel0 os [] pts Ho (pm_good_nil) Hcol) as (_ & G). destruct (G _ _ I1) as (l & (Ip & Gp & Fr & Nn & Tk)).
      assert (Pc : forall f, f = snd l -> Forall (fun t => has_char "%" t = false) f).
      { intros f ->. pose proof (at_loc_text p1 l (conj Ip (conj Gp (conj Fr (conj Nn Tk))))) as Tx.
        destruct (registered_denotes (ar_env a) He os Ho fuel0 pts Hcol (under (ar_env a) t') (ptr_string p1) (ex_intro _ p1 (conj I1 eq_refl))) as (pk & n & t1 & toks & ts & t2 & Hr & Ht & _ & Et & _).
        destruct (root_ok (ar_env a) He os Ho _ _ _ Hod Hr) as (A1 & A2 & A3 & _). rewrite Tx in Et. apply loc_text_inj in Et as (_ & ->); [|exact Ip | exact A1 | exact Tk | constructor; [now apply ident_tok in A2 | now apply (trail_toks (ar_env a) He _ _ _ _ Ht)]].
        constructor; [now apply ident_tok in A2 | now apply (trail_percent (ar_env a) t1 toks ts t2)]. }
      destruct (go_roundtrip (fst l) p1 Ip Gp (Pc _ Fr)) as (S1 & _ & _ & _ & p2 & P2 & F2 & _ & _ & G2). rewrite E1, P in P2. assert (p2 = p') by congruence. subst p2.
      destruct (go_roundtrip (fst l) p' Ip G2 (Pc _ (eq_trans F2 Fr))) as (S2 & _). exists p1. split; [exact I1|]. rewrite S1, S2, F2. reflexivity.
    - exfalso. unfold std_mapping in So. destruct (String.eqb _ _); [|discriminate]. injection So as <-. inversion Ro as [? E|? ? ? I|? ? E|? ? E|? ? I]; subst; try discriminate; destruct I.
  Qed.
End GoTypes.

(** *** All stages *)
Lemma closed_all env (os : list gobj) : exists L, (forall t1 tok t2, In (under env t1) L -> step env t1 tok t2 -> In (under env t2) L) /\ forall ob, In ob os -> In (under env (o_type ob)) L.
Proof.
  induction os as [|ob os (L & A & B)]; [exists []; split; [intros ? ? ? [] | intros ? []]|]. destruct (closed_exists env (o_type ob)) as (L0 & C & D). exists (L0 ++ L). split.
  - intros t1 tok t2 I S. apply in_app_iff in I as [I|I]; apply in_app_iff; [left; exact (D _ _ _ I S) | right; exact (A _ _ _ I S)].
  - intros ob' [<-|I]; apply in_app_iff; auto.
Qed.
Lemma step_ok {A B} (x : res A) (k : A -> res B) v : x = Ok v -> ok_or_err (k v) -> ok_or_err (bind x k). Proof. now intros ->. Qed.
Lemma step_err {A B} (x : res A) (k : A -> res B) : x = Err -> ok_or_err (bind x k). Proof. intros ->. exact Logic.I. Qed.
Lemma clone_scalar x y : clone x = Ok y -> scalar y -> scalar x.
Proof.
  destruct x as [|b|n|t|l|m]; intros H S; try exact Logic.I.
  - cbn in H. injection H as <-. destruct S.
  - rewrite clone_arr_eq in H. apply bind_ok in H as (l' & _ & H). injection H as <-. destruct S.
  - rewrite clone_obj_eq in H. apply bind_ok in H as (l' & _ & H). injection H as <-. destruct S.
Qed.
Section Ends.
  Context {F : Type} (pf : string -> option F) (zero : F) (fnum : F -> num) (a : around) (ch : choices).
  Context (o : options) (ss : list source) (roots : list nat).
  Lemma starts_of (ptrs : ptr -> Prop) ob : (forall p, ptrs p -> given_ptr a ss roots p) -> named_by a ss roots ptrs ob -> starts_at a ss roots ob.
  Proof. intros H (s & p & h & r & V & P & X). exists s, p, h, r. split; [exact V|]. split; [exact (H p P) | exact X]. Qed.
  Theorem scan_doc_ends : any_order ch -> visiting_in_any_order ch -> collecting_in_any_order ch -> picks_shortest (ch_pick ch) ->
    (forall fs, found_type (ar_env a) ss (TStruct fs) -> handy pf (ar_env a) fs) -> files_ok (ar_files a) -> canon_obj (op_root o) -> usual_root (op_root o) -> Forall (fun kv => tidy (snd kv)) (op_override o) ->
    loaded (map so_pkg ss) -> (forall i, In i roots -> i < length ss) ->
    sound_scopes (ar_env a) ss -> packages_sound a ss roots -> files_sound a ss roots -> starts_sound a ss roots -> defaults_sound o -> tags_readable pf a ss -> one_meaning a ss roots -> references_manageable a o ss roots ->
    exists de, ok_or_err (scan_doc pf zero fnum std_mapping a ch de o ss (map Some roots)).
  Proof.
    intros ((M1 & M2 & M3 & M4 & M5) & O1 & O2 & O3 & O4 & O5) (V1 & V2 & V3) (X1 & X2 & X3 & X4) Hpk Hh Hfs Hroot Hur Hov Hload Hrange (Se & Sf & Sd & So & Su) (Pn & Pv & Pnames) (Fr & Fsec) Hst0 (Ddef & Drt) Htags Hone (Rf & Rr & Ro).
    set (Pk := S (length ss)). assert (HPk : forall w t f r, length ss < de_pkgs {| de_pkgs := Pk; de_walk := w; de_type := t; de_fields := f; de_resolve := r |}) by (intros; cbn; unfold Pk; lia).
    pose (D := {| de_pkgs := Pk; de_walk := 0; de_type := 0; de_fields := 0; de_resolve := 0 |}).
    destruct (scan_with_runs a ch D ss roots Hload Hrange (HPk 0 0 0 0) V1 V2) as (vis & Hvis & Hrun).
    pose proof (scan_with_ends a ch D ss roots Hload Hrange (HPk 0 0 0 0) V1 V2) as Hend.
    (* commands *)
    pose (fn0 := fun (s : source) (_ : nat) => scan_cmds {| cs_path := so_path s; cs_types := so_types s; cs_groups := so_groups s |}).
    pose (fn1 := fun s i => scan_specs (ch_refs ch i) (ar_gopath a) (ar_missing a) (ar_files a) {| ss_path := so_path s; ss_module := so_module s |}).
    unfold Scan.scan_doc.
    assert (E0 : ok_or_err (scan_with a ch D 0 fn0 ss (map Some roots) [])).
    { refine (Hend _ (fun _ => True) 0 _ _ _ Logic.I). intros s i y Vs _. split; [|auto]. apply scan_cmds_ends. exact (proj2 (Pv s Vs)). }
    destruct (scan_with a ch D 0 fn0 ss (map Some roots) []) as [cm| | |] eqn:Hcm; try destruct E0; [|exists D; exact (step_err _ _ Hcm)].
    pose proof (export_ends (concat (map snd (ch_cmds1 ch cm))) []) as E1. fold (exported_components (ch_cmds1 ch) cm) in E1.
    destruct (exported_components (ch_cmds1 ch) cm) as [es| | |] eqn:Hes; try destruct E1; [|exists D; exact (step_ok _ _ _ Hcm (step_err _ _ Hes))].
    (* files *)
    assert (E2 : ok_or_err (scan_with a ch D 1 fn1 ss (map Some roots) {| sp_conts := []; sp_ptrs := [] |})).
    { refine (Hend _ (fun _ => True) 1 _ _ _ Logic.I). intros s i y Vs _. split; [|auto]. apply scan_specs_ends. intros path x Ex. apply returns_iff. exact (Fr path x Ex). }
    destruct (scan_with a ch D 1 fn1 ss (map Some roots) _) as [st| | |] eqn:Hst; try destruct E2; [|exists D; exact (step_ok _ _ _ Hcm (step_ok _ _ _ Hes (step_err _ _ Hst)))].
    (* merging the files *)
    assert (Dst : Forall (fun f => plain_doc (c_data (f_cont f))) (sp_conts st)).
    { refine (scan_with_inv (fun x => Forall (fun f => plain_doc (c_data (f_cont f))) (sp_conts x)) _ _ _ _ _ _ _ _ _ _ _ Hst); [|constructor].
      intros s i y y' b _ Hy E. exact (scan_specs_docs _ _ _ _ _ _ _ _ (O1 i) Hfs Hy E). }
    assert (Dl : Forall (fun c => plain_doc (c_data c)) (map f_cont (ch_files ch (sp_conts st)))).
    { apply Forall_map. rewrite Forall_forall in *. intros f If. apply Dst. eapply Permutation_in; [apply O2 | exact If]. }
    pose proof (containers_ends (ch_merge ch) _ M1 Dl 0 [] (conj Logic.I Logic.I)) as E3.
    assert (Em : specs_merge (ch_merge ch) (ch_files ch) st = containers_merge_from (ch_merge ch) merge_strict 0 (Some (JObj [])) (map f_cont (ch_files ch (sp_conts st)))) by reflexivity. rewrite <- Em in E3.
    destruct (specs_merge (ch_merge ch) (ch_files ch) st) as [c1| | |] eqn:Hc1; try destruct E3; [|exists D; exact (step_ok _ _ _ Hcm (step_ok _ _ _ Hes (step_ok _ _ _ Hst (step_err _ _ Hc1))))]. symmetry in Em.
    pose proof (Hrun _ _ _ _ _ Hcm) as Rcm. pose proof (Hrun _ _ _ _ _ Hst) as Rst.
    destruct (specs_found a ch O1 Hfs ss roots vis st Hvis Rst) as (SF1 & SF2).
    destruct (spec_ptrs_found a ch O1 Hfs ss roots vis st Hvis Rst) as (SP0 & SP1 & SP2).
    destruct (cmds_found a ss roots vis cm Hvis Rcm) as (CF1 & CF2).
    pose proof (exports_found a ch ss roots vis cm es Hvis V3 Rcm Hes) as EF.
    assert (Gn : Forall (fun e => good_name (Resolver.e_name e)) es). { apply Forall_forall. intros e Ie. destruct (EF e Ie) as (_ & s & Vs & Es). exact (Pnames s _ Vs Es). }
    destruct (containers_keep (ch_merge ch) _ M1 Dl 0 [] c1 (conj Logic.I Logic.I) eq_refl Em) as (d1 & -> & W1 & F1 & _).
    pose proof (containers_from (ch_merge ch) _ M1 Dl 0 [] _ (conj Logic.I Logic.I) eq_refl Em) as K1'. cbn [c_data] in K1'.
    assert (From1 : forall q v, q <> [] -> lookup q (JObj d1) = Some v -> exists s doc y v', visited a ss roots s /\ spec_doc_of a s doc /\ clone (kept_doc s doc) = Ok y /\ lookup q y = Some v' /\ like v v').
    { intros q v N L. destruct (K1' q v L) as (v' & [X|(x & y & Ix & Ey & Ly)] & E); [destruct q as [|[] ?]; [congruence | discriminate | discriminate]|].
      apply in_map_iff in Ix as (g & <- & Ig). apply (Permutation_in _ (O2 _)) in Ig. destruct (SF2 g Ig) as (s & doc & Vs & Hd & Eg). rewrite Eg in Ey. exists s, doc, y, v'. auto. }
    (* pointers *)
    set (pp1 := pointers_merge (ch_p1 ch) (ch_p2 ch) [] (map_pointers (ch_cmds2 ch) (ch_p1 ch) (ch_p2 ch) cm)) in *.
    set (pp := pointers_merge (ch_p1 ch) (ch_p2 ch) pp1 (sp_ptrs st)) in *.
    destruct (map_pointers_spec (ch_cmds2 ch) (ch_p1 ch) (ch_p2 ch) cm (X1 cm) X2 X3) as (MP0 & MP1 & MP2).
    assert (Spp1 : sorted pp1) by (unfold pp1, pointers_merge; apply PtrFacts.assign_sorted, PtrFacts.assign_sorted; exact Logic.I).
    assert (Gpp1 : forall k, oget k pp1 = oget k (map_pointers (ch_cmds2 ch) (ch_p1 ch) (ch_p2 ch) cm)).
    { intro k. unfold pp1. rewrite (PtrFacts.pointers_merge_get _ _ [] _ k X2 X3 Logic.I MP0). now destruct (oget k (map_pointers _ _ _ _)). }
    assert (Gpp : forall k, oget k pp = match oget k (sp_ptrs st) with Some v => Some v | None => oget k pp1 end) by (intro k; exact (PtrFacts.pointers_merge_get _ _ pp1 _ k X2 X3 Spp1 SP0)).
    assert (Spp : sorted pp) by (unfold pp, pointers_merge; apply PtrFacts.assign_sorted, PtrFacts.assign_sorted; exact Logic.I).
    assert (Given : forall k p, oget k pp = Some p -> ptr_string p = k /\ given_ptr a ss roots p).
    { intros k p E. rewrite Gpp in E. destruct (oget k (sp_ptrs st)) as [p'|] eqn:Es.
      - injection E as ->. destruct (SP2 k p Es) as (Ek & s & doc & q & t & p0 & Vs & Hd & L & Pt & Ep). split; [exact Ek|]. right. exists s, doc, q, t. split; [exact Vs|]. split; [exact Hd|]. split; [exact L|]. exists p0. auto.
      - rewrite Gpp1 in E. destruct (MP1 k p E) as (Ek & n & Hn). split; [exact Ek|]. left. destruct (CF1 n p Hn) as (s & X). now exists s, n. }
    assert (Taken : forall p, given_ptr a ss roots p -> exists p', oget (ptr_string p) pp = Some p').
    { intros p [(s & n & Vs & Es)|(s & doc & q & t & Vs & Hd & L & p0 & Pt & ->)].
      - rewrite Gpp. destruct (oget _ (sp_ptrs st)); [eauto|]. rewrite Gpp1. pose proof (MP2 n p (CF2 Pn s n p Vs Es)) as X. destruct (oget _ _); [eauto | congruence].
      - rewrite Gpp. pose proof (SP1 s doc q t Vs Hd L) as X. unfold new_text in X. rewrite Pt in X. destruct (oget _ (sp_ptrs st)); [eauto | congruence]. }
    (* types *)
    set (all := flat_map (fun s => objects_of (so_types s) (so_scope s) (map snd pp)) ss). destruct (closed_all (ar_env a) all) as (L & CL1 & CL2). pose (W := S (length L)).
    pose (D1 := {| de_pkgs := Pk; de_walk := W; de_type := 0; de_fields := 0; de_resolve := 0 |}).
    assert (Iall : forall s i ob, visited a ss roots s -> In ob (objects_of (so_types s) (so_scope s) (map snd (ch_types ch i pp))) -> In ob all /\ starts_at a ss roots ob).
    { intros s i ob Vs I. apply objects_in in I as (p & h & r & Ip & Sc & Pp & Fg & Sh). apply in_map_iff in Ip as ((k & p') & E & Ip). cbn [snd] in E. subst p'. apply (Permutation_in _ (X4 i pp)) in Ip. split.
      - apply in_flat_map. exists s. split; [destruct Vs as (? & ? & _ & _ & En); exact (nth_error_In _ _ En)|]. apply objects_in. exists p, h, r. split; [exact (in_map snd _ _ Ip) | auto].
      - exists s, p, h, r. split; [exact Vs|]. split; [|auto]. apply (Given k p). now apply sorted_in_oget. }
    assert (Ook : forall s h ob, visited a ss roots s -> so_scope s h = Some ob -> obj_ok ob /\ fields_distinct (o_type ob)). { intros s h ob (? & ? & _ & _ & En). apply So. exact (nth_error_In _ _ En). }
    pose (fn2 := fun s i m => do m' <- scan_types (ar_env a) W (so_types s) (so_scope s) (map snd (ch_types ch i pp)) m ; Ok (m', false)).
    assert (E4 : ok_or_err (scan_with a ch D1 2 fn2 ss (map Some roots) [])).
    { refine (scan_with_ends a ch D1 ss roots Hload Hrange (HPk _ _ _ _) V1 V2 _ (fun _ => True) 2 _ _ _ Logic.I). intros s i y Vs _. split; [|auto]. apply ok_or_err_bind; [|intros; exact Logic.I]. rewrite scan_collects.
      destruct (collect_all_outcome (ar_env a) Se W (objects_of (so_types s) (so_scope s) (map snd (ch_types ch i pp))) L) with (m := y) as (_ & Ht).
      - apply Forall_forall. intros ob I. apply objects_in in I as (p & h & r & _ & _ & _ & _ & Sh). exact (proj1 (Ook s h ob Vs Sh)).
      - apply Forall_forall. intros ob I. exact (proj1 (Hst0 ob (proj2 (Iall s i ob Vs I)))).
      - apply Forall_forall. intros ob I. split; [exact (CL2 ob (proj1 (Iall s i ob Vs I))) | exact CL1].
      - unfold W. lia.
      - destruct Ht as (m' & ->); [|exact Logic.I]. intro X. apply Exists_exists in X as (ob & I & R). exact (proj2 (Hst0 ob (proj2 (Iall s i ob Vs I))) R). }
    destruct (scan_with a ch D1 2 fn2 ss (map Some roots) []) as [pts| | |] eqn:Hpts; try destruct E4; [|exists D1; exact (step_ok _ _ _ Hcm (step_ok _ _ _ Hes (step_ok _ _ _ Hst (step_ok _ _ _ Hc1 (step_err _ _ Hpts)))))].
    (* the root configuration *)
    assert (Sec1 : forall k, In k section_names -> ~ scalar (section k (JObj d1))).
    { intros k Ik Sk. unfold section in Sk. destruct (oget k d1) as [v|] eqn:Ev; [|destruct Sk].
      destruct (From1 [SKey k] v) as (s & doc & y & v' & Vs & Hd & Ey & Ly & Lk); [discriminate | cbn; now rewrite Ev|].
      assert (v' = v) by (apply Lk; destruct v; try destruct Sk; reflexivity). subst v'. pose proof (clone_lookup [SKey k] _ _ Ey) as X. rewrite Ly in X. destruct (lookup [SKey k] (kept_doc s doc)) as [z|] eqn:Ez; [|destruct X].
      apply clone_scalar in X; [|exact Sk]. unfold kept_doc in Ez. rewrite map_refs_lookup in Ez. destruct (lookup [SKey k] doc) as [w|] eqn:Ew; [|discriminate]. injection Ez as <-.
      apply (Fsec s doc Vs Hd k Ik). pose proof Hd as (dir & name & _ & _ & _ & m & v0 & -> & _). unfold section. cbn [lookup] in Ew. destruct (oget k m) as [w'|]; [|discriminate]. injection Ew as ->. destruct w; try exact Logic.I; destruct X. }
    pose proof (merge_root_ends (ch_root ch) (op_root o) d1 M2 Hroot Hur W1 F1 Sec1) as E5.
    destruct (merge_with_root (ch_root ch) (op_root o) (Some (JObj d1))) as [c2| | |] eqn:Hc2; try destruct E5;
      [|exists D1; exact (step_ok _ _ _ Hcm (step_ok _ _ _ Hes (step_ok _ _ _ Hst (step_ok _ _ _ Hc1 (step_ok _ _ _ Hpts (step_err _ _ Hc2))))))].
    destruct (root_sections (ch_root ch) (op_root o) d1 c2 M2 Hroot Hur W1 F1 Hc2) as (r & d2 & Er & Wr & -> & W2 & F2 & Oth & Sec).
    pose proof (specs_merge_plain _ _ _ _ M1 O2 Dst Hc1) as P1. pose proof (merge_root_plain _ _ _ _ M2 Hroot P1 Hc2) as P2. cbn [c_data] in P2.
    (* the registered types *)
    pose proof (scan_with_runs a ch D1 ss roots Hload Hrange (HPk _ _ _ _) V1 V2) as (vis' & Hvis' & Hrun').
    pose proof (Hrun' _ _ _ _ _ Hpts) as Rpts. destruct (types_run _ _ _ _ _ _ _ Rpts) as (os & Hos & Ios).
    assert (Ios' : forall ob, In ob os -> exists s h, In s ss /\ visited a ss roots s /\ so_scope s h = Some ob).
    { intros ob I. apply Ios in I as (i & s & Ii & En & I). apply objects_in in I as (p & h & rr & _ & _ & _ & _ & Sc). exists s, h. split; [exact (nth_error_In _ _ En)|]. split; [|exact Sc]. apply Hvis' in Ii as (r0 & Ir & R). now exists r0, i. }
    assert (Hinp : scan_input (ar_env a) os).
    { split; [exact Se|]. split; [exact Sf|]. split; [apply Forall_forall; intros ob I; destruct (Ios' ob I) as (s & h & _ & Vs & Sc); exact (proj1 (Ook s h ob Vs Sc))|]. split; [exact Sd|].
      split; [apply Forall_forall; intros ob I; destruct (Ios' ob I) as (s & h & _ & Vs & Sc); exact (proj2 (Ook s h ob Vs Sc))|]. apply Su. intros ob I. destruct (Ios' ob I) as (s & h & Is & _ & Sc). eauto. }
    assert (Hpf : forall T, In T (map fst pts) -> found_type (ar_env a) ss T) by exact (pts_found pf zero fnum std_mapping a ch D1 ss _ _ pts Hpts).
    assert (Ht' : forall fs, found_type (ar_env a) ss (TStruct fs) -> forall fs' i t, looked_at pf (ar_env a) fs fs' -> In (i, t) fs' -> f_tag i = "" \/ blank (f_tag i) = false) by (intros fs Ff fs' i t Lk I; exact (Htags fs fs' i t Ff Lk I)).
    destruct (go_types_ends pf zero fnum a ch ss os W pts Hinp Hos Hpf Ht' O4) as (N & HN).
    assert (Known : forall p, known_text a ss roots (ptr_string p) -> exists T, registered pts T (ptr_string p)).
    { intros p (ob & pk & T & (s & p0 & h & rr & Vs & Gp & Sc & Pp & Fg & Sh) & Ep & Lo). exists T. apply (collect_all_exact (ar_env a) Se W os [] pts (proj1 (proj2 (proj2 Hinp))) Hos). right. exists ob. split; [|exists pk; auto].
      destruct (Taken p0 Gp) as (p1 & E1). destruct (Given _ _ E1) as (T1 & G1). destruct (Hone p1 p0 G1 Gp T1) as (A1 & A2 & A3).
      destruct Vs as (r0 & i & Ir & R & En). apply Ios. exists i, s. split; [apply Hvis'; eauto|]. split; [exact En|]. apply objects_in. exists p1, h, rr. split; [|rewrite A1, A2, A3; auto].
      apply in_map_iff. exists (ptr_string p0, p1). split; [reflexivity|]. eapply Permutation_in; [apply Permutation_sym, X4 | now apply oget_in]. }
    (* resolving *)
    pose (U := map ptext (strs (JObj d2)) ++ flat_map (fun kv => map ptext (strs (snd kv))) (op_override o) ++ map ptr_string (flat_map snd pts)).
    pose (D2 := {| de_pkgs := Pk; de_walk := W; de_type := S N; de_fields := S N; de_resolve := S (length U) |}).
    pose (fn := scan_fn (op_override o) (go_types pf zero fnum std_mapping a ch D2 pts)).
    pose (Q := fun p => In (ptr_string p) U /\ (oget (ptr_string p) (op_override o) <> None \/ u_scheme (p_url p) <> "go" \/ exists T, registered pts T (ptr_string p))).
    assert (MQ : forall p, In (ptr_string p) U -> manageable a o ss roots p -> Q p).
    { intros p IU M. split; [exact IU|]. destruct M as [M|[M|M]]; [now left | right; now left | right; right; now apply Known]. }
    assert (Hov' : forall k j, oget k (op_override o) = Some j -> In (k, j) (op_override o) /\ tidy j).
    { intros k j E. apply oget_in in E. split; [exact E|]. rewrite Forall_forall in Hov. exact (Hov _ E). }
    assert (Tfn : tidy_fn fn).
    { intros p x E. unfold fn, scan_fn in E. destruct (oget (ptr_string p) (op_override o)) as [y|] eqn:Ey.
      - injection E as <-. exact (proj2 (Hov' _ _ Ey)).
      - destruct (String.eqb _ "go"); [|discriminate]. exact (go_types_tidy pf zero fnum std_mapping a ch D2 std_mapping_ok ss pts Sf Hpf O4 Hh p x E). }
    assert (E6 : ok_or_err (resolve (ch_resolve ch) es fn (S (length U)) (Some (JObj d2)))).
    { apply (resolve_ends (ch_resolve ch) es fn U Q O3); [intros p (H & _); exact H | | | exact W2 | | lia].
      - intros p (_ & H). unfold fn, scan_fn. destruct (oget (ptr_string p) (op_override o)) as [y|]; [exact Logic.I|]. destruct (String.eqb_spec (u_scheme (p_url p)) "go") as [Eg|Eg]; [|exact Logic.I].
        destruct H as [H|[H|(T & H)]]; [congruence | congruence |]. apply (HN D2 p T); [cbn; lia | cbn; lia | exact H].
      - intros p x (_ & H) E. split; [exact (proj1 (Tfn p x E))|]. intros p' M. unfold fn, scan_fn in E. destruct (oget (ptr_string p) (op_override o)) as [y|] eqn:Ey.
        + injection E as <-. destruct (Hov' _ _ Ey) as (Iy & Ty). apply MQ.
          * unfold U. apply in_app_iff. right. apply in_app_iff. left. apply in_flat_map. exists (ptr_string p, y). split; [exact Iy | now apply mentions_strs].
          * destruct (plain_mentions y p' (proj1 (proj2 Ty)) M) as (q & t & X). exact (Ro _ _ q t p' Iy X).
        + destruct (String.eqb _ "go"); [|discriminate]. destruct (go_types_refs pf zero fnum a ch ss os W pts Hinp Hos Hpf Hh Hpk O4 D2 p x p' E M) as (T & RT).
          split; [|right; right; eauto]. unfold U. apply in_app_iff. right. apply in_app_iff. right. exact (registered_text pts T _ RT).
      - intros p M. apply MQ; [unfold U; apply in_app_iff; left; now apply mentions_strs|]. destruct (plain_mentions _ _ (proj1 (proj2 P2)) M) as (q & t & L2 & Pt & Ex).
        destruct (root_from r d1 d2 Sec (q ++ [SKey "$ref"]) (JStr t) Oth) as [(k & Ek & Ik)|(v' & [Lv|Lv] & Lk)]; [destruct q; discriminate | exact L2 | | |].
        + destruct q as [|? [|? ?]]; [|discriminate | discriminate]. injection Ek as <-. cbn in Ik. exfalso. intuition discriminate.
        + assert (v' = JStr t) by (apply Lk; reflexivity). subst v'. destruct (From1 (q ++ [SKey "$ref"]) (JStr t)) as (s & doc & y & v' & Vs & Hd & Ey & Ly & Lk'); [destruct q; discriminate | exact Lv|].
          assert (v' = JStr t) by (apply Lk'; reflexivity). subst v'. apply (clone_lookup_str _ _ _ _ Ey) in Ly. unfold kept_doc in Ly. rewrite map_refs_lookup in Ly. destruct (lookup (q ++ [SKey "$ref"]) doc) as [w|] eqn:Ew; [|discriminate].
          unfold SpecFacts.at_loc in Ly. rewrite ends_ref_snoc in Ly. destruct w as [| | |t0| |]; try discriminate. cbn in Ly. injection Ly as <-.
          apply (Rf s doc q t0 p Vs Hd Ew). exists (new_text (so_path s) t0). split; [|auto]. apply new_text_absolute; [exact (proj1 (Pv s Vs)) | exact (proj1 (SF1 s doc Vs Hd) q t0 Ew)].
        + assert (v' = JStr t) by (apply Lk; reflexivity). subst v'. apply (clone_lookup_str _ _ _ _ Er) in Lv. apply (Rr q t p). split; [exact Lv | auto]. }
    destruct (resolve (ch_resolve ch) es fn (S (length U)) (Some (JObj d2))) as [c3| | |] eqn:Hc3; try destruct E6;
      [|exists D2; exact (step_ok _ _ _ Hcm (step_ok _ _ _ Hes (step_ok _ _ _ Hst (step_ok _ _ _ Hc1 (step_ok _ _ _ Hpts (step_ok _ _ _ Hc2 (step_err _ _ Hc3)))))))].
    (* defaults *)
    exists D2. refine (step_ok _ _ _ Hcm (step_ok _ _ _ Hes (step_ok _ _ _ Hst (step_ok _ _ _ Hc1 (step_ok _ _ _ Hpts (step_ok _ _ _ Hc2 (step_ok _ _ _ Hc3 _))))))).
    assert (W3 : wf (c_data c3)) by (refine (resolve_wf _ _ _ _ (Some (JObj d2)) c3 _ W2 Hc3); intros p x E; apply (Tfn p x E)).
    assert (P3 : pure (c_data c3)).
    { refine (resolve_pure es Gn (ch_resolve ch) _ _ (Some (JObj d2)) c3 O3 _ _ Hc3); [|apply keys_ok_nicely, P2]. intros p x E. apply keys_ok_nicely. apply (Tfn p x E). }
    destruct c3 as [doc|].
    - apply defaults_outcome; [exact M3 | exact M4 | exact O5 | exact M5 | exact W3 | exact (proj2 P3) | exact Ddef |]. intros pat op p m v I _. apply returns_iff. exact (Drt pat op m p I).
    - unfold set_paths_defaults. assert (Ep : paths_of (ch_paths ch) (ch_ops ch) None = Ok []).
      { unfold paths_of. change (c_children (c_path "paths" None)) with (@Ok (list (string * json)) []). cbn [bind]. rewrite (Permutation_nil (Permutation_sym (M3 []))). reflexivity. }
      rewrite Ep. cbn [bind]. rewrite loop_nothing. exact Logic.I.
  Qed.
End Ends.
