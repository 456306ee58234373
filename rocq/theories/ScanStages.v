(** Scan, stage by stage: what each intermediate document is made of (proofs). *)
From Coq Require Import String Ascii List Bool Arith ZArith Lia Permutation.
From Verif Require Import GoStr GoStrFacts Json JsonFacts Gabs Container Url Pointer Spec_Clone Spec_Merge CloneFacts MergeFacts ConfigApi
  Spec_Loc LocFacts Spec_Resolve ResolverFacts ResolverFrame Path Resolver ScanFn Cmds Spec_Cmds CmdFacts Specs Spec_Specs SpecFacts Pkgs Spec_Pkgs PkgFacts Types Root RootFacts Spec_Root PathsFacts
  SchemaJson Scan ScanFacts Spec_Types Spec_Schema ScanTypes Spec_Scan ScanInv ScanRefs ScanEnd ScanKept ScanKept2 Spec_Kept ScanKept3 CollectApi.
Import ListNotations.
Local Open Scope string_scope.
Local Open Scope nat_scope.
Local Open Scope list_scope.

(** [like v v']: the same leaf, or both objects. *)
Definition like (v v' : json) : Prop := is_obj v' = is_obj v /\ (is_obj v = false -> v' = v).
Lemma like_refl v : like v v. Proof. split; auto. Qed.
Lemma like_trans a b c : like a b -> like b c -> like a c.
Proof. intros (A & B) (C & D). split; [congruence|]. intro E. rewrite <- A in E. rewrite (D E). apply B. congruence. Qed.

(** *** Merging, location by location *)
Lemma merged_from coll (Hp : picks coll) q : forall d s r v, merged coll d s r -> lookup q r = Some v ->
  exists v', (lookup q d = Some v' \/ lookup q s = Some v') /\ like v v'.
Proof.
  induction q as [|[k|i] q IH]; intros d s r v M L; destruct (merged_objs _ _ _ _ M) as (a & b & c & -> & -> & ->); cbn [lookup] in *; [injection L as <-; exists (JObj a); split; [now left|]; split; [reflexivity | discriminate] | |discriminate].
  destruct (merged_inv _ _ _ _ M) as (c' & [= <-] & Sc & K). specialize (K k). destruct (oget k c) as [x|]; [|discriminate].
  inversion K as [|v1 E1 E2 E3|v1 E1 E2 E3|d1 s1 r1 H1 H2 M1 E1 E2 E3|d1 s1 r1 H1 M1 E1 E2 E3]; subst; [exists v; split; [now left | apply like_refl] | exists v; split; [now right | apply like_refl] | eapply IH; eassumption|].
  destruct (Hp _ _ _ M1) as [-> | ->]; (exists v; split; [auto | apply like_refl]).
Qed.
(** A leaf of the source survives a default merge when nothing of the
    destination is in its way: what the destination has along q are objects,
    and they are left by keys. *)
Lemma default_takes q : forall d s r v, merged merge_default d s r -> lookup q s = Some v -> is_obj v = false -> clear_way q d -> lookup q r = Some v.
Proof.
  induction q as [|[k|i] q IH]; intros d s r v M L N C; destruct (merged_objs _ _ _ _ M) as (a & b & c & -> & -> & ->); cbn [lookup] in *; [injection L as <-; discriminate | |discriminate].
  destruct (merged_inv _ _ _ _ M) as (c' & [= <-] & Sc & K). specialize (K k). destruct (oget k b) as [x|] eqn:Eb; [|discriminate].
  destruct (oget k a) as [y|] eqn:Ea.
  - assert (Y : is_obj y = true /\ exists k q3, q = SKey k :: q3) by (apply (C [SKey k] q y); [reflexivity | cbn; now rewrite Ea]). destruct Y as (Y & k' & q3 & ->).
    assert (X : is_obj x = true) by (cbn [lookup] in L; destruct x; try discriminate L; reflexivity).
    inversion K as [|v1 E1 E2 E3|v1 E1 E2 E3|d1 s1 r1 H1 H2 M1 E1 E2 E3|d1 s1 r1 H1 M1 E1 E2 E3]; subst; [|rewrite X, Y in H1; discriminate].
    eapply IH; [exact M1 | exact L | exact N|]. intros q1 q2 v0 E L0. apply (C (SKey k :: q1) q2 v0); [cbn; now rewrite E|]. cbn [lookup]. now rewrite Ea.
  - inversion K as [|v1 E1 E2 E3|v1 E1 E2 E3|d1 s1 r1 H1 H2 M1 E1 E2 E3|d1 s1 r1 H1 M1 E1 E2 E3]; subst. exact L.
Qed.

(** *** Merging the specification files *)
Lemma containers_from (ord : nat -> morder) l : (forall n, perm_oracle (ord n)) -> Forall (fun c => plain_doc (c_data c)) l -> forall n d c', wf (JObj d) -> fixed (JObj d) ->
  containers_merge_from ord merge_strict n (Some (JObj d)) l = Ok c' ->
  forall q v, lookup q (c_data c') = Some v -> exists v', (lookup q (JObj d) = Some v' \/ exists x y, In x l /\ clone (c_data x) = Ok y /\ lookup q y = Some v') /\ like v v'.
Proof.
  intro Ho. induction l as [|x l IH]; intros Hl n d c' Wd Fd H q v L; cbn [containers_merge_from] in H.
  - injection H as <-. exists v. split; [now left | apply like_refl].
  - apply bind_ok in H as (c1 & H1 & H). destruct (c_merge_step _ _ _ _ _ (Ho n) good_strict Wd (Forall_inv Hl) H1) as [(m & r & Ec & Wm & M & -> & Wr)|(Nc & ->)].
    + destruct (merged_objs _ _ _ _ M) as (a & b & d1 & [= <-] & [= <-] & ->). pose proof (merged_fixed _ picks_strict _ _ _ Wd Wm Fd (clone_idem _ _ Ec) M) as F1.
      destruct (IH (Forall_inv_tail Hl) _ _ _ Wr F1 H q v L) as (v' & [L1|(y & z & I & Ez & Ly)] & E); [|exists v'; split; [right; exists y, z; split; [now right | auto] | exact E]].
      destruct (merged_from _ picks_strict q _ _ _ _ M L1) as (v2 & [L2|L2] & E2); exists v2; (split; [|eapply like_trans; eassumption]); [now left | right; exists x, (JObj m); split; [now left | auto]].
    + destruct (IH (Forall_inv_tail Hl) _ _ _ Wd Fd H q v L) as (v' & [L1|(y & z & I & Ez & Ly)] & E); exists v'; (split; [|exact E]); [now left | right; exists y, z; split; [now right | auto]].
Qed.

(** *** The root configuration *)
Lemma root_sections (ord : nat -> morder) root d c' : (forall n, perm_oracle (ord n)) -> canon_obj root -> (forall k, In k section_names -> ~ scalar (section k root)) ->
  wf (JObj d) -> fixed (JObj d) -> merge_with_root ord root (Some (JObj d)) = Ok c' ->
  exists r d', clone root = Ok (JObj r) /\ wf (JObj r) /\ c' = Some (JObj d') /\ wf (JObj d') /\ fixed (JObj d') /\
    (forall k, ~ In k section_names -> oget k d' = oget k d) /\
    Forall (fun x => section_result (fst x) (snd x) (JObj d) (JObj r) (JObj d')) sections.
Proof.
  intros Ho Hc Hs Wd Fd H. destruct (root_keep ord root d c' Ho Hc Hs Wd Fd H) as (d2 & E2 & W2 & F2 & _). destruct Hc as (Wr & Kr & rm & ->).
  unfold merge_with_root in H. apply bind_ok in H as (r & Er & H). unfold c_make in Er. apply bind_ok in Er as (x & Ex & Er). injection Er as <-.
  destruct (clone_obj_inv _ _ Ex) as (r & -> & _). pose proof (clone_wf _ _ Wr Ex) as Wr'. pose proof (clone_idem _ _ Ex) as Fr.
  assert (Hs' : Forall (fun x => ~ scalar (section (snd x) (JObj r))) sections).
  { apply Forall_forall. intros x Ix. specialize (Hs (snd x) (in_map snd _ _ Ix)). intro S. apply Hs. clear Hs.
    pose proof (clone_lookup [SKey (snd x)] _ _ Ex) as L. unfold section in *. cbn [lookup] in L. destruct (oget (snd x) r) as [y|]; [|destruct S]. destruct (oget (snd x) rm) as [z|]; [|destruct L].
    destruct z as [|b|n|s|l|m]; cbn; auto.
    - cbn in L. injection L as <-. destruct S.
    - rewrite clone_arr_eq in L. apply bind_ok in L as (l' & _ & L). injection L as <-. destruct S.
    - rewrite clone_obj_eq in L. apply bind_ok in L as (l' & _ & L). injection L as <-. destruct S. }
  destruct (merge_sections_inv ord r sections Ho sections_usable sections_nodup Wr' (fun k => section_fixed k _ Wr' Fr) Hs' 0 d c' Wd (fun k => section_fixed k _ Wd Fd) H) as (d' & Ed & W' & _ & O' & R').
  exists r, d'. split; [exact Ex|]. split; [exact Wr'|]. split; [exact Ed|]. assert (d2 = d') as <- by congruence. auto.
Qed.
Lemma section_lookup k q m v : q <> [] -> lookup (SKey k :: q) (JObj m) = Some v <-> lookup q (section k (JObj m)) = Some v.
Proof. intro N. unfold section. cbn [lookup]. destruct (oget k m); [reflexivity|]. split; [discriminate|]. destruct q as [|[]]; [congruence|discriminate|discriminate]. Qed.
Lemma obj_part_lookup q j v : q <> [] -> (exists k q', q = SKey k :: q') -> lookup q (obj_part j) = Some v <-> lookup q j = Some v.
Proof. intros N (k & q' & ->). destruct j; cbn; try tauto; split; discriminate. Qed.
Section RootAdds.
  Context (r d d' : list (string * json)) (R : Forall (fun x => section_result (fst x) (snd x) (JObj d) (JObj r) (JObj d')) sections).
  Lemma section_in coll k q v : In (coll, k) sections -> (exists k' q', q = SKey k' :: q') -> lookup (SKey k :: q) (JObj r) = Some v ->
    merged coll (obj_part (section k (JObj d))) (obj_part (section k (JObj r))) (section k (JObj d')) /\ lookup q (obj_part (section k (JObj r))) = Some v.
  Proof.
    intros I (k' & q' & ->) L. rewrite Forall_forall in R. specialize (R _ I). cbn [fst snd] in R. apply section_lookup in L; [|discriminate].
    split; [|apply obj_part_lookup; [discriminate | eauto | exact L]]. destruct R as [(_ & E & _)|(_ & M)]; [rewrite E in L; discriminate | exact M].
  Qed.
  Lemma root_info q v : (exists k' q', q = SKey k' :: q') -> lookup (SKey "info" :: q) (JObj r) = Some v -> is_obj v = false -> lookup (SKey "info" :: q) (JObj d') = Some v.
  Proof.
    intros Hq L N. destruct (section_in merge_override "info" q v (or_introl eq_refl) Hq L) as (M & L'). destruct Hq as (k' & q' & ->). apply section_lookup; [discriminate|].
    refine (merged_keeps_src _ _ _ _ _ _ _ M L' N). now intros x y z [= <-].
  Qed.
  Lemma root_components q v : (exists k' q', q = SKey k' :: q') -> lookup (SKey "components" :: q) (JObj r) = Some v -> is_obj v = false -> lookup (SKey "components" :: q) (JObj d') = Some v.
  Proof.
    intros Hq L N. destruct (section_in merge_strict "components" q v (or_intror (or_introl eq_refl)) Hq L) as (M & L'). destruct Hq as (k' & q' & ->). apply section_lookup; [discriminate|].
    refine (merged_keeps_src _ strict_second _ _ _ _ _ M L' N).
  Qed.
  Lemma root_default k q v : In k ["paths"; "externalDocs"; "security"; "servers"; "tags"] -> (exists k' q', q = SKey k' :: q') -> lookup (SKey k :: q) (JObj r) = Some v -> is_obj v = false ->
    clear_way q (obj_part (section k (JObj d))) -> lookup (SKey k :: q) (JObj d') = Some v.
  Proof.
    intros Ik Hq L N C. assert (I : In (merge_default, k) sections) by (cbn in Ik |- *; intuition (subst; auto)).
    destruct (section_in merge_default k q v I Hq L) as (M & L'). destruct Hq as (k' & q' & ->). apply section_lookup; [discriminate|].
    exact (default_takes _ _ _ _ _ M L' N C).
  Qed.
  Lemma root_from q v : (forall k, ~ In k section_names -> oget k d' = oget k d) -> q <> [] -> lookup q (JObj d') = Some v ->
    (exists k, q = [SKey k] /\ In k section_names) \/ exists v', (lookup q (JObj d) = Some v' \/ lookup q (JObj r) = Some v') /\ like v v'.
  Proof.
    intros O N L. destruct q as [|[k|i] q]; [congruence | |discriminate]. destruct (in_dec string_dec k section_names) as [I|I].
    - destruct q as [|st q]; [left; eauto|]. right. apply in_map_iff in I as ([coll k0] & E & I). cbn in E. subst k0. rewrite Forall_forall in R. specialize (R _ I). cbn [fst snd] in R.
      apply section_lookup in L; [|discriminate]. destruct R as [(E1 & E2 & E3)|(_ & M)]; [apply at_path_section in E3; rewrite E3, E1 in L; destruct st; discriminate|].
      assert (Hp : picks coll) by (pose proof sections_usable as U; rewrite Forall_forall in U; apply (U _ I)).
      destruct (merged_objs _ _ _ _ M) as (_ & _ & e & _ & _ & Ee). rewrite Ee in *. destruct st as [k'|]; [|discriminate].
      destruct (merged_from _ Hp _ _ _ _ _ M L) as (v' & [X|X] & E); exists v'; (split; [|exact E]); apply obj_part_lookup, section_lookup in X; eauto; discriminate.
    - right. exists v. split; [left; cbn [lookup] in *; now rewrite <- (O k I) | apply like_refl].
  Qed.
End RootAdds.

(** *** Commands *)
Lemma is_command_body text b b' : is_command text b -> is_command text b' -> b = b'.
Proof.
  intros A B. assert (X : parse_comment_group [text] = Ok [b]) by (apply comment_group_spec; repeat constructor; exact A). assert (Y : parse_comment_group [text] = Ok [b']) by (apply comment_group_spec; constructor 3; [exact B | constructor]). congruence.
Qed.
Lemma bodies_has g bs text b : bodies g bs -> In text g -> is_command text b -> In b bs.
Proof.
  induction 1 as [|t l r N B IH|t b0 l r C B IH]; intros I H; [destruct I| |].
  - destruct I as [<-|I]; [|auto]. destruct H as (x & y & raw & E & _). now elim (proj2 N x y raw).
  - destruct I as [<-|I]; [left; exact (is_command_body _ _ _ C H) | right; auto].
Qed.
Lemma all_comments_has gs : forall cs, all_comments gs = Ok cs -> forall g t b, In g gs -> In t g -> is_command t b -> In b cs.
Proof.
  induction gs as [|g gs IH]; intros cs H g0 t b I It C; cbn [all_comments] in H; [destruct I|]. apply bind_ok in H as (x & Hx & H). apply bind_ok in H as (y & Hy & H). injection H as <-.
  apply in_or_app. destruct I as [<-|I]; [left; apply comment_group_spec in Hx; exact (bodies_has _ _ _ _ Hx It C) | right; eapply IH; eassumption].
Qed.
Lemma parse_all_has tp l : forall cc, parse_all tp l = Ok cc -> forall b, In b l -> exists c, parse_cmd tp b = Ok c /\ In c cc.
Proof.
  induction l as [|x l IH]; intros cc H b I; cbn [parse_all] in H; [destruct I|]. apply bind_ok in H as (c0 & H0 & H). apply bind_ok in H as (cc' & H1 & H). injection H as <-.
  destruct I as [<-|I]; [exists c0; split; [exact H0 | now left]|]. destruct (IH _ H1 b I) as (c & A & B). exists c. split; [exact A | now right].
Qed.
Lemma exports_type_name s name : exports_name s name <-> exists p, exports_type s name p.
Proof. split; [intros (g & t & b & p & H); exists p, g, t, b; exact H | intros (p & g & t & b & H); exists g, t, b, p; exact H]. Qed.
Lemma cmds_found a ss roots l cm : (forall x, In x l <-> exists r, In r roots /\ reach (ar_std a) (map so_pkg ss) r x) ->
  run (fun i y => match nth_error ss i with Some s => scan_cmds {| cs_path := so_path s; cs_types := so_types s; cs_groups := so_groups s |} y | None => Panic end) l [] = Ok (cm, []) ->
  (forall n p, commands_schema cm n p -> exists s, visited a ss roots s /\ exports_type s n p) /\
  (NoDup (map so_path ss) -> forall s n p, visited a ss roots s -> exports_type s n p -> commands_schema cm n p).
Proof.
  intros Hin H. split.
  - intros n p (k & cc & Ik & Ic). revert k cc n p Ik Ic. refine (run_inv (fun cm : cmd_map => forall k cc n p, In (k, cc) cm -> In (CSchema n p) cc -> exists s, visited a ss roots s /\ exports_type s n p) _ l _ _ _ _ H); [|intros ? ? ? ? []].
    intros i y y' Ii Hy E k0 cc0 n p I0 In0. destruct (nth_error ss i) as [s|] eqn:En; [|discriminate]. unfold scan_cmds in E. cbn [cs_groups cs_types cs_path] in E. apply bind_ok in E as (comments & Ec & E). destruct (parse_all (so_types s) comments) as [cc1| | |] eqn:Ep; try discriminate.
    injection E as <-. apply oset_in_inv in I0 as [(-> & ->)|I0]; [|exact (Hy _ _ _ _ I0 In0)].
    destruct (parse_all_in _ _ _ Ep _ In0) as (b & Ib & Eb). destruct (all_comments_in _ _ Ec b Ib) as (g & t & Ig & It & C). exists s. split; [apply Hin in Ii as (r & Ir & R); now exists r, i|].
    exists g, t, b. split; [exact Ig|]. split; [exact It|]. split; [exact C|]. now apply parse_cmd_spec.
  - intros Nd s n p (r & i & Ir & R & En) (g & t & b & Ig & It & C & D).
    assert (G : exists cc, oget (so_path s) cm = Some cc /\ In (CSchema n p) cc).
    { refine (run_hit (fun _ : cmd_map => True) (fun cm => exists cc, oget (so_path s) cm = Some cc /\ In (CSchema n p) cc) _ i l _ _ _ _ _ _ Logic.I H); [apply Hin; eauto | auto | |].
      - intros j y y' E _ (cc & Oc & Ic). destruct (nth_error ss j) as [s'|] eqn:Ej; [|discriminate]. unfold scan_cmds in E. cbn [cs_groups cs_types cs_path] in E. apply bind_ok in E as (comments & Ec & E). destruct (parse_all (so_types s') comments) as [cc1| | |] eqn:Ep; try discriminate. injection E as <-.
        destruct (string_dec (so_path s') (so_path s)) as [Es|Ns].
        + assert (j = i). { apply (proj1 (NoDup_nth_error (map so_path ss)) Nd); [rewrite map_length; apply nth_error_Some; congruence|]. rewrite !nth_error_map, Ej, En. cbn. congruence. }
          subst j. assert (s' = s) by congruence. subst s'. exists cc1. rewrite oget_oset_same. split; [reflexivity|].
          destruct (parse_all_has _ _ _ Ep b (all_comments_has _ _ Ec g t b Ig It C)) as (c & Pc & Icc). apply parse_cmd_spec in D. assert (c = CSchema n p) as -> by congruence. exact Icc.
        + exists cc. rewrite oget_oset_other by congruence. auto.
      - intros y y' _ E. rewrite En in E. unfold scan_cmds in E. cbn [cs_groups cs_types cs_path] in E. apply bind_ok in E as (comments & Ec & E). destruct (parse_all (so_types s) comments) as [cc1| | |] eqn:Ep; try discriminate. injection E as <-.
        exists cc1. rewrite oget_oset_same. split; [reflexivity|]. destruct (parse_all_has _ _ _ Ep b (all_comments_has _ _ Ec g t b Ig It C)) as (c & Pc & Icc). apply parse_cmd_spec in D. assert (c = CSchema n p) as -> by congruence. exact Icc. }
    destruct G as (cc & Oc & Ic). exists (so_path s), cc. split; [now apply oget_in | exact Ic].
Qed.
Lemma es_found ord cm es : (forall m, Permutation (ord m) m) -> exported_components ord cm = Ok es ->
  (forall e, In e es -> e_kind e = KSchema /\ commands_schema cm (e_name e) (e_ptr e)) /\
  (forall n p, commands_schema cm n p -> In {| e_kind := KSchema; e_name := n; e_ptr := p |} es) /\ NoDup (map (fun e => ptr_string (e_ptr e)) es).
Proof.
  intros Ho He. destruct (exported_iff ord cm (Ho cm)) as (_ & X & _). destruct (X es He) as (P & Nd & K). rewrite Forall_forall in K.
  assert (C : forall n p, commands_schema cm n p <-> In (n, p) (flat_map (fun kv => schemas_of (snd kv)) cm)).
  { intros n p. rewrite in_flat_map. split.
    - intros (k & cc & Ik & Ic). exists (k, cc). split; [exact Ik|]. cbn [snd]. unfold schemas_of. apply in_flat_map. exists (CSchema n p). split; [exact Ic | now left].
    - intros ((k & cc) & Ik & I). cbn [snd] in I. unfold schemas_of in I. apply in_flat_map in I as (c & Ic & I). destruct c as [|n0 p0]; [destruct I|]. destruct I as [[= -> ->]|[]]. now exists k, cc. }
  split; [|split; [|exact Nd]].
  - intros e Ie. split; [auto|]. apply C. eapply Permutation_in; [exact P|]. apply in_map_iff. eauto.
  - intros n p Hc. apply C in Hc. apply (Permutation_in _ (Permutation_sym P)) in Hc. apply in_map_iff in Hc as (e & [= <- <-] & Ie). rewrite <- (K e Ie). now destruct e.
Qed.

(** *** Collected types *)
Lemma collect_all_app env fuel os1 os2 : forall m, collect_all env fuel (os1 ++ os2) m = (do m1 <- collect_all env fuel os1 m ; collect_all env fuel os2 m1).
Proof. induction os1 as [|o os1 IH]; intro m; cbn [app collect_all]; [reflexivity|]. destruct (collect_types env fuel o m); cbn [bind]; auto. Qed.
Lemma objects_in pkg scope ptrs o : In o (objects_of pkg scope ptrs) <-> exists p h r, In p ptrs /\ u_scheme (p_url p) = "go" /\ pkg_path p = pkg /\ p_frag p = h :: r /\ scope h = Some o.
Proof.
  induction ptrs as [|p l IH]; cbn [objects_of]; [split; [intros [] | intros (p & h & r & [] & _)]|]. rewrite in_app_iff, IH. split.
  - intros [I|(p0 & h & r & I & X)]; [|exists p0, h, r; split; [now right | exact X]].
    destruct (String.eqb (u_scheme (p_url p)) "go") eqn:E1; [|destruct I]. destruct (String.eqb pkg (pkg_path p)) eqn:E2; [|destruct I]. cbn [andb] in I. apply String.eqb_eq in E1, E2.
    destruct (p_frag p) as [|h r] eqn:Ef; [destruct I|]. destruct (scope h) as [o'|] eqn:Es; [|destruct I]. destruct I as [<-|[]]. exists p, h, r. repeat split; auto. now left.
  - intros (p0 & h & r & [<-|I] & S & P & Fr & Sc); [left | right; exists p0, h, r; auto]. rewrite S, P, !String.eqb_refl, Fr, Sc. cbn. now left.
Qed.
Lemma types_run env fuel (pl : nat -> list ptr) ss l : forall m r,
  run (fun i y => match nth_error ss i with Some s => do m' <- scan_types env fuel (so_types s) (so_scope s) (pl i) y ; Ok (m', false) | None => Panic end) l m = Ok (r, []) ->
  exists os, collect_all env fuel os m = Ok r /\ forall o, In o os <-> exists i s, In i l /\ nth_error ss i = Some s /\ In o (objects_of (so_types s) (so_scope s) (pl i)).
Proof.
  induction l as [|i l IH]; intros m r H; cbn [run] in H.
  - injection H as <-. exists []. split; [reflexivity|]. intro o. split; [intros [] | intros (i & s & [] & _)].
  - apply bind_ok in H as ((y & b) & Hy & H). apply bind_ok in H as ((z & es) & Hz & H). cbn [fst snd] in *. injection H as <- He. destruct b; [discriminate|]. subst es.
    destruct (nth_error ss i) as [s|] eqn:En; [|discriminate]. apply bind_ok in Hy as (m1 & H1 & Hy). injection Hy as <-. rewrite CollectApi.scan_collects in H1.
    destruct (IH _ _ Hz) as (os & Ho & Hi). exists (objects_of (so_types s) (so_scope s) (pl i) ++ os). split; [rewrite collect_all_app, H1; exact Ho|].
    intro o. rewrite in_app_iff, Hi. split.
    + intros [I|(j & s' & Ij & X)]; [exists i, s; split; [now left | auto] | exists j, s'; split; [now right | auto]].
    + intros (j & s' & [<-|Ij] & Ej & I); [left; congruence | right; exists j, s'; auto].
Qed.
(** Pointers of the references of the files. *)
Lemma rewrite_refs_made pkg refs : forall c pp c' pp', rewrite_refs pkg refs c pp = (Ok c', pp') -> forall k p, oget k pp' = Some p -> oget k pp = Some p \/ exists k0 t p0, In (k0, JStr t) refs /\ ptr_parse t = Ok p0 /\ p = abs_ptr pkg p0.
Proof.
  induction refs as [|[k0 v] refs IH]; intros c pp c' pp' H k p Hk; [injection H as <- <-; now left|]. cbn [rewrite_refs] in H.
  assert (W : forall pp1, (oget k pp1 = Some p -> oget k pp = Some p \/ exists k1 t p0, In (k1, JStr t) ((k0, v) :: refs) /\ ptr_parse t = Ok p0 /\ p = abs_ptr pkg p0) ->
    oget k pp1 = Some p \/ (exists k1 t p0, In (k1, JStr t) refs /\ ptr_parse t = Ok p0 /\ p = abs_ptr pkg p0) -> oget k pp = Some p \/ exists k1 t p0, In (k1, JStr t) ((k0, v) :: refs) /\ ptr_parse t = Ok p0 /\ p = abs_ptr pkg p0).
  { intros pp1 X [Y|(k1 & t & p0 & I & Y)]; [auto | right; exists k1, t, p0; split; [now right | exact Y]]. }
  destruct v as [| | |x| |]; try (exact (W pp (fun X => or_introl X) (IH _ _ _ _ H k p Hk))).
  destruct (ptr_parse x) as [p0| | |] eqn:Ep; try discriminate. destruct (c_setp _ _ c) as [c1| | |]; try discriminate.
  refine (W _ _ (IH _ _ _ _ H k p Hk)). intro E. destruct (string_dec k (ptr_string (abs_ptr pkg p0))) as [-> |N]; [|rewrite oget_oset_other in E by congruence; now left].
  rewrite oget_oset_same in E. injection E as <-. right. exists k0, x, p0. split; [now left | auto].
Qed.
Lemma scan_files_made ord pkg ff : (forall n l, Permutation (ord n l) l) -> Forall good_file ff -> forall n pp cc pp', scan_files ord n pkg ff pp = (Ok cc, pp') ->
  forall k p, oget k pp' = Some p -> oget k pp = Some p \/ exists f doc q t p0, In f ff /\ is_spec_doc (f_cont f) /\ f_cont f = Some doc /\ lookup (q ++ [SKey "$ref"]) doc = Some (JStr t) /\ ptr_parse t = Ok p0 /\ p = abs_ptr pkg p0.
Proof.
  intros Ho. induction ff as [|f ff IH]; intros G n pp cc pp' H k p Hk; cbn [scan_files] in H; [injection H as <- <-; now left|].
  inversion G as [|? ? Gf Gr]; subst.
  assert (Up : (exists f0 doc q t p0, In f0 ff /\ is_spec_doc (f_cont f0) /\ f_cont f0 = Some doc /\ lookup (q ++ [SKey "$ref"]) doc = Some (JStr t) /\ ptr_parse t = Ok p0 /\ p = abs_ptr pkg p0) ->
    exists f0 doc q t p0, In f0 (f :: ff) /\ is_spec_doc (f_cont f0) /\ f_cont f0 = Some doc /\ lookup (q ++ [SKey "$ref"]) doc = Some (JStr t) /\ ptr_parse t = Ok p0 /\ p = abs_ptr pkg p0).
  { intros (f0 & doc & q & t & p0 & I & X). exists f0, doc, q, t, p0. split; [now right | exact X]. }
  destruct (c_existsp "openapi" (f_cont f)) eqn:X; cbn [negb] in H; [|destruct (IH Gr _ _ _ _ H k p Hk) as [Y|Y]; [now left | right; auto]].
  apply existsp_openapi in X. destruct (extract_key (ord n) "$ref" (f_cont f)) as [refs| | |] eqn:Er; try discriminate. destruct (rewrite_refs pkg refs (f_cont f) pp) as [[c| | |] pp1] eqn:E1; try discriminate.
  destruct (scan_files ord (S n) pkg ff pp1) as [[cc'| | |] pp2] eqn:E2; try discriminate. injection H as <- <-.
  destruct (IH Gr _ _ _ _ E2 k p Hk) as [Y|Y]; [|right; auto].
  destruct (rewrite_refs_made _ _ _ _ _ _ E1 k p Y) as [Z|(k0 & t & p0 & I & Pt & Ep)]; [now left|]. right.
  destruct (Gf X) as (W & K). destruct X as (m & v & Ec & Om). rewrite Ec in *. cbn [c_data] in *.
  destruct (extracted (ord n) (JObj m) refs (Ho n) W K Er) as (_ & _ & From & _). destruct (From _ _ I) as (q & _ & L).
  exists f, (JObj m), q, t, p0. split; [now left|]. split; [rewrite Ec; now exists m, v|]. split; [exact Ec|]. auto.
Qed.
Section SpecPtrs.
  Context (a : around) (ch : choices).
  Hypothesis Hord : forall i n l, Permutation (ch_refs ch i n l) l.
  Hypothesis Hfs : files_ok (ar_files a).
  Let fn (s : source) (i : nat) := scan_specs (ch_refs ch i) (ar_gopath a) (ar_missing a) (ar_files a) {| ss_path := so_path s; ss_module := so_module s |}.
  Lemma spec_ptrs_step s i st st' : sorted (sp_ptrs st) -> fn s i st = Ok (st', false) -> sorted (sp_ptrs st') /\
    (forall k, oget k (sp_ptrs st) <> None -> oget k (sp_ptrs st') <> None) /\
    (forall doc q t, spec_doc_of a s doc -> lookup (q ++ [SKey "$ref"]) doc = Some (JStr t) -> oget (new_text (so_path s) t) (sp_ptrs st') <> None) /\
    (forall k p, oget k (sp_ptrs st') = Some p -> oget k (sp_ptrs st) = Some p \/ ptr_string p = k /\ exists doc q t p0, spec_doc_of a s doc /\ lookup (q ++ [SKey "$ref"]) doc = Some (JStr t) /\ ptr_parse t = Ok p0 /\ p = abs_ptr (so_path s) p0).
  Proof.
    intros Sp H. unfold fn, scan_specs in H. cbn [ss_path ss_module] in H. destruct (get_pkg_path _ _ _ _) as [d| | |] eqn:Ed; try discriminate. destruct (read_dir (ar_files a) d) as [ff| | |] eqn:Er; try discriminate.
    assert (G : Forall good_file ff). { apply Forall_forall. intros [p c] I X. apply (read_each_iff _ _ _ Er) in I as (_ & F). cbn [f_cont] in *. destruct (Hfs _ _ F X) as (W & K & _). auto. }
    destruct (scan_files_spec (ch_refs ch i) (so_path s) ff (Hord i) G 0 (sp_ptrs st) Sp) as (H1 & H2).
    destruct (scan_files (ch_refs ch i) 0 (so_path s) ff (sp_ptrs st)) as [[cc| | |] pp] eqn:E; try discriminate. injection H as <-.
    assert (Ok' : forall t, file_ref ff t -> ref_ok t). { intros t Ht. destruct (ptr_parse_ok_err t) as [X|X]; [exact X|]. destruct H2 as (pp' & X'); [|discriminate]. exists t. split; [exact Ht|]. intros (p & Hp). congruence. }
    destruct (H1 Ok') as (pp' & [= -> ->] & S' & P' & K'). cbn [sp_conts sp_ptrs]. split; [exact S'|]. split; [intros k Hk; apply K'; now left|]. split.
    - intros doc q t (dir & name & Ed' & In' & F & m & v & -> & Om) L. assert (dir = d) by congruence. subst dir. apply K'. right. exists t. split; [|reflexivity].
      exists {| f_path := join2 d name; f_cont := Some (JObj m) |}, (JObj m), q. split; [apply (read_each_iff _ _ _ Er); split; [now apply in_map | exact F]|]. split; [now exists m, v|]. auto.
    - intros k p Hk. destruct (scan_files_made _ _ ff (Hord i) G _ _ _ _ E k p Hk) as [X|(f & doc & q & t & p0 & If & Sd & Ef & L & Pt & Ep)]; [now left|].
      destruct (P' k p Hk) as [X|X]; [now left|]. right. split; [exact X|]. exists doc, q, t, p0. split; [|auto]. destruct f as [pa c]. cbn [f_cont] in *. subst c.
      apply (read_each_iff _ _ _ Er) in If as (I & F). apply in_map_iff in I as (name & <- & I). exists d, name. split; [exact Ed|]. split; [exact I|]. split; [exact F|]. destruct Sd as (m & v & [= ->] & Om). now exists m, v.
  Qed.
  Lemma spec_ptrs_found ss roots l st : (forall x, In x l <-> exists r, In r roots /\ reach (ar_std a) (map so_pkg ss) r x) ->
    run (fun i y => match nth_error ss i with Some s => fn s i y | None => Panic end) l {| sp_conts := []; sp_ptrs := [] |} = Ok (st, []) ->
    sorted (sp_ptrs st) /\
    (forall s doc q t, visited a ss roots s -> spec_doc_of a s doc -> lookup (q ++ [SKey "$ref"]) doc = Some (JStr t) -> oget (new_text (so_path s) t) (sp_ptrs st) <> None) /\
    (forall k p, oget k (sp_ptrs st) = Some p -> ptr_string p = k /\ exists s doc q t p0, visited a ss roots s /\ spec_doc_of a s doc /\ lookup (q ++ [SKey "$ref"]) doc = Some (JStr t) /\ ptr_parse t = Ok p0 /\ p = abs_ptr (so_path s) p0).
  Proof.
    intros Hin H. pose (P := fun st => sorted (sp_ptrs st)).
    assert (HP : forall i y y', In i l -> P y -> match nth_error ss i with Some s => fn s i y | None => Panic end = Ok (y', false) -> P y').
    { intros i y y' _ Py E. destruct (nth_error ss i) as [s|]; [|discriminate]. exact (proj1 (spec_ptrs_step _ _ _ _ Py E)). }
    split; [exact (run_inv P _ l HP {| sp_conts := []; sp_ptrs := [] |} st I H)|]. split.
    - intros s doc q t (r & i & Ir & R & En) Hd L. refine (run_hit P (fun st => oget (new_text (so_path s) t) (sp_ptrs st) <> None) _ i l _ HP _ _ _ _ _ H).
      + apply Hin. eauto.
      + intros j y y' E Py X. destruct (nth_error ss j) as [s'|]; [|discriminate]. exact (proj1 (proj2 (spec_ptrs_step _ _ _ _ Py E)) _ X).
      + intros y y' Py E. rewrite En in E. exact (proj1 (proj2 (proj2 (spec_ptrs_step _ _ _ _ Py E))) doc q t Hd L).
      + exact I.
    - refine (proj2 (run_inv (fun st => P st /\ forall k p, oget k (sp_ptrs st) = Some p -> ptr_string p = k /\ exists s doc q t p0, visited a ss roots s /\ spec_doc_of a s doc /\ lookup (q ++ [SKey "$ref"]) doc = Some (JStr t) /\ ptr_parse t = Ok p0 /\ p = abs_ptr (so_path s) p0) _ l _ _ _ _ H)).
      + intros i y y' Ii (Py & Hy) E. split; [exact (HP _ _ _ Ii Py E)|]. destruct (nth_error ss i) as [s|] eqn:En; [|discriminate]. intros k p Hk.
        destruct (proj2 (proj2 (proj2 (spec_ptrs_step _ _ _ _ Py E))) k p Hk) as [X|(Ek & doc & q & t & p0 & Hd & X)]; [exact (Hy k p X)|]. split; [exact Ek|]. exists s, doc, q, t, p0. split; [|auto]. apply Hin in Ii as (r & Ir & R). now exists r, i.
      + split; [exact I | discriminate].
  Qed.
End SpecPtrs.

(** *** All stages *)
Section Stages.
  Context {F : Type} (pf : string -> option F) (zero : F) (fnum : F -> num) (a : around) (ch : choices) (de : depths).
  Context (o : options) (ss : list source) (roots : list nat).
  Local Notation scan_doc := (scan_doc pf zero fnum std_mapping a ch de).
  Local Notation file_of s doc := (visited a ss roots s /\ spec_doc_of a s doc) (only parsing).
  (** A pointer of a schema command, or of a reference of a file. *)
  Definition known_ptr (p : ptr) : Prop := (exists s n, visited a ss roots s /\ exports_type s n p) \/
    exists s doc q t p0, visited a ss roots s /\ spec_doc_of a s doc /\ lookup (q ++ [SKey "$ref"]) doc = Some (JStr t) /\ ptr_parse t = Ok p0 /\ p = abs_ptr (so_path s) p0.
  (** The objects the pointers ptrs start at, in visited packages. *)
  Definition named_by (ptrs : ptr -> Prop) (ob : gobj) : Prop :=
    exists s p h r, visited a ss roots s /\ ptrs p /\ u_scheme (p_url p) = "go" /\ pkg_path p = so_types s /\ p_frag p = h :: r /\ so_scope s h = Some ob.
  (** The pointer of a schema command, the pointer of a reference of a file. *)
  Definition cmd_ptr (p : ptr) : Prop := exists s n, visited a ss roots s /\ exports_type s n p.
  Definition file_ptr (p : ptr) : Prop :=
    exists s doc q t p0, visited a ss roots s /\ spec_doc_of a s doc /\ lookup (q ++ [SKey "$ref"]) doc = Some (JStr t) /\ ptr_parse t = Ok p0 /\ p = abs_ptr (so_path s) p0.
  Definition file_text (k : string) : Prop :=
    exists s doc q t, visited a ss roots s /\ spec_doc_of a s doc /\ lookup (q ++ [SKey "$ref"]) doc = Some (JStr t) /\ new_text (so_path s) t = k.
  Inductive stages (c : cont) : Prop :=
  | Stages (es : list export) (pp : pointers) (os : list gobj) (pts : pmap) (d1 r d2 : list (string * json)) (c3 : cont) :
      (* files *)
      (forall s doc q t, visited a ss roots s -> spec_doc_of a s doc -> lookup (q ++ [SKey "$ref"]) doc = Some (JStr t) -> ref_ok t) ->
      (forall s doc y q v, visited a ss roots s -> spec_doc_of a s doc -> clone (kept_doc s doc) = Ok y -> lookup q y = Some v -> is_obj v = false -> lookup q (JObj d1) = Some v) ->
      (forall q v, q <> [] -> lookup q (JObj d1) = Some v -> exists s doc y v', visited a ss roots s /\ spec_doc_of a s doc /\ clone (kept_doc s doc) = Ok y /\ lookup q y = Some v' /\ like v v') ->
      (* the root configuration *)
      clone (op_root o) = Ok (JObj r) -> wf (JObj r) ->
      (forall k, ~ In k section_names -> oget k d2 = oget k d1) ->
      Forall (fun x => section_result (fst x) (snd x) (JObj d1) (JObj r) (JObj d2)) sections ->
      (forall k q v, lookup (SKey k :: q) (JObj d1) = Some v -> is_obj v = false -> ~ In k ["info"; "security"; "servers"; "tags"] ->
         (In k ["components"; "paths"; "externalDocs"] -> is_obj (section k (JObj d1)) = true) -> lookup (SKey k :: q) (JObj d2) = Some v) ->
      plain_doc (JObj d2) -> fixed (JObj d2) ->
      (* resolving *)
      tidy_fn (scan_fn (op_override o) (go_types pf zero fnum std_mapping a ch de pts)) ->
      resolve (ch_resolve ch) es (scan_fn (op_override o) (go_types pf zero fnum std_mapping a ch de pts)) (de_resolve de) (Some (JObj d2)) = Ok c3 ->
      wf (c_data c3) -> pure (c_data c3) -> Forall (fun e => good_name (e_name e)) es ->
      (* defaults *)
      set_paths_defaults (ch_paths ch) (ch_ops ch) (ch_defs ch) (ch_def ch) (op_defops o) c3 = Ok c ->
      (* exports *)
      (forall e, In e es -> e_kind e = KSchema /\ exists s, visited a ss roots s /\ exports_type s (e_name e) (e_ptr e)) ->
      (NoDup (map so_path ss) -> forall s n p, visited a ss roots s -> exports_type s n p -> In {| e_kind := KSchema; e_name := n; e_ptr := p |} es) ->
      NoDup (map (fun e => ptr_string (e_ptr e)) es) ->
      (* the pointers, and the objects they start at *)
      (forall k p, oget k pp = Some p -> ptr_string p = k /\ (file_ptr p \/ ~ file_text k /\ cmd_ptr p)) ->
      (forall k, file_text k -> oget k pp <> None) ->
      (NoDup (map so_path ss) -> forall p, cmd_ptr p -> oget (ptr_string p) pp <> None) ->
      collect_all (ar_env a) (de_walk de) os [] = Ok pts ->
      (forall ob, In ob os <-> named_by (fun p => exists k, oget k pp = Some p) ob) ->
      stages c.
  Lemma scan_doc_stages c : any_order ch -> visiting_in_any_order ch -> collecting_in_any_order ch -> flat_env (ar_env a) -> (forall fs, found_type (ar_env a) ss (TStruct fs) -> handy pf (ar_env a) fs) ->
    files_ok (ar_files a) -> canon_obj (op_root o) -> usual_root (op_root o) -> Forall (fun kv => tidy (snd kv)) (op_override o) ->
    loaded (map so_pkg ss) -> (forall i, In i roots -> i < length ss) -> length ss < de_pkgs de ->
    (forall s name, visited a ss roots s -> exports_name s name -> good_name name) ->
    scan_doc o ss (map Some roots) = Ok c -> stages c.
  Proof.
    intros ((M1 & M2 & M3 & M4 & M5) & O1 & O2 & O3 & O4 & O5) (V1 & V2 & V3) (X1 & X2 & X3 & X4) Hflat Hh Hfs Hroot Hur Hov Hload Hrange Hfuel Hnames H. unfold Scan.scan_doc in H.
    destruct (scan_with_runs a ch de ss roots Hload Hrange Hfuel V1 V2) as (vis & Hvis & Hrun).
    apply bind_ok in H as (cm & Hcm & H). apply Hrun in Hcm. apply bind_ok in H as (es & Hes & H). apply bind_ok in H as (st & Hst & H).
    assert (Dst : Forall (fun f => plain_doc (c_data (f_cont f))) (sp_conts st)).
    { refine (scan_with_inv (fun x => Forall (fun f => plain_doc (c_data (f_cont f))) (sp_conts x)) _ _ _ _ _ _ _ _ _ _ _ Hst); [|constructor].
      intros s i y y' b _ Hy E. exact (scan_specs_docs _ _ _ _ _ _ _ _ (O1 i) Hfs Hy E). }
    apply Hrun in Hst. apply bind_ok in H as (c1 & Hc1 & H).
    cbv zeta in H. apply bind_ok in H as (pts & Hpts & H). apply bind_ok in H as (c2 & Hc2 & H). apply bind_ok in H as (c3 & Hc3 & H).
    destruct (specs_found a ch O1 Hfs ss roots vis st Hvis Hst) as (SF1 & SF2).
    destruct (spec_ptrs_found a ch O1 Hfs ss roots vis st Hvis Hst) as (SP0 & SP1 & SP2).
    destruct (cmds_found a ss roots vis cm Hvis Hcm) as (CF1 & CF2). destruct (es_found _ _ _ V3 Hes) as (EF1 & EF2 & EF3).
    pose proof (exports_found a ch ss roots vis cm es Hvis V3 Hcm Hes) as EF.
    assert (Gn : Forall (fun e => good_name (e_name e)) es). { apply Forall_forall. intros e Ie. destruct (EF e Ie) as (_ & s & Vs & Es). exact (Hnames s _ Vs Es). }
    pose proof (specs_merge_plain _ _ _ _ M1 O2 Dst Hc1) as D1. pose proof (merge_root_plain _ _ _ _ M2 Hroot D1 Hc2) as D2.
    assert (Hpf : forall T, In T (map fst pts) -> found_type (ar_env a) ss T) by exact (pts_found pf zero fnum std_mapping a ch de ss _ _ pts Hpts).
    assert (Tfn : tidy_fn (scan_fn (op_override o) (go_types pf zero fnum std_mapping a ch de pts))).
    { intros p x E. unfold scan_fn in E. destruct (oget (ptr_string p) (op_override o)) as [y|] eqn:Ey.
      - injection E as <-. rewrite Forall_forall in Hov. apply (Hov (ptr_string p, y)). now apply oget_in.
      - destruct (String.eqb _ "go"); [|discriminate]. exact (go_types_tidy pf zero fnum std_mapping a ch de std_mapping_ok ss pts Hflat Hpf O4 Hh p x E). }
    assert (W3 : wf (c_data c3)) by (eapply resolve_wf; [intros p x E; apply (Tfn p x E) | apply D2 | exact Hc3]).
    assert (P3 : pure (c_data c3)).
    { refine (resolve_pure es Gn (ch_resolve ch) _ _ c2 c3 O3 _ _ Hc3); [|apply keys_ok_nicely, D2]. intros p x E. apply keys_ok_nicely. apply (Tfn p x E). }
    unfold specs_merge, containers_merge, c_new in Hc1.
    assert (Dl : Forall (fun c => plain_doc (c_data c)) (map f_cont (ch_files ch (sp_conts st)))).
    { apply Forall_map. rewrite Forall_forall in *. intros f If. apply Dst. eapply Permutation_in; [apply O2 | exact If]. }
    destruct (containers_keep (ch_merge ch) _ M1 Dl 0 [] c1 (conj Logic.I Logic.I) eq_refl Hc1) as (d1 & -> & W1 & F1 & _ & K1 & _).
    pose proof (containers_from (ch_merge ch) _ M1 Dl 0 [] _ (conj Logic.I Logic.I) eq_refl Hc1) as K1'. cbn [c_data] in K1'.
    destruct (root_sections (ch_root ch) (op_root o) d1 c2 M2 Hroot Hur W1 F1 Hc2) as (r & d2 & Er & Wr & -> & W2 & F2 & Oth & Sec).
    destruct (root_keep (ch_root ch) (op_root o) d1 _ M2 Hroot Hur W1 F1 Hc2) as (d2' & E2' & _ & _ & K2 & _). injection E2' as <-.
    apply Hrun in Hpts. set (pp1 := pointers_merge (ch_p1 ch) (ch_p2 ch) [] (map_pointers (ch_cmds2 ch) (ch_p1 ch) (ch_p2 ch) cm)) in *.
    set (pp := pointers_merge (ch_p1 ch) (ch_p2 ch) pp1 (sp_ptrs st)) in *.
    destruct (map_pointers_spec (ch_cmds2 ch) (ch_p1 ch) (ch_p2 ch) cm (X1 cm) X2 X3) as (MP0 & MP1 & MP2).
    assert (Spp1 : sorted pp1) by (unfold pp1, pointers_merge; apply PtrFacts.assign_sorted, PtrFacts.assign_sorted; exact Logic.I).
    assert (Gpp1 : forall k, oget k pp1 = oget k (map_pointers (ch_cmds2 ch) (ch_p1 ch) (ch_p2 ch) cm)).
    { intro k. unfold pp1. rewrite (PtrFacts.pointers_merge_get _ _ [] _ k X2 X3 Logic.I MP0). now destruct (oget k (map_pointers _ _ _ _)). }
    assert (Gpp : forall k, oget k pp = match oget k (sp_ptrs st) with Some v => Some v | None => oget k pp1 end) by (intro k; exact (PtrFacts.pointers_merge_get _ _ pp1 _ k X2 X3 Spp1 SP0)).
    assert (Spp : sorted pp) by (unfold pp, pointers_merge; apply PtrFacts.assign_sorted, PtrFacts.assign_sorted; exact Logic.I).
    destruct (types_run _ _ _ _ _ _ _ Hpts) as (os & Hos & Ios).
    refine (Stages c es pp os pts d1 r d2 c3 _ _ _ Er Wr Oth Sec K2 D2 F2 Tfn Hc3 W3 P3 Gn H _ _ EF3 _ _ _ Hos _).
    - intros s doc q t Vs Hd. exact (proj1 (SF1 s doc Vs Hd) q t).
    - intros s doc y q v Vs Hd Ey L N. destruct (SF1 s doc Vs Hd) as (_ & f & If & Ef). refine (K1 (f_cont f) y q v _ _ L N); [|rewrite Ef; exact Ey]. apply in_map. eapply Permutation_in; [apply Permutation_sym, O2 | exact If].
    - intros q v N L. destruct (K1' q v L) as (v' & [X|(x & y & Ix & Ey & Ly)] & E); [destruct q as [|[] ?]; [congruence | discriminate | discriminate]|].
      apply in_map_iff in Ix as (g & <- & Ig). apply (Permutation_in _ (O2 _)) in Ig. destruct (SF2 g Ig) as (s & doc & Vs & Hd & Eg). rewrite Eg in Ey. exists s, doc, y, v'. auto.
    - intros e Ie. destruct (EF1 e Ie) as (Ek & Ec). split; [exact Ek|]. exact (CF1 _ _ Ec).
    - intros Nd s n p Vs Es. apply EF2. exact (CF2 Nd s n p Vs Es).
    - intros k p E. rewrite Gpp in E. destruct (oget k (sp_ptrs st)) as [p'|] eqn:Es.
      + injection E as ->. destruct (SP2 k p Es) as (Ek & X). split; [exact Ek | now left].
      + rewrite Gpp1 in E. destruct (MP1 k p E) as (Ek & n & Hn). split; [exact Ek|]. right. split.
        * intros (s & doc & q & t & Vs & Hd & L & Ek'). apply (SP1 s doc q t Vs Hd L). now rewrite Ek'.
        * destruct (CF1 n p Hn) as (s & X). now exists s, n.
    - intros k (s & doc & q & t & Vs & Hd & L & <-). rewrite Gpp. pose proof (SP1 s doc q t Vs Hd L) as X. destruct (oget _ (sp_ptrs st)); [discriminate | congruence].
    - intros Nd p (s & n & Vs & Es). rewrite Gpp. destruct (oget _ (sp_ptrs st)); [discriminate|]. rewrite Gpp1. exact (MP2 n p (CF2 Nd s n p Vs Es)).
    - intro ob. rewrite Ios. split.
      + intros (i & s & Ii & En & I). apply objects_in in I as (p & h & rr & Ip & S & P & Fr & Sc). apply Hvis in Ii as (r0 & Ir & R). exists s, p, h, rr. split; [now exists r0, i|]. split; [|auto].
        apply in_map_iff in Ip as ((k & p') & E & Ip). cbn [snd] in E. subst p'. apply (Permutation_in _ (X4 i pp)) in Ip. exists k. now apply sorted_in_oget.
      + intros (s & p & h & rr & (r0 & i & Ir & R & En) & (k & Ek) & S & P & Fr & Sc). exists i, s. split; [apply Hvis; eauto|]. split; [exact En|]. apply objects_in. exists p, h, rr. split; [|auto].
        apply in_map_iff. exists (k, p). split; [reflexivity|]. eapply Permutation_in; [apply Permutation_sym, X4 | now apply oget_in].
  Qed.
End Stages.
