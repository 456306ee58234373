(** Facts about MergeWithRoot. *)
From Coq Require Import String Ascii List Bool Arith Lia Permutation.
From Verif Require Import GoStr GoStrFacts Json JsonFacts Gabs Container Route Root Spec_Merge Spec_Root MergeFacts MergeLaws MergeApi.
Import ListNotations.
Local Open Scope string_scope.
Local Open Scope nat_scope.
Local Open Scope list_scope.

(** ** values cloning leaves alone *)
Lemma fixed_obj m : sorted m -> (fixed (JObj m) <-> forall k v, oget k m = Some v -> fixed v).
Proof.
  intro Hs. split.
  - intro H. destruct (clone_obj_inv _ _ H) as (m' & E & Hm). injection E as <-. intros k v Hk.
    pose proof (clone_map_oget m m k Hm) as G. rewrite Hk in G. destruct G as (v' & [= <-] & G). exact G.
  - intro H. unfold fixed. rewrite clone_obj_eq. assert (clone_map m = Ok m) as ->; [|reflexivity].
    assert (A : forall k v, In (k, v) m -> clone v = Ok v) by (intros k v Hin; apply (H k v), sorted_in_oget; assumption).
    clear Hs H. induction m as [|[k v] m IH]; [reflexivity|]. cbn. rewrite (A k v) by now left. cbn [bind].
    fold (clone_map m). rewrite IH; [reflexivity|]. intros; apply (A k0). now right.
Qed.
Lemma fixed_oget m k v : sorted m -> fixed (JObj m) -> oget k m = Some v -> fixed v.
Proof. intros Hs H. now apply (proj1 (fixed_obj m Hs)). Qed.

(** Rules that choose one of the two values. *)
Definition picks (coll : merger) : Prop := forall x y z, coll x y = Some z -> z = x \/ z = y.
Lemma picks_strict : picks merge_strict. Proof. discriminate. Qed.
Lemma picks_default : picks merge_default. Proof. intros x y z [= <-]. auto. Qed.
Lemma picks_override : picks merge_override. Proof. intros x y z [= <-]. auto. Qed.

Lemma merged_fixed coll (Hp : picks coll) s : forall d r, wf d -> wf s -> fixed d -> fixed s -> merged coll d s r -> fixed r.
Proof.
  induction s as [| | | | |m IH] using json_induction; intros d r Wd Ws Fd Fs HM; try (inversion HM; fail).
  destruct (merged_objs _ _ _ _ HM) as (a & b & c & -> & [= <-] & ->).
  destruct (merged_inv _ _ _ _ HM) as (c' & [= <-] & Sc & K). apply fixed_obj; [exact Sc|]. intros k v Hk. specialize (K k). rewrite Hk in K.
  pose proof (wf_sorted _ Wd) as Sd. pose proof (wf_sorted _ Ws) as Sm.
  inversion K as [|v1 E1 E2 E3|v1 E1 E2 E3|d1 s1 r1 H1 H2 M E1 E2 E3|d1 s1 r1 H1 M E1 E2 E3]; subst.
  - symmetry in E1. now apply (fixed_oget a k).
  - symmetry in E2. now apply (fixed_oget m k).
  - symmetry in E1, E2. rewrite Forall_forall in IH. pose proof (oget_in _ _ _ E2) as Hin. apply (IH _ Hin d1 v); auto; cbn.
    + eapply wf_oget; [exact Wd | exact E1].
    + eapply wf_oget; [exact Ws | exact E2].
    + now apply (fixed_oget a k).
    + now apply (fixed_oget m k).
  - symmetry in E1, E2. destruct (Hp _ _ _ M) as [-> | ->]; [now apply (fixed_oget a k) | now apply (fixed_oget m k)].
Qed.

(** The result of a merge absorbs the destination. *)
Lemma merged_absorbs coll (Hp : picks coll) s : forall d r, wf d -> merged coll d s r -> merged merge_override d r r.
Proof.
  induction s as [| | | | |m IH] using json_induction; intros d r Wd HM; try (inversion HM; fail).
  destruct (merged_objs _ _ _ _ HM) as (a & b & c & -> & [= <-] & ->).
  destruct (merged_inv _ _ _ _ HM) as (c' & [= <-] & Sc & K). constructor; [exact Sc|]. intro k. specialize (K k).
  assert (Self : forall v, wf v -> merged_key merge_override (Some v) (Some v) (Some v)).
  { intros v Wv. destruct (is_obj v) eqn:Ev; [apply mk_both; auto; apply merged_self; auto | apply mk_coll; [now rewrite Ev|reflexivity]]. }
  inversion K as [E1 E2 E3|v1 E1 E2 E3|v1 E1 E2 E3|d1 s1 r1 H1 H2 M E1 E2 E3|d1 s1 r1 H1 M E1 E2 E3]; subst.
  - constructor.
  - apply Self. symmetry in E1. eapply wf_oget; eassumption.
  - constructor.
  - symmetry in E1, E2. rewrite Forall_forall in IH. pose proof (oget_in _ _ _ E2) as Hin. specialize (IH _ Hin d1 r1).
    pose proof M as M0. destruct (merged_objs _ _ _ _ M0) as (a1 & b1 & c1 & -> & Eb & ->).
    apply mk_both; [reflexivity | reflexivity |]. apply IH; [eapply wf_oget; eassumption | exact M].
  - symmetry in E1. destruct (Hp _ _ _ M) as [-> | ->].
    + apply Self. eapply wf_oget; eassumption.
    + apply mk_coll; [exact H1 | reflexivity].
Qed.

(** ** one merge into an object *)
Lemma obj_part_wf j : wf j -> wf (obj_part j).
Proof. destruct j; cbn; auto. Qed.
Lemma obj_part_fixed j : fixed j -> fixed (obj_part j).
Proof. destruct j; auto; reflexivity. Qed.
Lemma obj_part_obj j : exists m, obj_part j = JObj m.
Proof. destruct j; cbn; eauto. Qed.

Lemma merged_nothing coll d : wf (JObj d) -> merged coll (JObj d) (JObj []) (JObj d).
Proof. intro W. constructor; [eapply wf_sorted; exact W|]. intro k. cbn. destruct (oget k d); constructor. Qed.
Lemma merged_into_empty coll m : wf (JObj m) -> merged coll (JObj []) (JObj m) (JObj m).
Proof. intro W. constructor; [eapply wf_sorted; exact W|]. intro k. cbn. destruct (oget k m); constructor. Qed.

Lemma merge_any (ord : morder) coll d (z : cont) : perm_oracle ord -> good_rule coll -> wf (JObj d) -> wf (c_data z) -> fixed (c_data z) ->
  (exists r, c_merge ord coll (Some (JObj d)) z = Ok (Some r) /\ wf r /\ merged coll (JObj d) (obj_part (c_data z)) r) \/
  (c_merge ord coll (Some (JObj d)) z = Err /\ rejected coll (JObj d) (obj_part (c_data z))).
Proof.
  intros Ho Hg Wd Wz Fz. assert (N : forall j, c_data z = j -> (forall m, j <> JObj m) ->
    (exists r, c_merge ord coll (Some (JObj d)) z = Ok (Some r) /\ wf r /\ merged coll (JObj d) (JObj []) r)).
  { intros j E Hj. exists (JObj d). split; [|split; [exact Wd | now apply merged_nothing]]. apply c_merge_nothing.
    intros m Em. unfold fixed in Fz. rewrite E in *. rewrite Fz in Em. injection Em as Em. now apply (Hj m). }
  destruct (c_data z) as [| | | | |m] eqn:E; try (left; apply (N _ eq_refl); discriminate).
  destruct z as [j|]; [|discriminate E]. cbn in E. subst j. cbn [obj_part]. exact (c_merge_obj ord coll d m (JObj m) Ho Hg Wd Wz Fz).
Qed.

(** ** one section *)
Lemma c_path_key k m : dot_path k = [k] -> c_data (c_path k (Some (JObj m))) = section k (JObj m).
Proof. intro E. unfold c_path, c_search. rewrite E. cbn. destruct (oget k m); reflexivity. Qed.
Lemma section_wf k j : wf j -> wf (section k j).
Proof. destruct j as [| | | | |m]; cbn [section]; try (intro; exact I). intro W. destruct (oget k m) eqn:E; [eapply wf_oget; eassumption | exact I]. Qed.
Lemma section_fixed k j : wf j -> fixed j -> fixed (section k j).
Proof. destruct j as [| | | | |m]; cbn [section]; intros W F; try reflexivity. destruct (oget k m) eqn:E; [|reflexivity]. eapply fixed_oget; [eapply wf_sorted; exact W | exact F | exact E]. Qed.

Lemma is_nil_cases z : (scalar (c_data z) /\ c_is_nil z = Panic) \/ (c_data z = JNull /\ c_is_nil z = Ok true) \/
  (~ scalar (c_data z) /\ c_data z <> JNull /\ c_is_nil z = Ok false).
Proof. unfold c_is_nil. destruct (c_data z); cbn; auto; right; right; repeat split; auto; discriminate. Qed.

Lemma merge_section_spec (ord : nat -> morder) n d r coll k : (forall i, perm_oracle (ord i)) -> good_rule coll -> picks coll -> dot_path k = [k] ->
  wf (JObj d) -> wf (JObj r) -> fixed (section k (JObj d)) -> fixed (section k (JObj r)) ->
  ~ scalar (section k (JObj d)) -> ~ scalar (section k (JObj r)) ->
  (exists d', merge_section ord n (Some (JObj r)) (Some (JObj d)) (coll, k) = Ok (Some (JObj d')) /\ wf (JObj d') /\
     (forall k', k' <> k -> oget k' d' = oget k' d) /\ section_result coll k (JObj d) (JObj r) (JObj d')) \/
  (merge_section ord n (Some (JObj r)) (Some (JObj d)) (coll, k) = Err /\
     rejected coll (obj_part (section k (JObj d))) (obj_part (section k (JObj r)))).
Proof.
  intros Ho Hg Hp Hk Wd Wr Fz Fy Nz Ny. unfold merge_section. cbn [fst snd].
  set (z := c_path k (Some (JObj d))). set (y := c_path k (Some (JObj r))).
  assert (Ez : c_data z = section k (JObj d)) by now apply c_path_key.
  assert (Ey : c_data y = section k (JObj r)) by now apply c_path_key.
  assert (Wz : wf (c_data z)) by (rewrite Ez; now apply section_wf). assert (Wy : wf (c_data y)) by (rewrite Ey; now apply section_wf).
  rewrite <- Ez, <- Ey in *.
  assert (Main : ~ (c_data z = JNull /\ c_data y = JNull) ->
    let body := (do s <- c_merge (ord n) coll c_new z; do s <- c_merge (ord (n + 1)) coll s y;
       let p := match c_make (JObj [(k, c_data s)]) with Ok p => p | _ => c_zero end in c_merge (ord (n + 2)) merge_override (Some (JObj d)) p) in
    (exists d', body = Ok (Some (JObj d')) /\ wf (JObj d') /\ (forall k', k' <> k -> oget k' d' = oget k' d) /\
       merged coll (obj_part (c_data z)) (obj_part (c_data y)) (section k (JObj d'))) \/
    (body = Err /\ rejected coll (obj_part (c_data z)) (obj_part (c_data y)))).
  { intros Hn body. unfold body.
    destruct (merge_any (ord n) coll [] z (Ho _) Hg ltac:(repeat constructor) Wz Fz) as [(s1 & E1 & W1 & M1)|[E1 R1]].
    2:{ exfalso. destruct R1 as (p & x & v & A & B & C & D). destruct p as [|k0 p]; [|discriminate A]. cbn in A, B. injection A as <-. injection B as <-.
        destruct (obj_part_obj (c_data z)) as [m Em]. rewrite Em in C. discriminate C. }
    unfold c_new. rewrite E1. cbn [bind]. destruct (obj_part_obj (c_data z)) as [zm Em]. assert (Wzm : wf (JObj zm)) by (rewrite <- Em; now apply obj_part_wf).
    assert (s1 = JObj zm). { eapply merged_fun; [exact M1|]. rewrite Em. now apply merged_into_empty. } subst s1.
    destruct (merge_any (ord (n + 1)) coll zm y (Ho _) Hg Wzm Wy Fy) as [(s2 & E2 & W2 & M2)|[E2 R2]].
    2:{ right. rewrite E2. split; [reflexivity|]. now rewrite Em. }
    left. rewrite E2. cbn [bind c_data].
    assert (F2 : fixed s2). { apply (merged_fixed coll Hp (obj_part (c_data y)) (JObj zm)); auto; [now apply obj_part_wf | rewrite <- Em; now apply obj_part_fixed | now apply obj_part_fixed]. }
    destruct (merged_objs _ _ _ _ M2) as (_ & _ & sm & _ & _ & ->).
    assert (Wp : wf (JObj [(k, JObj sm)])) by (apply wf_obj; split; [repeat constructor | repeat constructor; apply W2]).
    assert (Fp : fixed (JObj [(k, JObj sm)])). { apply fixed_obj; [repeat constructor|]. intros k' v. cbn. destruct (String.eqb k' k); [now intros [= <-] | discriminate]. }
    unfold c_make. unfold fixed in Fp. rewrite Fp. cbn [bind].
    destruct (c_merge_override (ord (n + 2)) d [(k, JObj sm)] [(k, JObj sm)] (Ho _) Wd Wp Fp) as (r' & E3 & W3 & M3).
    destruct (merged_inv _ _ _ _ M3) as (d' & -> & Sd' & K). exists d'. split; [exact E3|]. split; [exact W3|]. split.
    - intros k' N. specialize (K k'). cbn in K. destruct (String.eqb_spec k' k); [congruence|]. inversion K; reflexivity.
    - rewrite Em. assert (E4 : oget k d' = Some (JObj sm)).
      { specialize (K k). cbn in K. rewrite String.eqb_refl in K.
        inversion K as [A B C|v1 A B C|v1 A B C|d1 s1 r1 H1 H2 M A B C|d1 s1 r1 H1 M A B C]; subst; [reflexivity| |].
        - f_equal. destruct (is_obj_inv _ H1) as [dm ->].
          assert (c_data z = JObj dm). { unfold z, c_path, c_search. rewrite Hk. cbn. rewrite <- A. reflexivity. }
          assert (zm = dm) by (rewrite H in Em; cbn in Em; congruence). subst zm.
          eapply merged_fun; [exact M|]. eapply merged_absorbs; [exact Hp | exact Wzm | exact M2].
        - injection M as <-. reflexivity. }
      cbn [section]. rewrite E4. exact M2. }
  cbv zeta in Main. unfold section_result. cbn [section] in *. rewrite <- Ez, <- Ey. clear Ez Ey.
  destruct (is_nil_cases z) as [[S _]|[(Ez & ->)|(_ & Nzn & ->)]]; [contradiction| |]; cbn [bind].
  - destruct (is_nil_cases y) as [[S _]|[(Ey & ->)|(_ & Nyn & ->)]]; [contradiction| |]; cbn [bind andb].
    + left. exists d. split; [reflexivity|]. split; [exact Wd|]. split; [reflexivity|]. left. rewrite Ez, Ey. split; [reflexivity|]. split; [reflexivity|].
      reflexivity.
    + destruct (Main ltac:(tauto)) as [(d' & E & W & O & M)|[E R]]; [left|right]; [|auto]. exists d'. split; [exact E|]. split; [exact W|]. split; [exact O|]. right. split; [tauto | exact M].
  - destruct (Main ltac:(tauto)) as [(d' & E & W & O & M)|[E R]]; [left|right]; [|auto]. exists d'. split; [exact E|]. split; [exact W|]. split; [exact O|]. right. split; [tauto | exact M].
Qed.

Lemma merge_section_panic ord n d r coll k : dot_path k = [k] ->
  scalar (section k (JObj d)) \/ (section k (JObj d) = JNull /\ scalar (section k (JObj r))) ->
  merge_section ord n (Some (JObj r)) (Some (JObj d)) (coll, k) = Panic.
Proof.
  intros Hk H. unfold merge_section. cbn [fst snd]. rewrite <- !(c_path_key k) in H by exact Hk.
  destruct (is_nil_cases (c_path k (Some (JObj d)))) as [[S ->]|[(Ez & ->)|(N & Nn & ->)]].
  - reflexivity.
  - destruct H as [S|[_ S]]; [rewrite Ez in S; destruct S|]. cbn [bind].
    destruct (is_nil_cases (c_path k (Some (JObj r)))) as [[_ ->]|[(Ey & ->)|(N & Nn & ->)]]; [reflexivity | rewrite Ey in S; destruct S | contradiction].
  - tauto.
Qed.

(** ** all sections *)
Definition usable (x : merger * string) : Prop := good_rule (fst x) /\ picks (fst x) /\ dot_path (snd x) = [snd x].
Lemma at_path_section k d d' : at_path [k] d' = at_path [k] d -> section k d' = section k d.
Proof. destruct d as [| | | | |m], d' as [| | | | |m']; cbn; try reflexivity; try (destruct (oget k m'); congruence); try (destruct (oget k m); congruence). destruct (oget k m), (oget k m'); congruence. Qed.
Lemma section_result_other coll k d r d' d'' : at_path [k] d'' = at_path [k] d' -> section_result coll k d r d' -> section_result coll k d r d''.
Proof. intro E. pose proof (at_path_section _ _ _ E) as E'. unfold section_result. rewrite E, E'. auto. Qed.
Lemma section_result_from coll k d d0 r d' : at_path [k] d0 = at_path [k] d -> section_result coll k d0 r d' -> section_result coll k d r d'.
Proof. intro E. pose proof (at_path_section _ _ _ E) as E'. unfold section_result. rewrite E, E'. auto. Qed.
Lemma section_eq k d d' : oget k d' = oget k d -> section k (JObj d') = section k (JObj d).
Proof. cbn. now intros ->. Qed.
Lemma at_path_eq k d d' : oget k d' = oget k d -> at_path [k] (JObj d') = at_path [k] (JObj d).
Proof. cbn. now intros ->. Qed.

Lemma merge_sections_spec (ord : nat -> morder) r l : (forall i, perm_oracle (ord i)) -> Forall usable l -> NoDup (map snd l) -> wf (JObj r) ->
  (forall k, fixed (section k (JObj r))) -> Forall (fun x => ~ scalar (section (snd x) (JObj r))) l ->
  forall n d, wf (JObj d) -> (forall k, In k (map snd l) -> fixed (section k (JObj d))) -> Forall (fun x => ~ scalar (section (snd x) (JObj d))) l ->
  (exists d', merge_sections ord n (Some (JObj r)) (Some (JObj d)) l = Ok (Some (JObj d')) /\ wf (JObj d') /\
     (forall k, ~ In k (map snd l) -> oget k d' = oget k d) /\
     Forall (fun x => section_result (fst x) (snd x) (JObj d) (JObj r) (JObj d')) l) \/
  (merge_sections ord n (Some (JObj r)) (Some (JObj d)) l = Err /\
     exists x, In x l /\ rejected (fst x) (obj_part (section (snd x) (JObj d))) (obj_part (section (snd x) (JObj r)))).
Proof.
  intros Ho Hu Hnd Wr Fr Sr. induction l as [|[coll k] l IH]; intros n d Wd Fd Sd.
  - left. exists d. repeat split; auto; apply Wd.
  - inversion Hu as [|? ? U Hu']; subst. inversion Hnd as [|? ? N Hnd']; subst. inversion Sr as [|? ? Sr1 Sr']; subst. inversion Sd as [|? ? Sd1 Sd']; subst.
    cbn [fst snd map] in *. destruct U as (U1 & U2 & U3). cbn [fst snd] in *. cbn [merge_sections].
    destruct (merge_section_spec ord n d r coll k Ho U1 U2 U3 Wd Wr (Fd k (or_introl eq_refl)) (Fr k) Sd1 Sr1) as [(d1 & E & W1 & O1 & R1)|[E R1]]; rewrite E; cbn [bind].
    2:{ right. split; [reflexivity|]. exists (coll, k). split; [now left | exact R1]. }
    assert (Keep : forall k', In k' (map snd l) -> section k' (JObj d1) = section k' (JObj d)).
    { intros k' Hin. apply section_eq, O1. intros ->. contradiction. }
    destruct (IH Hu' Hnd' Sr' (n + 3) d1 W1) as [(d' & E' & W' & O' & R')|[E' (x & Hx & R')]].
    + intros k' Hin. rewrite (Keep k' Hin). apply Fd. now right.
    + rewrite Forall_forall in Sd' |- *. intros x Hx. rewrite (Keep _ (in_map snd _ _ Hx)). auto.
    + left. exists d'. split; [exact E'|]. split; [exact W'|]. split.
      * intros k' Hk'. rewrite O', O1; [reflexivity | intros -> ; apply Hk'; now left | intro; apply Hk'; now right].
      * constructor; cbn [fst snd].
        -- eapply section_result_other; [|exact R1]. apply at_path_eq, O', N.
        -- rewrite Forall_forall in R' |- *. intros x Hx. eapply section_result_from; [|exact (R' x Hx)]. apply at_path_eq, O1. intros E0. apply N. rewrite <- E0. now apply in_map.
    + right. split; [exact E'|]. exists x. split; [now right|]. now rewrite <- (Keep _ (in_map snd _ _ Hx)).
Qed.

(** The first section holding a scalar (all before it being fine) panics. *)
Lemma merge_sections_panic (ord : nat -> morder) r l : (forall i, perm_oracle (ord i)) -> Forall usable l -> NoDup (map snd l) -> wf (JObj r) ->
  (forall k, fixed (section k (JObj r))) -> Forall (fun x => ~ scalar (section (snd x) (JObj r))) l ->
  forall n d, wf (JObj d) -> (forall k, In k (map snd l) -> fixed (section k (JObj d))) ->
  (exists x, In x l /\ scalar (section (snd x) (JObj d))) ->
  Forall (fun x => ~ rejected (fst x) (obj_part (section (snd x) (JObj d))) (obj_part (section (snd x) (JObj r)))) l ->
  merge_sections ord n (Some (JObj r)) (Some (JObj d)) l = Panic.
Proof.
  intros Ho Hu Hnd Wr Fr Sr. induction l as [|[coll k] l IH]; intros n d Wd Fd (x & Hx & Sx) Hrej; [destruct Hx|].
  inversion Hu as [|? ? U Hu']; subst. inversion Hnd as [|? ? N Hnd']; subst. inversion Sr as [|? ? Sr1 Sr']; subst. inversion Hrej as [|? ? J Hrej']; subst.
  cbn [fst snd map] in *. destruct U as (U1 & U2 & U3). cbn [fst snd] in *. cbn [merge_sections].
  assert (Dec : scalar (section k (JObj d)) \/ ~ scalar (section k (JObj d))) by (destruct (section k (JObj d)); cbn; auto).
  destruct Dec as [S|S]; [now rewrite merge_section_panic by auto|].
  destruct (merge_section_spec ord n d r coll k Ho U1 U2 U3 Wd Wr (Fd k (or_introl eq_refl)) (Fr k) S Sr1) as [(d1 & E & W1 & O1 & R1)|[E R1]]; [|contradiction].
  rewrite E. cbn [bind].
  assert (Keep : forall k', In k' (map snd l) -> section k' (JObj d1) = section k' (JObj d)).
  { intros k' Hin. apply section_eq, O1. intros ->. contradiction. }
  apply IH; auto.
  - intros k' Hin. rewrite (Keep k' Hin). apply Fd. now right.
  - destruct Hx as [<-|Hx]; [contradiction|]. exists x. split; [exact Hx|]. now rewrite (Keep _ (in_map snd _ _ Hx)).
  - rewrite Forall_forall in Hrej' |- *. intros z Hz. rewrite (Keep _ (in_map snd _ _ Hz)). auto.
Qed.

Lemma sections_usable : Forall usable sections.
Proof.
  unfold sections. repeat apply Forall_cons; try apply Forall_nil; unfold usable; cbn [fst snd];
    (split; [first [exact good_override | exact good_strict | exact good_default]|]; split; [first [exact picks_override | exact picks_strict | exact picks_default] | reflexivity]).
Qed.
Lemma sections_nodup : NoDup (map snd sections).
Proof. cbn. repeat constructor; cbn; intuition discriminate. Qed.

(** ** MergeWithRoot *)
Definition section_names : list string := map snd sections.
Theorem root_merge (ord : nat -> morder) d r : (forall i, perm_oracle (ord i)) -> wf (JObj d) -> wf (JObj r) -> fixed (JObj d) -> fixed (JObj r) ->
  (forall k, In k section_names -> ~ scalar (section k (JObj d)) /\ ~ scalar (section k (JObj r))) ->
  let zc := obj_part (section "components" (JObj d)) in
  let yc := obj_part (section "components" (JObj r)) in
  (merge_with_root ord (JObj r) (Some (JObj d)) = Err <-> rejected merge_strict zc yc) /\
  (~ rejected merge_strict zc yc ->
   exists d', merge_with_root ord (JObj r) (Some (JObj d)) = Ok (Some (JObj d')) /\ wf (JObj d') /\
     (forall k, ~ In k section_names -> oget k d' = oget k d) /\
     Forall (fun x => section_result (fst x) (snd x) (JObj d) (JObj r) (JObj d')) sections).
Proof.
  intros Ho Wd Wr Fd Fr Hs zc yc. unfold merge_with_root. unfold c_make. rewrite Fr. cbn [bind].
  destruct (merge_sections_spec ord r sections Ho sections_usable sections_nodup Wr (fun k => section_fixed k _ Wr Fr)) with (n := 0) (d := d)
    as [(d' & E & W & O & R)|[E (x & Hx & R)]]; auto.
  - apply Forall_forall. intros x Hx. apply Hs. now apply in_map.
  - intros k _. now apply section_fixed.
  - apply Forall_forall. intros x Hx. apply Hs. now apply in_map.
  - split; [|intros _; exists d'; auto]. rewrite E. split; [discriminate|]. intro Rj. exfalso.
    rewrite Forall_forall in R. specialize (R (merge_strict, "components") ltac:(cbn; tauto)). cbn [fst snd] in R.
    destruct R as [(A & B & _)|[_ M]].
    + unfold zc, yc in Rj. rewrite A, B in Rj. cbn [obj_part] in Rj. destruct Rj as ([|k p] & u & v & H1 & H2 & H3 & H4); [|discriminate H1].
      cbn in H1, H2. injection H1 as <-. injection H2 as <-. discriminate H3.
    + eapply merged_not_rejected; eassumption.
  - assert (rejected merge_strict zc yc).
    { cbn in Hx. destruct Hx as [<-|[<-|Hx]]; cbn [fst snd] in R.
      - exfalso. eapply not_rejected_override; exact R.
      - exact R.
      - exfalso. repeat (destruct Hx as [<-|Hx]; [cbn [fst snd] in R; eapply not_rejected_default; exact R|]). exact Hx. }
    split; [rewrite E; split; auto | intro N; contradiction].
Qed.

(** Whether the components clash can be decided. *)
Lemma root_clash_dec d r : wf (JObj d) -> wf (JObj r) -> fixed (JObj d) -> fixed (JObj r) ->
  rejected merge_strict (obj_part (section "components" (JObj d))) (obj_part (section "components" (JObj r))) \/
  ~ rejected merge_strict (obj_part (section "components" (JObj d))) (obj_part (section "components" (JObj r))).
Proof.
  intros Wd Wr Fd Fr. destruct (obj_part_obj (section "components" (JObj d))) as (zm & Ez). rewrite Ez.
  destruct (merge_any (fun _ l => l) merge_strict zm (Some (section "components" (JObj r)))) as [(x & _ & _ & M)|(_ & R)].
  - intros p l. apply Permutation_refl.
  - apply good_strict.
  - rewrite <- Ez. apply obj_part_wf, section_wf, Wd.
  - apply section_wf, Wr.
  - apply (section_fixed _ _ Wr Fr).
  - right. exact (merged_not_rejected _ _ _ _ M).
  - left. exact R.
Qed.
(** The result is determined by what is said about its sections. *)
Lemma composed_unique d r d1 d2 : wf (JObj d1) -> wf (JObj d2) ->
  (forall k, ~ In k section_names -> oget k d1 = oget k d) -> (forall k, ~ In k section_names -> oget k d2 = oget k d) ->
  Forall (fun x => section_result (fst x) (snd x) (JObj d) (JObj r) (JObj d1)) sections ->
  Forall (fun x => section_result (fst x) (snd x) (JObj d) (JObj r) (JObj d2)) sections -> d1 = d2.
Proof.
  intros W1 W2 O1 O2 R1 R2. apply wf_obj in W1 as (S1 & _). apply wf_obj in W2 as (S2 & _). apply obj_ext; [exact S1 | exact S2|]. intro k.
  destruct (in_dec string_dec k section_names) as [I|N]; [|now rewrite O1, O2].
  apply in_map_iff in I as ([coll k0] & E & I). cbn [snd] in E. subst k0. rewrite Forall_forall in R1, R2. specialize (R1 _ I). specialize (R2 _ I). cbn [fst snd] in R1, R2.
  assert (P : forall m v, at_path [k] (JObj m) = v -> oget k m = v) by (intros m v; cbn; now destruct (oget k m)).
  destruct R1 as [(A1 & B1 & E1)|(N1 & M1)], R2 as [(A2 & B2 & E2)|(N2 & M2)]; try tauto.
  - rewrite (P _ _ E1), (P _ _ E2). reflexivity.
  - destruct (merged_objs _ _ _ _ M1) as (_ & _ & c & _ & _ & Ec). pose proof (merged_fun _ _ _ _ _ M1 M2) as E. rewrite E in Ec. cbn [section] in E, Ec. destruct (oget k d1), (oget k d2); congruence.
Qed.

Theorem root_panics (ord : nat -> morder) d r k : (forall i, perm_oracle (ord i)) -> wf (JObj d) -> wf (JObj r) -> fixed (JObj d) -> fixed (JObj r) ->
  (forall k, In k section_names -> ~ scalar (section k (JObj r))) -> In k section_names -> scalar (section k (JObj d)) ->
  ~ rejected merge_strict (obj_part (section "components" (JObj d))) (obj_part (section "components" (JObj r))) ->
  merge_with_root ord (JObj r) (Some (JObj d)) = Panic.
Proof.
  intros Ho Wd Wr Fd Fr Hr Hk Hs Hj. unfold merge_with_root, c_make. rewrite Fr. cbn [bind].
  apply merge_sections_panic; auto using sections_usable, sections_nodup.
  - intro; now apply section_fixed.
  - apply Forall_forall. intros x Hx. apply Hr. now apply in_map.
  - intros; now apply section_fixed.
  - unfold section_names in Hk. apply in_map_iff in Hk as (x & <- & Hx). exists x. auto.
  - apply Forall_forall. intros x Hx. cbn in Hx. destruct Hx as [<-|[<-|Hx]]; cbn [fst snd]; [apply not_rejected_override | exact Hj|].
    repeat (destruct Hx as [<-|Hx]; [cbn [fst snd]; apply not_rejected_default|]). destruct Hx.
Qed.
Theorem root_info_panics (ord : nat -> morder) d r : fixed (JObj r) -> scalar (section "info" (JObj d)) ->
  merge_with_root ord (JObj r) (Some (JObj d)) = Panic.
Proof.
  intros Fr Hs. unfold merge_with_root, c_make. rewrite Fr. cbn [bind]. unfold sections. cbn [merge_sections].
  rewrite merge_section_panic; auto.
Qed.

(** Lists. *)
Theorem root_lists (ord : nat -> morder) d r d' k : (forall i, perm_oracle (ord i)) -> wf (JObj d) -> wf (JObj r) -> fixed (JObj d) -> fixed (JObj r) ->
  (forall k, In k section_names -> ~ scalar (section k (JObj d)) /\ ~ scalar (section k (JObj r))) ->
  merge_with_root ord (JObj r) (Some (JObj d)) = Ok (Some d') -> In k section_names ->
  ~ (section k (JObj d) = JNull /\ section k (JObj r) = JNull) ->
  is_obj (section k (JObj d)) = false -> is_obj (section k (JObj r)) = false -> section k d' = JObj [].
Proof.
  intros Ho Wd Wr Fd Fr Hs E Hk Hn Oz Oy.
  destruct (root_merge ord d r Ho Wd Wr Fd Fr Hs) as [A B]. cbv zeta in A, B.
  destruct B as (d'' & E' & _ & _ & R). { intro J. apply A in J. congruence. }
  assert (d' = JObj d'') by congruence. subst. unfold section_names in Hk. apply in_map_iff in Hk as (x & <- & Hx).
  rewrite Forall_forall in R. destruct (R x Hx) as [(Z1 & Z2 & _)|[_ M]]; [tauto|].
  assert (P : forall j, is_obj j = false -> obj_part j = JObj []) by (intros []; cbn; congruence).
  rewrite (P _ Oz), (P _ Oy) in M. eapply merged_fun; [exact M|]. apply merged_nothing. repeat constructor.
Qed.
