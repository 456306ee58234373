(** Two scans of the same input agree. *)
From Coq Require Import String Ascii List Bool Arith ZArith Lia Permutation.
From Verif Require Import GoStr GoStrFacts Json JsonFacts Gabs Container Url Pointer PtrFacts Spec_Ptr Spec_Clone Spec_Merge MergeFacts MergeApi MergeLaws
  Spec_Loc LocFacts Spec_Resolve Resolver ResolverFacts ResolverFrame ResolverAt P_At.
Import ListNotations.
Local Open Scope string_scope.
Local Open Scope nat_scope.
Local Open Scope list_scope.

(** *** Trees with the same leaves *)
Definition childless (v : json) : Prop := forall s q, lookup (s :: q) v = None.
Lemma has_leaf j : exists u v, lookup u j = Some v /\ childless v.
Proof.
  induction j as [| | | |l IH|m IH] using json_induction.
  1-4: exists []; eexists; split; [reflexivity | intros [k|i] q; reflexivity].
  - destruct l as [|x l]; [exists []; eexists; split; [reflexivity | intros [k|[|i]] q; reflexivity]|]. inversion IH as [|? ? (u & v & L & C) _]; subst. exists (SIdx 0 :: u), v. auto.
  - destruct m as [|[k x] m]; [exists []; eexists; split; [reflexivity | intros [k|i] q; reflexivity]|]. inversion IH as [|? ? (u & v & L & C) _]; subst. exists (SKey k :: u), v. cbn [lookup oget]. rewrite String.eqb_refl. auto.
Qed.
Lemma childless_scalar j : match j with JArr _ | JObj _ => False | _ => True end -> childless j.
Proof. intros H [k|i] q; destruct j; try destruct H; reflexivity. Qed.
Lemma nth_error_ext {A} (l : list A) : forall l', (forall i, nth_error l i = nth_error l' i) -> l = l'.
Proof.
  induction l as [|x l IH]; intros [|y l'] H; [reflexivity | discriminate (H 0) | discriminate (H 0)|].
  pose proof (H 0) as E. injection E as <-. f_equal. apply IH. intro i. exact (H (S i)).
Qed.
Lemma tree_ext j1 : forall j2, wf j1 -> wf j2 ->
  (forall u v, lookup u j1 = Some v -> childless v -> lookup u j2 = Some v) -> (forall u v, lookup u j2 = Some v -> childless v -> lookup u j1 = Some v) -> j1 = j2.
Proof.
  induction j1 as [|b|n|s|l IH|m IH] using json_induction; intros j2 W1 W2 H1 H2;
    try (match goal with |- ?j = _ => assert (X : lookup [] j2 = Some j) by (apply H1; [reflexivity | apply childless_scalar; exact Logic.I]) end; injection X as ->; reflexivity).
  - destruct (has_leaf (JArr l)) as (u & v & L & C). pose proof (H1 u v L C) as L2.
    assert (E : exists l2, j2 = JArr l2).
    { destruct u as [|[k|i] u]; [injection L as <-; injection L2 as ->; eauto | discriminate L |]. destruct j2; try discriminate L2. eauto. }
    destruct E as (l2 & ->). f_equal. apply nth_error_ext. intro i. destruct (nth_error l i) as [x|] eqn:E1.
    + destruct (has_leaf x) as (w & z & Lw & Cz). pose proof (H1 (SIdx i :: w) z) as L3. cbn [lookup] in L3. rewrite E1 in L3. specialize (L3 Lw Cz). destruct (nth_error l2 i) as [y|] eqn:E2; [|discriminate]. f_equal.
      rewrite Forall_forall in IH. apply (IH x (nth_error_In _ _ E1)); [exact (wf_nth _ _ _ W1 E1) | exact (wf_nth _ _ _ W2 E2)| |].
      * intros u' v' L' C'. pose proof (H1 (SIdx i :: u') v') as X. cbn [lookup] in X. rewrite E1, E2 in X. exact (X L' C').
      * intros u' v' L' C'. pose proof (H2 (SIdx i :: u') v') as X. cbn [lookup] in X. rewrite E1, E2 in X. exact (X L' C').
    + destruct (nth_error l2 i) as [y|] eqn:E2; [|reflexivity]. destruct (has_leaf y) as (w & z & Lw & Cz). pose proof (H2 (SIdx i :: w) z) as L3. cbn [lookup] in L3. rewrite E1, E2 in L3. discriminate (L3 Lw Cz).
  - destruct (has_leaf (JObj m)) as (u & v & L & C). pose proof (H1 u v L C) as L2.
    assert (E : exists l2, j2 = JObj l2).
    { destruct u as [|[k|i] u]; [injection L as <-; injection L2 as ->; eauto | | discriminate L]. destruct j2; try discriminate L2. eauto. }
    destruct E as (l2 & ->). f_equal. apply obj_ext; [exact (wf_sorted _ W1) | exact (wf_sorted _ W2)|]. intro k. destruct (oget k m) as [x|] eqn:E1.
    + destruct (has_leaf x) as (w & z & Lw & Cz). pose proof (H1 (SKey k :: w) z) as L3. cbn [lookup] in L3. rewrite E1 in L3. specialize (L3 Lw Cz). destruct (oget k l2) as [y|] eqn:E2; [|discriminate]. f_equal.
      rewrite Forall_forall in IH. apply (IH (k, x) (oget_in _ _ _ E1)); [exact (wf_oget _ _ _ W1 E1) | exact (wf_oget _ _ _ W2 E2)| |]; cbn [snd].
      * intros u' v' L' C'. pose proof (H1 (SKey k :: u') v') as X. cbn [lookup] in X. rewrite E1, E2 in X. exact (X L' C').
      * intros u' v' L' C'. pose proof (H2 (SKey k :: u') v') as X. cbn [lookup] in X. rewrite E1, E2 in X. exact (X L' C').
    + destruct (oget k l2) as [y|] eqn:E2; [|reflexivity]. destruct (has_leaf y) as (w & z & Lw & Cz). pose proof (H2 (SKey k :: w) z) as L3. cbn [lookup] in L3. rewrite E1, E2 in L3. discriminate (L3 Lw Cz).
Qed.

(** *** Resolving twice *)
Lemma apart_below p q u : Spec_Loc.apart p q -> Spec_Loc.apart p (q ++ u).
Proof.
  intros (A & B). split; [|intros (r & E); apply B; exists (u ++ r); rewrite app_assoc; exact E].
  intros (r & E). destruct (app_eq_app _ _ _ _ E) as (z & [(E1 & E2)|(E1 & E2)]); [apply A; exists z; exact E1 | apply B; exists z; exact E1].
Qed.
Lemma resolve_leaf ord1 ord2 es fn fuel1 fuel2 doc r1 r2 : (forall pos l, Permutation (ord1 pos l) l) -> (forall pos l, Permutation (ord2 pos l) l) ->
  (forall p x, fn p = Ok x -> tidy x /\ lonely x) -> tidy doc -> lonely doc -> Forall (fun e => good_name (e_name e)) es ->
  (forall e q0 t p, In e es -> ext_ref doc q0 t p -> Spec_Loc.apart (comp_loc (kind_key (e_kind e)) (e_name e)) q0) ->
  resolve ord1 es fn fuel1 (Some doc) = Ok (Some r1) -> resolve ord2 es fn fuel2 (Some doc) = Ok (Some r2) ->
  forall q v, (forall e, In e es -> Spec_Loc.apart (comp_loc (kind_key (e_kind e)) (e_name e)) q) -> lookup q r1 = Some v -> childless v -> lookup q r2 = Some v.
Proof.
  intros O1 O2 Hf Ht Hl Hg Hx H1 H2 q v Hq L C. rewrite <- L. symmetry. apply (C84_order_affects_components_only ord1 ord2 es fn fuel1 fuel2 doc r1 r2 O1 O2 Hf Ht Hl Hg H1 H2 q Hq).
  intros q0 t p He. assert (Hq0 : q0 <> []) by (intros ->; exact (proj2 (proj2 Ht) t p He)). assert (Hc : forall e, In e es -> Spec_Loc.apart (comp_loc (kind_key (e_kind e)) (e_name e)) q0) by (intros e Ie; exact (Hx e q0 t p Ie He)).
  destruct (loc_cases q q0) as [(u & E)|[(u0 & u & E)|A]].
  - destruct u as [|s u]; [rewrite app_nil_r in E; subst q0; right; split; [exists []; now rewrite app_nil_r | exact Hc]|]. exfalso.
    destruct (resolve_at ord1 es fn fuel1 doc (Some r1) q0 t p O1 (proj1 Ht) (proj1 (proj2 Ht)) Hg H1 He Hq0 (lonely_apart doc q0 t p Hl He) Hc) as (d1 & x1 & y1 & D1 & X1 & Y1 & M1). cbn [c_data] in M1.
    assert (X : exists z, lookup q0 r1 = Some z) by (destruct (exports_get es p); [destruct M1 as (m & _ & M1); eauto | destruct M1 as (z & M1 & _); eauto]). destruct X as (z & X). rewrite E, lookup_app, L in X. rewrite C in X. discriminate X.
  - right. split; [exists (u0 :: u); exact E | exact Hc].
  - left. split; apply A.
Qed.
Lemma resolve_same ord1 ord2 es fn fuel1 fuel2 doc r1 r2 : (forall pos l, Permutation (ord1 pos l) l) -> (forall pos l, Permutation (ord2 pos l) l) ->
  (forall p x, fn p = Ok x -> tidy x /\ lonely x) -> tidy doc -> lonely doc -> Forall (fun e => good_name (e_name e)) es ->
  (forall e q0 t p, In e es -> ext_ref doc q0 t p -> Spec_Loc.apart (comp_loc (kind_key (e_kind e)) (e_name e)) q0) -> wf r1 -> wf r2 ->
  resolve ord1 es fn fuel1 (Some doc) = Ok (Some r1) -> resolve ord2 es fn fuel2 (Some doc) = Ok (Some r2) ->
  forall q, (forall e, In e es -> Spec_Loc.apart (comp_loc (kind_key (e_kind e)) (e_name e)) q) -> lookup q r1 = lookup q r2.
Proof.
  intros O1 O2 Hf Ht Hl Hg Hx W1 W2 H1 H2 q Hq.
  assert (A : forall u v, lookup (q ++ u) r1 = Some v -> childless v -> lookup (q ++ u) r2 = Some v).
  { intros u v. apply (resolve_leaf ord1 ord2 es fn fuel1 fuel2 doc r1 r2); auto. intros e Ie. apply apart_below, Hq, Ie. }
  assert (B : forall u v, lookup (q ++ u) r2 = Some v -> childless v -> lookup (q ++ u) r1 = Some v).
  { intros u v. apply (resolve_leaf ord2 ord1 es fn fuel2 fuel1 doc r2 r1); auto. intros e Ie. apply apart_below, Hq, Ie. }
  destruct (lookup q r1) as [v1|] eqn:E1.
  - destruct (has_leaf v1) as (u & v & L & C). pose proof (A u v) as X. rewrite lookup_app, E1 in X. specialize (X L C). rewrite lookup_app in X. destruct (lookup q r2) as [v2|] eqn:E2; [|discriminate]. f_equal.
    apply tree_ext; [exact (lookup_wf _ _ _ W1 E1) | exact (lookup_wf _ _ _ W2 E2)| |].
    + intros u' v' L' C'. pose proof (A u' v') as Y. rewrite !lookup_app, E1, E2 in Y. exact (Y L' C').
    + intros u' v' L' C'. pose proof (B u' v') as Y. rewrite !lookup_app, E1, E2 in Y. exact (Y L' C').
  - destruct (lookup q r2) as [v2|] eqn:E2; [|reflexivity]. destruct (has_leaf v2) as (u & v & L & C). pose proof (B u v) as X. rewrite !lookup_app, E1, E2 in X. discriminate (X L C).
Qed.

(** *** What Resolve depends on *)
Lemma iterator_ext ord es1 es2 (fn1 fn2 : ptr -> res json) : (forall p, exports_get es1 p = exports_get es2 p) -> (forall p, fn1 p = fn2 p) ->
  forall fuel pos pp s, iterator ord es1 fn1 fuel pos pp s = iterator ord es2 fn2 fuel pos pp s.
Proof.
  intros He Hf. induction fuel as [|fuel IH]; intros pos pp s; [reflexivity|]. cbn [iterator]. destruct (extract_key (ord pos) "$ref" (st_cx s)) as [refs| | |]; try reflexivity. cbn [bind].
  generalize 0 as i. revert s. induction refs as [|[key v] refs IHr]; intros s i; [reflexivity|].
  match goal with |- bind ?x _ = bind ?y _ => assert (X : x = y) end.
  { destruct v; try reflexivity. destruct (ptr_parse s0) as [p| | |]; try reflexivity. cbn [bind]. destruct (negb (is_external p)); [reflexivity|]. destruct (path_has pp p); [unfold r_set_recursive; now rewrite He|].
    rewrite Hf. destruct (fn2 p) as [x| | |]; try reflexivity. cbn [bind]. destruct (c_make x) as [nc| | |]; try reflexivity. cbn [bind]. rewrite IH. destruct (iterator ord es2 fn2 fuel (pos ++ [i]) (pp ++ [p]) (fst s, Some nc)) as [r| | |]; try reflexivity. cbn [bind]. unfold r_set. now rewrite He. }
  rewrite X. match goal with |- bind ?x _ = bind ?x _ => destruct x as [s'| | |] end; try reflexivity. cbn [bind]. apply IHr.
Qed.
Lemma resolve_ext ord es1 es2 (fn1 fn2 : ptr -> res json) fuel c : (forall p, exports_get es1 p = exports_get es2 p) -> (forall p, fn1 p = fn2 p) -> resolve ord es1 fn1 fuel c = resolve ord es2 fn2 fuel c.
Proof. intros He Hf. unfold resolve. now rewrite (iterator_ext ord es1 es2 fn1 fn2 He Hf). Qed.
