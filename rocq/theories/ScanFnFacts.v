(** What overrides and schemes do to a resolution (C30). *)
From Coq Require Import String Ascii List Bool Arith ZArith Lia Permutation.
From Verif Require Import GoStr GoStrFacts Json JsonFacts Gabs Container Url Pointer Resolver ScanFn
  Spec_Loc Spec_Resolve MergeFacts LocFacts CloneFacts ResolverFacts ResolverTerm ResolverFrame ResolverExpand.
Import ListNotations.
Local Open Scope string_scope.
Local Open Scope nat_scope.
Local Open Scope list_scope.

Lemma rloop_calls ord es fn f pos pp refs : forall i s s', rloop (rstep ord es fn f pos pp) i refs s = Ok s' ->
  forall key t p, In (key, JStr t) refs -> ptr_parse t = Ok p -> is_external p = true -> path_has pp p = false -> exists x, fn p = Ok x.
Proof.
  induction refs as [|[k v] refs IH]; intros i s s' H key t p Hin Hp Hx Hh; [destruct Hin|].
  cbn [rloop] in H. apply bind_ok in H as (s1 & H1 & H2). destruct Hin as [E|Hin]; [|eapply IH; eassumption].
  injection E as -> ->. unfold rstep in H1. rewrite Hp in H1. cbn [bind] in H1. rewrite Hx, Hh in H1. cbn [negb] in H1.
  apply bind_ok in H1 as (x & H1 & _). eauto.
Qed.

(** Every external pointer of the document is looked up, and must be found. *)
Lemma resolve_calls ord es fn fuel doc r : (forall pos l, Permutation (ord pos l) l) -> wf doc -> keys_ok plain doc ->
  resolve ord es fn fuel (Some doc) = Ok r -> forall q t p, ext_ref doc q t p -> exists x, fn p = Ok x.
Proof.
  intros Ho Hw Hk H q t p He. apply resolve_inv in H as (doc' & f & refs & -> & Hc & Hex & s' & Hl & ->).
  pose proof (clone_keys_ok _ _ _ Hk Hc) as Hk'. pose proof (clone_wf _ _ Hw Hc) as Hw'.
  destruct (extract_refs (ord []) doc' refs (Ho []) Hw' Hk' Hex) as (_ & _ & Hin).
  destruct (proj2 (clone_ext _ _ _ _ _ Hc) He) as (L & Hp & Hx).
  eapply rloop_calls; [exact Hl | apply Hin; [exact L | reflexivity] | exact Hp | exact Hx | reflexivity].
Qed.

Lemma unknown_scheme_fails ord es ov go fuel doc : (forall pos l, Permutation (ord pos l) l) -> wf doc -> keys_ok plain doc ->
  forall q t p, ext_ref doc q t p -> oget (ptr_string p) ov = None -> u_scheme (p_url p) <> "go" ->
  forall r, resolve ord es (scan_fn ov go) fuel (Some doc) <> Ok r.
Proof.
  intros Ho Hw Hk q t p He Hn Hs r H. destruct (resolve_calls _ _ _ _ _ _ Ho Hw Hk H q t p He) as [x Hx].
  unfold scan_fn in Hx. rewrite Hn in Hx. destruct (String.eqb_spec (u_scheme (p_url p)) "go"); [contradiction | discriminate].
Qed.

Lemma lookup_sub_at q : forall g j x w, (forall q', above q' q -> q' <> q -> g q' = None) -> g q = Some w -> lookup q j = Some x -> wf j ->
  lookup q (sub g j) = Some w.
Proof.
  induction q as [|s q IH]; intros g j x w Hg Hq Hl Hw.
  - destruct j; cbn [sub]; rewrite Hq; reflexivity.
  - assert (G0 : g [] = None) by (apply Hg; [eexists; reflexivity | discriminate]).
    destruct s as [k|i]; cbn [lookup] in Hl; destruct j as [| | | |l|m]; try discriminate.
    + destruct (oget k m) as [c|] eqn:E; [|discriminate]. rewrite sub_obj, G0. cbn [lookup]. rewrite sub_map_oget, E.
      apply (IH _ _ x); [|exact Hq | exact Hl | eapply wf_oget; eassumption].
      intros q' [u ->] Hne. apply Hg; [now exists u | congruence].
    + destruct (nth_error l i) as [c|] eqn:E; [|discriminate]. rewrite sub_arr, G0. cbn [lookup]. rewrite sub_list_nth, E. cbn [Nat.add].
      apply (IH _ _ x); [|exact Hq | exact Hl | eapply wf_nth; eassumption].
      intros q' [u ->] Hne. apply Hg; [now exists u | congruence].
Qed.

Lemma fill_at f j r q t p : wf j -> lonely j -> fill f j = Ok r -> ext_ref j q t p ->
  exists w, f p = Ok w /\ lookup q r = Some w.
Proof.
  intros Hw Hlo H He. pose proof (fill_inv _ _ _ Hw Hlo H) as Ha. rewrite (fill_sub _ _ Hw Ha) in H. injection H as <-.
  pose proof He as (L & Hp & Hx). destruct (Ha q t L) as (p' & Hp' & Hv). assert (p' = p) by congruence. subst p'.
  destruct (Hv Hx) as [w Hw']. exists w. split; [exact Hw'|].
  pose proof L as L0. rewrite lookup_app in L0. destruct (lookup q j) as [x|] eqn:Eq; [|discriminate].
  eapply lookup_sub_at; [|unfold subst_of; now rewrite L, Hp, Hx, Hw' | exact Eq | exact Hw].
  intros q' [u ->] Hne. unfold subst_of. destruct (lookup (q' ++ [REF]) j) as [[| | |t'| |]|] eqn:L'; try reflexivity.
  destruct (ptr_parse t') as [p'| | |] eqn:P'; try reflexivity. destruct (is_external p') eqn:X'; [|reflexivity].
  exfalso. rewrite <- app_assoc in L. assert (u = []) as -> by (eapply (Hlo q' u t' p' t); [split; auto | exact L]).
  apply Hne. now rewrite app_nil_r.
Qed.

Lemma fill_plain f j : wf j -> (forall q t, lookup (q ++ [REF]) j <> Some (JStr t)) -> fill f j = Ok j.
Proof.
  intros Hw Hn. rewrite fill_sub; [|exact Hw | intros q t L; now apply Hn in L]. f_equal.
  transitivity (sub (fun _ => None) j); [|apply sub_none]. apply sub_ext; [|exact Hw]. intros q x _. unfold subst_of.
  destruct (lookup (q ++ [REF]) j) as [[| | |t'| |]|] eqn:L'; try reflexivity. now apply Hn in L'.
Qed.

Lemma override_value ord ov go fuel doc r : (forall pos l, Permutation (ord pos l) l) ->
  (forall p x, scan_fn ov go p = Ok x -> tidy x /\ lonely x /\ is_scalar x = false) ->
  tidy doc -> lonely doc -> is_scalar doc = false ->
  resolve ord [] (scan_fn ov go) fuel (Some doc) = Ok (Some r) ->
  forall q t p o, ext_ref doc q t p -> oget (ptr_string p) ov = Some o -> (forall q' t', lookup (q' ++ [REF]) o <> Some (JStr t')) ->
  exists o', clone o = Ok o' /\ lookup q r = Some o'.
Proof.
  intros Ho Hf Ht Hlo Hs H q t p o He Hov Hno. apply (resolve_expand ord (scan_fn ov go) Ho Hf fuel doc r Ht Hlo Hs) in H as (doc' & Hc & H).
  destruct fuel as [|f]; [discriminate|]. rewrite expand_S in H.
  destruct (fill_at _ _ _ q t p (clone_wf _ _ (proj1 Ht) Hc) (clone_lonely _ _ Hlo Hc) H) as (w & Hv & L).
  { now apply (clone_ext _ _ _ _ _ Hc). }
  assert (Hsf : scan_fn ov go p = Ok o) by (unfold scan_fn; now rewrite Hov).
  unfold valof in Hv. cbn [path_has existsb] in Hv. rewrite Hsf in Hv. cbn [bind] in Hv. apply bind_ok in Hv as (o' & Ho' & Hv).
  exists o'. split; [exact Ho'|]. rewrite L. f_equal. destruct f as [|f]; [discriminate|]. rewrite expand_S in Hv.
  rewrite fill_plain in Hv; [congruence | eapply clone_wf; [apply (Hf _ _ Hsf) | exact Ho']|].
  intros q' t' L'. apply (clone_lookup_str _ _ _ _ Ho') in L'. now apply Hno in L'.
Qed.
