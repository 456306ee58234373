(** Scan: what it keeps of the specification files (proofs). *)
From Coq Require Import String Ascii List Bool Arith ZArith Lia Permutation.
From Verif Require Import GoStr GoStrFacts Json JsonFacts Gabs Container Url Pointer Spec_Clone Spec_Merge CloneFacts MergeFacts MergeLaws MergeApi ConfigApi
  Spec_Loc LocFacts SetFacts Spec_Resolve ResolverFacts ResolverFrame Path Resolver ScanFn Root RootFacts Spec_Root PathsFacts ScanFacts ScanInv ScanRefs.
Import ListNotations.
Local Open Scope string_scope.
Local Open Scope nat_scope.
Local Open Scope list_scope.

(** *** All keys of a document *)
Inductive kin (k : string) : json -> Prop :=
| kin_here m v : In (k, v) m -> kin k (JObj m)
| kin_obj k' v m : In (k', v) m -> kin k v -> kin k (JObj m)
| kin_arr x l : In x l -> kin k x -> kin k (JArr l).
Lemma kin_keys_ok P j k : keys_ok P j -> kin k j -> P k.
Proof.
  intros H K. induction K as [m v I|k' v m I K IH|x l I K IH].
  - apply keys_ok_obj in H. rewrite Forall_forall in H. exact (proj1 (H _ I)).
  - apply keys_ok_obj in H. rewrite Forall_forall in H. exact (IH (proj2 (H _ I))).
  - apply keys_ok_arr in H as (_ & H). rewrite Forall_forall in H. exact (IH (H _ I)).
Qed.
Lemma kin_clone k j : forall j', clone j = Ok j' -> kin k j' -> kin k j.
Proof.
  induction j as [|b|n|s|l IH|m IH] using json_induction; intros j' H K; try (injection H as <-; inversion K; fail).
  - destruct n; cbn in H; try discriminate; injection H as <-; try (destruct (to_float_flt z) as (? & ? & Ef); rewrite Ef in K); inversion K.
  - rewrite clone_arr_eq in H. apply bind_ok in H as (l' & Hl & H). injection H as <-. apply clone_list_ok in Hl. inversion K as [| |x l0 I K']; subst.
    revert I. induction Hl as [|a b l l' Hab _ IHl]; intros []; inversion IH as [|? ? IHa IHr]; subst.
    + apply kin_arr with (x := a); [now left | exact (IHa _ Hab K')].
    + specialize (IHl IHr (kin_arr _ _ _ H K') H). inversion IHl as [| |y l0 I' K2]; subst. apply kin_arr with (x := y); [now right | exact K2].
  - rewrite clone_obj_eq in H. apply bind_ok in H as (l' & Hl & H). injection H as <-. apply clone_map_ok in Hl.
    assert (G : forall k' v, In (k', v) l' -> exists v0, In (k', v0) m /\ clone v0 = Ok v).
    { clear IH K. induction Hl as [|[a x] [b y] l l' [E Exy] _ IHl]; intros k' v []; cbn in *.
      - injection H as <- <-. subst b. exists x. auto.
      - destruct (IHl _ _ H) as (v0 & I & E0). exists v0. auto. }
    rewrite Forall_forall in IH. inversion K as [m0 v I|k' v m0 I K'|]; subst; destruct (G _ _ I) as (v0 & I0 & E0).
    + eapply kin_here. exact I0.
    + eapply kin_obj; [exact I0|]. exact (IH _ I0 _ E0 K').
Qed.
Lemma kin_empty k : ~ kin k (JObj []).
Proof. intro K. inversion K as [m v I|k' v m I K'|]; subst; destruct I. Qed.
Lemma gset_kin p k : forall top v j r, gset top v p j = Ok r -> kin k r -> In k p \/ kin k v \/ kin k j.
Proof.
  induction p as [|s p IH]; intros top v j r H K; cbn [gset] in H.
  - injection H as <-. auto.
  - destruct j as [| | | |l|m]; try discriminate.
    + destruct (String.eqb s "-").
      * destruct top; [discriminate|]. apply bind_ok in H as (c' & H & E). injection E as <-. inversion K as [| |x l0 I K']; subst.
        apply in_app_or in I as [I|[<-|[]]]; [right; right; eapply kin_arr; eassumption|]. destruct (IH _ _ _ _ H K') as [A|[A|A]]; [left; now right | auto|].
        now elim (kin_empty k).
      * destruct (arr_index s) as [i|]; [|discriminate]. destruct (nth_error l i) as [c|] eqn:Ec; [|discriminate].
        assert (X : exists c', gset false v p c = Ok c' /\ r = JArr (set_nth i c' l)).
        { destruct p as [|a p], c; try discriminate; apply bind_ok in H as (c' & H & E); injection E as <-; eauto. }
        destruct X as (c' & Hc & ->). inversion K as [| |x l0 I K']; subst. apply in_set_nth in I as [->|I]; [|right; right; eapply kin_arr; eassumption].
        destruct (IH _ _ _ _ Hc K') as [A|[A|A]]; [left; now right | auto|]. right; right. eapply kin_arr; [eapply nth_error_In; exact Ec | exact A].
    + apply bind_ok in H as (c' & H & E). injection E as <-.
      assert (G : kin k c' -> In k (s :: p) \/ kin k v \/ kin k (JObj m)).
      { intro Kc. destruct (IH _ _ _ _ H Kc) as [A|[A|A]]; [left; now right | auto|]. right; right. destruct (oget s m) as [c|] eqn:Eo; [|now elim (kin_empty k)].
        apply kin_obj with (k' := s) (v := c); [now apply oget_in|]. destruct c; try exact A. now elim (kin_empty k). }
      inversion K as [m0 x I|k' x m0 I K'|]; subst; apply oset_in_inv in I as [(-> & ->)|I]; auto.
      * left. now left.
      * right; right. eapply kin_here. exact I.
      * right; right. eapply kin_obj; eassumption.
Qed.
(** Keys without dots and tildes. *)
Definition nice (s : string) : Prop := has_char "." s = false /\ has_char "~" s = false.
Definition nicely (j : json) : Prop := forall k, kin k j -> nice k.
Lemma keys_ok_nicely j : keys_ok plain j -> nicely j.
Proof. intros H k K. destruct (kin_keys_ok _ _ _ H K) as (_ & A & B). split; assumption. Qed.
(** Splitting *)
Lemma split_no_char a c s : has_char a s = false -> Forall (fun x => has_char a x = false) (split_char c s).
Proof.
  induction s as [|b s IH]; intro H; cbn [split_char]; [repeat constructor|]. cbn [has_char] in H. apply orb_false_iff in H as (Hb & H). specialize (IH H).
  destruct (Ascii.eqb c b); [constructor; [reflexivity | exact IH]|]. destruct (split_char c s) as [|x r]; [constructor; [unfold str1; cbn [has_char]; now rewrite Hb | constructor]|].
  inversion IH; subst. constructor; [|assumption]. cbn [has_char]. rewrite Hb. assumption.
Qed.

Lemma join_no_char a sep l : has_char a sep = false -> Forall (fun x => has_char a x = false) l -> has_char a (join sep l) = false.
Proof.
  intros Hs H. induction H as [|x l Hx Hl IH]; [reflexivity|]. destruct l as [|y l]; [exact Hx|]. change (join sep (x :: y :: l)) with (x +++ sep +++ join sep (y :: l)).
  rewrite !has_char_app, Hx, Hs. exact IH.
Qed.
Lemma dot_path_nice s : has_char "~" s = false -> Forall nice (dot_path s).
Proof.
  intro H. unfold dot_path. apply Forall_map. pose proof (split_no_char "~" "." s H) as A. pose proof (split_char_no_sep "." s) as B. rewrite Forall_forall in *.
  intros x I. rewrite undot_plain by auto. split; auto.
Qed.
(** *** Flattened keys *)

Lemma sub_path_tilde p k : has_char "~" p = false -> has_char "~" k = false -> has_char "~" (sub_path p k) = false.
Proof. intros Hp Hk. unfold sub_path. destruct p; [exact Hk|]. rewrite !has_char_app, Hp, Hk. reflexivity. Qed.
Lemma flat_keys j : (forall k, kin k j -> has_char "~" k = false) -> forall path, has_char "~" path = false -> forall x v, In (x, v) (flat path j) -> has_char "~" x = false.
Proof.
  induction j as [|b|n|s|l IH|m IH] using json_induction; intros HK path Hp x v I; try (destruct I as [[= <- _]|[]]; exact Hp).
  - cbn [flat] in I. revert I. generalize 0 as i. assert (HL : forall y, In y l -> forall k, kin k y -> has_char "~" k = false) by (intros y Hy k K; apply HK; eapply kin_arr; eassumption). clear HK.
    induction IH as [|y l Hy _ IHl]; intros i I; [destruct I|]. apply in_app_or in I as [I|I].
    + eapply (Hy (HL y (or_introl eq_refl))); [|exact I]. apply sub_path_tilde; [exact Hp | now apply itoa_no_char].
    + eapply IHl; [|exact I]. intros z Hz. apply HL. now right.
  - cbn [flat] in I. assert (HL : forall k0 y, In (k0, y) m -> has_char "~" k0 = false /\ forall k, kin k y -> has_char "~" k = false).
    { intros k0 y Hy. split; [apply HK; eapply kin_here; eassumption|]. intros k K. apply HK. eapply kin_obj; eassumption. }
    clear HK. induction IH as [|[k0 y] m Hy _ IHm]; [destruct I|]. apply in_app_or in I as [I|I].
    + destruct (HL k0 y (or_introl eq_refl)) as (A & B). eapply (Hy B); [|exact I]. now apply sub_path_tilde.
    + apply IHm; [exact I|]. intros k1 z Hz. apply HL. now right.
Qed.
Lemma dedup_incl {A} (l : list (string * A)) x : In x (dedup l) -> In x l.
Proof. induction l as [|[k v] l IH]; [auto|]. cbn [dedup]. intros [<-|I]; [now left|]. apply filter_In in I as (I & _). right. auto. Qed.
Lemma extract_tilde (ord : list (string * json) -> list (string * json)) key c refs : (forall l, Permutation (ord l) l) -> nicely (c_data c) -> extract_key ord key c = Ok refs -> Forall (fun kv => has_char "~" (fst kv) = false) refs.
Proof.
  intros Ho N H. unfold extract_key in H. apply bind_ok in H as (ff & Hf & H). injection H as <-. apply Forall_forall. intros [x v] I. apply filter_In in I as (I & _). apply dedup_incl in I.
  apply (Permutation_in _ (Ho _)) in I. cbn [fst]. assert (E : ff = flat "" (c_data c)) by (unfold c_flatten in Hf; destruct (c_data c); try discriminate; now injection Hf as <-). subst ff.
  refine (flat_keys (c_data c) _ "" eq_refl x v I). intros k K. apply (N k K).
Qed.
Lemma isref_tilde k k' : has_char "~" k = false -> isref k = Some k' -> has_char "~" k' = false.
Proof.
  unfold isref. intros H E. destruct (String.eqb _ _); [|discriminate]. injection E as <-. apply join_no_char; [reflexivity|].
  pose proof (split_no_char "~" "." k H) as F. rewrite Forall_forall in *. intros x I. apply F. clear - I. destruct (split_char "." k) as [|y l] eqn:E; [exact I|]. rewrite (app_removelast_last "" (l := y :: l)); [|discriminate]. apply in_or_app. now left.
Qed.

(** *** Documents with nice keys and JSON numbers *)
Lemma fixed_numbers j : fixed j <-> forall n, In n (numbers j) -> exists m e, n = NFlt m e.
Proof.
  split.
  - unfold fixed. induction j as [|b|x|s|l IH|m IH] using json_induction; intros H n I; try (destruct I; fail).
    + destruct I as [<-|[]]. destruct x as [z|mm e|]; [|eauto | discriminate]. cbn in H. destruct (to_float_flt z) as (? & ? & Ef). rewrite Ef in H. discriminate.
    + apply numbers_arr in I as (x & Ix & In'). rewrite clone_arr_eq in H. apply bind_ok in H as (l' & Hl & H). assert (l' = l) by congruence. subst l'. apply clone_list_ok in Hl. rewrite Forall_forall in IH.
      refine (IH x Ix _ n In'). clear - Hl Ix. revert Hl. assert (X : forall l l', Forall2 (fun a b => clone a = Ok b) l l' -> l = l' -> forall x, In x l -> clone x = Ok x).
      { clear. induction 1 as [|x y l l' Hxy _ IHl]; intros E z I; [destruct I|]. injection E as -> E. destruct I as [<-|I]; auto. }
      intro Hl. exact (X _ _ Hl eq_refl x Ix).
    + apply numbers_obj in I as (k & x & Ix & In'). rewrite clone_obj_eq in H. apply bind_ok in H as (l' & Hl & H). assert (l' = m) by congruence. subst l'. apply clone_map_ok in Hl. rewrite Forall_forall in IH.
      refine (IH (k, x) Ix _ n In'). clear - Hl Ix. revert Hl. assert (X : forall (l l' : list (string * json)), Forall2 (fun a b => fst a = fst b /\ clone (snd a) = Ok (snd b)) l l' -> l = l' -> forall x, In x l -> clone (snd x) = Ok (snd x)).
      { clear. induction 1 as [|x y l l' Hxy _ IHl]; intros E z I; [destruct I|]. injection E as -> E. destruct I as [<-|I]; [apply Hxy | auto]. }
      intro Hl. refine (X _ _ _ eq_refl (k, x) Ix). exact Hl.
  - unfold fixed. induction j as [|b|x|s|l IH|m IH] using json_induction; intro H; try reflexivity.
    + destruct (H x (or_introl eq_refl)) as (m & e & ->). reflexivity.
    + rewrite clone_arr_eq. enough (E : clone_list l = Ok l) by now rewrite E. assert (H' : forall x, In x l -> forall n, In n (numbers x) -> exists m e, n = NFlt m e) by (intros x I n J; apply H; apply numbers_arr; eauto). clear H.
      induction IH as [|x l Hx _ IHl]; [reflexivity|]. cbn. fold (clone_list l). rewrite (Hx (H' x (or_introl eq_refl))). cbn [bind]. rewrite IHl; [reflexivity|]. intros y I. apply H'. now right.
    + rewrite clone_obj_eq. enough (E : clone_map m = Ok m) by now rewrite E. assert (H' : forall k x, In (k, x) m -> forall n, In n (numbers x) -> exists m e, n = NFlt m e) by (intros k x I n J; apply H; apply numbers_obj; eauto). clear H.
      induction IH as [|[k x] l Hx _ IHl]; [reflexivity|]. cbn. fold (clone_map l). cbn [snd] in Hx. rewrite (Hx (H' k x (or_introl eq_refl))). cbn [bind]. rewrite IHl; [reflexivity|]. intros k' y I. apply (H' k'). now right.
Qed.
Definition pure (j : json) : Prop := nicely j /\ fixed j.
Lemma pure_empty : pure (JObj []).
Proof. split; [|reflexivity]. intros k K. now elim (kin_empty k). Qed.
Lemma pure_str t : pure (JStr t).
Proof. split; [|reflexivity]. intros k K. inversion K. Qed.
Lemma c_setp_pure k v c c' : has_char "~" k = false -> pure (c_data c) -> nicely v -> c_setp k v c = Ok c' -> pure (c_data c').
Proof.
  intros Hk (Nc & Fc) Nv H. destruct (setp_inv _ _ _ _ H) as (j & v' & r & q & -> & -> & Hc & _ & _ & Hg). cbn [c_data] in *. 
  assert (Nv' : nicely v') by (intros x K; apply Nv; eapply kin_clone; eassumption). pose proof (clone_idem _ _ Hc) as Fv. split.
  - intros x K. destruct (gset_kin _ _ _ _ _ _ Hg K) as [A|[A|A]]; [|auto|].
    + pose proof (dot_path_nice k Hk) as D. rewrite Forall_forall in D. auto.
    + destruct j; try exact (Nc _ A). now elim (kin_empty x).
  - apply fixed_numbers. intros n I. destruct (gset_numbers _ _ _ _ _ _ Hg I) as [A|A]; [exact (proj1 (fixed_numbers _) Fv n A)|].
    destruct j; try exact (proj1 (fixed_numbers _) Fc n A).
Qed.
Definition pure_state (s : rstate) : Prop := pure (c_data (fst s)) /\ (forall c, snd s = Some c -> pure (c_data c)).
Lemma pure_cx s : pure_state s -> pure (c_data (st_cx s)).
Proof. intros (A & B). unfold st_cx. destruct (snd s) as [c|] eqn:E; auto. Qed.
Lemma on_cx_pure f (s s' : rstate) : (forall c c', pure (c_data c) -> f c = Ok c' -> pure (c_data c')) -> pure_state s -> on_cx f s = Ok s' -> pure_state s'.
Proof.
  intros Hf (A & B) H. unfold on_cx in H. destruct (snd s) as [c|] eqn:E; apply bind_ok in H as (c' & H & E'); injection E' as <-; (split; cbn [fst snd]).
  - exact A.
  - intros x [= <-]. eapply Hf; [|exact H]. auto.
  - eapply Hf; eassumption.
  - intros x Hx. congruence.
Qed.
Section Pure.
  Context (es : list export).
  Hypothesis Hes : Forall (fun e => good_name (e_name e)) es.
  Lemma replace_pure k v c c' : has_char "~" k = false -> nicely v -> pure (c_data c) -> replace_ptr k v c = Ok c' -> pure (c_data c').
  Proof. unfold replace_ptr. intros Hk Wv Wc H. destruct (isref k) as [k'|] eqn:E; [|discriminate]. exact (c_setp_pure _ _ _ _ (isref_tilde _ _ Hk E) Wc Wv H). Qed.
  Lemma update_pure k f c c' : has_char "~" k = false -> pure (c_data c) -> update_ptr_local k f c = Ok c' -> pure (c_data c').
  Proof. unfold update_ptr_local, update_ptr. intros Hk Wc H. destruct (isref k); [|discriminate]. eapply c_setp_pure; [exact Hk | exact Wc | | exact H]. apply pure_str. Qed.
  Lemma entity_tilde e : In e es -> has_char "~" (entity_path (e_kind e) (e_name e)) = false.
  Proof.
    intro I. rewrite Forall_forall in Hes. destruct (Hes e I) as ((_ & _ & N) & _). unfold entity_path, kind_path. rewrite !has_char_app, N. destruct (e_kind e); reflexivity.
  Qed.
  Lemma r_set_pure p key v (s s' : rstate) : has_char "~" key = false -> nicely v -> pure_state s -> r_set es p key v s = Ok s' -> pure_state s'.
  Proof.
    intros Hk Wv Hs H. unfold r_set in H. destruct (exports_get es p) as [e|] eqn:Ee.
    - apply bind_ok in H as (s1 & H1 & H). unfold on_root in H1. apply bind_ok in H1 as (c1 & H1 & E). injection E as <-. apply exports_get_in in Ee as (Ie & _).
      eapply on_cx_pure; [|  |exact H]; [intros c c'; now apply update_pure|]. destruct Hs as (A & B). split; cbn [fst snd]; [exact (c_setp_pure _ _ _ _ (entity_tilde e Ie) A Wv H1) | exact B].
    - eapply on_cx_pure; [| exact Hs |exact H]. intros c c'. now apply replace_pure.
  Qed.
  Lemma r_rec_pure p key (s s' : rstate) : has_char "~" key = false -> pure_state s -> r_set_recursive es p key s = Ok s' -> pure_state s'.
  Proof.
    intros Hk Hs H. pose proof (proj1 pure_empty) as We. unfold r_set_recursive in H. destruct (exports_get es p) as [e|]; [destruct (is_scheme e)|]; (eapply on_cx_pure; [| exact Hs |exact H]); intros c c'; try (now apply update_pure); now apply replace_pure.
  Qed.
  Lemma iterator_pure ord fn : (forall pos l, Permutation (ord pos l) l) -> (forall p x, fn p = Ok x -> nicely x) -> forall fuel pos pp s s', pure_state s -> iterator ord es fn fuel pos pp s = Ok s' -> pure_state s'.
  Proof.
    intros Ho Hfn. induction fuel as [|fuel IH]; intros pos pp s s' Hs H; [discriminate|]. cbn [iterator] in H. apply bind_ok in H as (refs & Hr & H).
    pose proof (extract_tilde _ _ _ _ (Ho pos) (proj1 (pure_cx _ Hs)) Hr) as HT. clear Hr. revert H. generalize 0 as i. revert s Hs.
    induction refs as [|[key v] refs IHr]; intros s Hs i H; [now injection H as <-|]. inversion HT as [|? ? Hk HT']; subst. cbn [fst] in Hk. apply bind_ok in H as (s1 & H1 & H). eapply IHr; [exact HT' | |exact H].
    destruct v; try (now injection H1 as <-). apply bind_ok in H1 as (p & _ & H1). destruct (negb (is_external p)); [now injection H1 as <-|].
    destruct (path_has pp p); [eapply r_rec_pure; eassumption|]. apply bind_ok in H1 as (x & Hx & H1). apply bind_ok in H1 as (nc & Hn & H1). apply bind_ok in H1 as (r & Hr & H1).
    assert (Wn : pure (c_data nc)).
    { unfold c_make in Hn. apply bind_ok in Hn as (y & Hy & Hn). injection Hn as <-. split; [|eapply clone_idem; exact Hy]. intros k K. eapply Hfn; [exact Hx|]. eapply kin_clone; eassumption. }
    apply IH in Hr; [|destruct Hs as (A & B); split; cbn [fst snd]; [exact A | intros c [= <-]; exact Wn]].
    eapply r_set_pure; [exact Hk | exact (proj1 (pure_cx _ Hr)) | | exact H1]. destruct Hs as (A & B), Hr as (A' & B'). split; [exact A' | exact B].
  Qed.
  Lemma resolve_pure ord fn fuel c r : (forall pos l, Permutation (ord pos l) l) -> (forall p x, fn p = Ok x -> nicely x) -> nicely (c_data c) -> resolve ord es fn fuel c = Ok r -> pure (c_data r).
  Proof.
    intros Ho Hfn W H. unfold resolve in H. apply bind_ok in H as (s & H & E). injection E as <-. apply pure_cx. eapply iterator_pure; [exact Ho | exact Hfn | | exact H]. split; cbn [fst snd]; [|discriminate].
    unfold c_clone. destruct (clone (c_data c)) as [x| | |] eqn:Ec; try (split; [intros k K; inversion K | reflexivity]). cbn [c_data]. split; [|eapply clone_idem; exact Ec]. intros k K. apply W. eapply kin_clone; eassumption.
  Qed.
End Pure.
