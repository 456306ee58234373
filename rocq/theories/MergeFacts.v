(** Merge computes the key-wise merge. *)
From Coq Require Import String Ascii List Bool Arith ZArith Lia Permutation.
From Verif Require Import GoStr GoStrFacts Json JsonFacts Gabs GabsFacts Container Spec_Merge.
Import ListNotations.
Local Open Scope string_scope.
Local Open Scope nat_scope.
Local Open Scope list_scope.

Ltac wfo := match goal with H : oget _ ?m = Some ?v |- wf ?v => apply (wf_oget m _ _ ltac:(assumption) H) end.

Notation oracle := (list string -> list (string * json) -> list (string * json)).

(** Step of the loop on the destination object itself. *)
Definition lstep (rec : list (string * json) -> list (string * json) -> res (list (string * json)))
    (coll : merger) (key : string) (value : json) (d : list (string * json)) : res (list (string * json)) :=
  match oget key d with
  | None => Ok (oset key value d)
  | Some existing =>
      match value, existing with
      | JObj t, JObj e => do e' <- rec t e ; Ok (oset key (JObj e') d)
      | _, _ => match coll existing value with
                | None => Err
                | Some x => Ok (oset key x d)
                end
      end
  end.

Fixpoint lloop (step : string -> json -> list (string * json) -> res (list (string * json)))
    (es : list (string * json)) (d : list (string * json)) : res (list (string * json)) :=
  match es with
  | [] => Ok d
  | (k, v) :: es' => do d' <- step k v d ; lloop step es' d'
  end.

Fixpoint lmerge (ord : oracle) (coll : merger) (fuel : nat) (path : list string)
    (m d : list (string * json)) : res (list (string * json)) :=
  match fuel with
  | O => OutOfFuel
  | S f => lloop (fun k => lstep (lmerge ord coll f (path ++ [k])) coll k) (ord path m) d
  end.

(** One-step unfolding of the model's loop. *)
Fixpoint mloop (ord : oracle) (coll : merger) (f : nat) (path : list string)
    (es : list (string * json)) (c : cont) : res cont :=
  match es with
  | [] => Ok c
  | (key, value) :: es' =>
      let np := (path ++ [key])%list in
      do c' <- match c_search np c with
               | None => c_set value np c
               | Some existing =>
                   match value, existing with
                   | JObj t, JObj _ => merge_rec ord coll f np t c
                   | _, _ =>
                       match coll existing value with
                       | None => Err
                       | Some x => c_set x np c
                       end
                   end
               end ;
      mloop ord coll f path es' c'
  end.

Lemma merge_rec_S ord coll f path m c :
  merge_rec ord coll (S f) path m c = mloop ord coll f path (ord path m) c.
Proof.
  cbn [merge_rec]. generalize (ord path m) as es. intro es. revert c.
  induction es as [|[k v] es IH]; intro c; [reflexivity|].
  cbn - [merge_rec c_search c_set app bind].
  match goal with |- bind ?x _ = bind ?x _ => destruct x as [c'| | |] end; cbn [bind]; try reflexivity.
  apply IH.
Qed.

Definition lift (path : list string) (j : json) (r : res (list (string * json))) : res cont :=
  do d <- r ; Ok (Some (kput path (JObj d) j)).

Lemma lmerge_wf (ord : oracle) coll : perm_oracle ord -> (forall x y z, wf x -> wf y -> coll x y = Some z -> wf z) ->
  forall f path m d d', wf (JObj m) -> wf (JObj d) -> lmerge ord coll f path m d = Ok d' -> wf (JObj d').
Proof.
  intros Hord Hcoll. induction f as [|f IH]; intros path m d d' Hm Hd; [discriminate|].
  cbn [lmerge]. 
  assert (Forall (fun kv => wf (snd kv)) (ord path m)) as Hes.
  { apply wf_obj in Hm as [_ Hm]. eapply Permutation_Forall; [symmetry; apply Hord | exact Hm]. }
  revert d Hd. generalize dependent (ord path m). intros es Hes. induction es as [|[k v] es IHes]; intros d Hd.
  - now intros [= <-].
  - inversion Hes as [|? ? Hv Hes']; subst. cbn in Hv. cbn [lloop].
    destruct (lstep _ coll k v d) as [d1| | |] eqn:Es; cbn [bind]; try discriminate.
    apply IHes; [exact Hes'|]. unfold lstep in Es.
    destruct (oget k d) as [x|] eqn:Eg.
    + assert (wf x) as Hx by (wfo).
      assert (forall y, coll x v = Some y -> wf (JObj (oset k y d))) as Hc.
      { intros y Hy. apply wf_oset; [exact Hd|]. eapply Hcoll; [| |exact Hy]; assumption. }
      destruct v as [| | | | |t]; try (destruct (coll x _) eqn:Ec; [injection Es as <-; now apply Hc | discriminate]).
      destruct x as [| | | | |e]; try (destruct (coll _ (JObj t)) eqn:Ec; [injection Es as <-; now apply Hc | discriminate]).
      destruct (lmerge ord coll f (path ++ [k]) t e) as [e'| | |] eqn:Er; cbn [bind] in Es; try discriminate.
      injection Es as <-. apply wf_oset; [exact Hd|]. eapply IH; [| |exact Er]; assumption.
    + injection Es as <-. now apply wf_oset.
Qed.

Lemma lstep_spec rec coll k v d d' : lstep rec coll k v d = Ok d' ->
  forall k', k' <> k -> oget k' d' = oget k' d.
Proof.
  unfold lstep. intros H k' N.
  destruct (oget k d) as [x|].
  - assert (forall y, Ok (oset k y d) = Ok d' -> oget k' d' = oget k' d) as Hc.
    { intros y [= <-]. now apply oget_oset_other. }
    destruct v as [| | | | |t]; try (destruct (coll x _); [eapply Hc, H | discriminate]).
    destruct x as [| | | | |e]; try (destruct (coll _ (JObj t)); [eapply Hc, H | discriminate]).
    destruct (rec t e); cbn [bind] in H; try discriminate. eapply Hc, H.
  - injection H as <-. now apply oget_oset_other.
Qed.

(** The loop over the whole document only touches the object at [path]. *)
Lemma merge_rec_local (ord : oracle) coll : perm_oracle ord -> (forall x y z, wf x -> wf y -> coll x y = Some z -> wf z) ->
  forall f path m j d, wf (JObj m) -> wf j -> kget path j = Some (JObj d) ->
  merge_rec ord coll f path m (Some j) = lift path j (lmerge ord coll f path m d).
Proof.
  intros Hord Hcoll. induction f as [|f IH]; intros path m j d Hm Hj Hd; [reflexivity|].
  rewrite merge_rec_S. cbn [lmerge].
  assert (Forall (fun kv => wf (snd kv)) (ord path m)) as Hes.
  { apply wf_obj in Hm as [_ Hm]. eapply Permutation_Forall; [symmetry; apply Hord | exact Hm]. }
  generalize dependent (ord path m). intros es. revert j d Hj Hd.
  induction es as [|[k v] es IHes]; intros j d Hj Hd Hes.
  - cbn. now rewrite kput_same.
  - inversion Hes as [|? ? Hv Hes']; subst. cbn in Hv.
    assert (wf (JObj d)) as Hwd by exact (kget_wf _ _ _ Hj Hd).
    cbn [mloop lloop]. cbv zeta.
    assert (c_search (path ++ [k]) (Some j) = oget k d) as ->.
    { unfold c_search, c_data. now apply search_snoc. }
    assert (Hset : forall x, c_set x (path ++ [k]) (Some j) = Ok (Some (kput path (JObj (oset k x d)) j))).
    { intro x. unfold c_set, root_set. destruct (path ++ [k]) eqn:E; [destruct path; discriminate|].
      rewrite <- E. assert (match j with JNull => JObj [] | _ => j end = j) as ->.
      { destruct j; try reflexivity. destruct path; discriminate. }
      rewrite (gset_snoc true path k x j d Hd). reflexivity. }
    assert (Hnext : forall x, wf x ->
      mloop ord coll f path es (Some (kput path (JObj (oset k x d)) j)) =
      lift path j (lloop (fun k => lstep (lmerge ord coll f (path ++ [k])) coll k) es (oset k x d))).
    { intros x Hx. assert (wf (JObj (oset k x d))) as Hwx by now apply wf_oset.
      rewrite (IHes _ (oset k x d)); [ | now apply kput_wf | eapply kget_kput, Hd | exact Hes'].
      unfold lift. destruct (lloop _ es _); cbn [bind]; try reflexivity.
      now rewrite (kput_kput _ _ _ _ _ Hj Hd). }
    unfold lstep. destruct (oget k d) as [x|] eqn:Eg.
    + assert (wf x) as Hx by (wfo).
      destruct v as [| | | | |t];
        try (destruct (coll x _) eqn:Ec; [rewrite Hset; cbn [bind]; apply Hnext; eapply Hcoll; [| |exact Ec]; assumption | reflexivity]).
      destruct x as [| | | | |e];
        try (destruct (coll _ (JObj t)) eqn:Ec; [rewrite Hset; cbn [bind]; apply Hnext; eapply Hcoll; [| |exact Ec]; assumption | reflexivity]).
      rewrite (IH (path ++ [k]) t j e Hv Hj).
      2:{ rewrite kget_app, Hd. cbn. now rewrite Eg. }
      unfold lift at 1. destruct (lmerge ord coll f (path ++ [k]) t e) as [e'| | |] eqn:Er; cbn [bind]; try reflexivity.
      rewrite (kput_app path [k] _ _ _ Hd). cbn [kput]. rewrite Eg.
      apply Hnext. eapply lmerge_wf; [exact Hord | exact Hcoll | | | exact Er]; assumption.
    + rewrite Hset. cbn [bind]. now apply Hnext.
Qed.

(** *** the loop on one object, key by key *)

(** What happens to the destination's entry [o] under a key the source maps to [v]. *)
Definition keyres (rec : list (string * json) -> list (string * json) -> res (list (string * json)))
    (coll : merger) (v : json) (o : option json) : res json :=
  match o with
  | None => Ok v
  | Some x =>
      match v, x with
      | JObj t, JObj e => do e' <- rec t e ; Ok (JObj e')
      | _, _ => match coll x v with None => Err | Some y => Ok y end
      end
  end.

Lemma lstep_keyres rec coll k v d :
  lstep rec coll k v d = do x <- keyres rec coll v (oget k d) ; Ok (oset k x d).
Proof.
  unfold lstep, keyres. destruct (oget k d) as [x|]; [|reflexivity].
  destruct v as [| | | | |t]; try (destruct (coll x _); reflexivity).
  destruct x as [| | | | |e]; try (destruct (coll _ (JObj t)); reflexivity).
  destruct (rec t e); reflexivity.
Qed.

Lemma lloop_ok (rec : string -> list (string * json) -> list (string * json) -> res (list (string * json))) coll es :
  NoDup (keys es) -> forall d r, sorted d ->
  lloop (fun k => lstep (rec k) coll k) es d = Ok r ->
  sorted r /\
  (forall k v, In (k, v) es -> exists x, keyres (rec k) coll v (oget k d) = Ok x /\ oget k r = Some x) /\
  (forall k, ~ In k (keys es) -> oget k r = oget k d).
Proof.
  induction es as [|[k v] es IH]; intros HN d r Hd H.
  - injection H as <-. split; [exact Hd|]. split; [intros k v [] | auto].
  - cbn [lloop] in H. rewrite lstep_keyres in H.
    destruct (keyres (rec k) coll v (oget k d)) as [x| | |] eqn:E; cbn [bind] in H; try discriminate.
    cbn in HN. inversion HN as [|? ? Hnin HN']; subst.
    destruct (IH HN' _ _ (sorted_oset k x d Hd) H) as (Hs & Hin & Hout).
    split; [exact Hs|]. split.
    + intros k' v' [Ek|Hk].
      * injection Ek as -> ->. exists x. split; [exact E|].
        rewrite (Hout k' Hnin). apply oget_oset_same.
      * assert (k' <> k) as N by (intros ->; apply Hnin, in_map_iff; exists (k, v'); auto).
        destruct (Hin k' v' Hk) as (y & Hy & Hr). exists y. split; [|exact Hr].
        now rewrite oget_oset_other in Hy.
    + intros k' Hk. cbn in Hk. rewrite Hout by tauto. apply oget_oset_other. intuition.
Qed.

Lemma lloop_total (rec : string -> list (string * json) -> list (string * json) -> res (list (string * json))) coll es :
  NoDup (keys es) -> forall d, sorted d ->
  (forall k v, In (k, v) es -> exists x, keyres (rec k) coll v (oget k d) = Ok x) ->
  exists r, lloop (fun k => lstep (rec k) coll k) es d = Ok r.
Proof.
  induction es as [|[k v] es IH]; intros HN d Hd H; [exists d; reflexivity|].
  cbn in HN. inversion HN as [|? ? Hnin HN']; subst.
  destruct (H k v (or_introl eq_refl)) as [x E]. cbn [lloop]. rewrite lstep_keyres, E. cbn [bind].
  apply IH; [exact HN' | now apply sorted_oset|].
  intros k' v' Hin. assert (k' <> k) as N by (intros ->; apply Hnin, in_map_iff; exists (k, v'); auto).
  rewrite oget_oset_other by exact N. apply H. now right.
Qed.

Lemma lloop_fail (rec : string -> list (string * json) -> list (string * json) -> res (list (string * json))) coll es :
  NoDup (keys es) -> forall d, sorted d ->
  (forall k v, In (k, v) es -> keyres (rec k) coll v (oget k d) <> Panic /\ keyres (rec k) coll v (oget k d) <> OutOfFuel) ->
  (exists r, lloop (fun k => lstep (rec k) coll k) es d = Ok r) \/
  (lloop (fun k => lstep (rec k) coll k) es d = Err /\
   exists k v, In (k, v) es /\ keyres (rec k) coll v (oget k d) = Err).
Proof.
  induction es as [|[k v] es IH]; intros HN d Hd H; [left; exists d; reflexivity|].
  cbn in HN. inversion HN as [|? ? Hnin HN']; subst.
  pose proof (H k v (or_introl eq_refl)) as H0. cbn [lloop]. rewrite lstep_keyres.
  destruct (keyres (rec k) coll v (oget k d)) as [x| | |] eqn:E; cbn [bind]; [| |tauto|tauto].
  - destruct (IH HN' (oset k x d) (sorted_oset k x d Hd)) as [Hok|(Hf & k' & v' & Hin & He)].
    + intros k' v' Hin. assert (k' <> k) as N by (intros ->; apply Hnin, in_map_iff; exists (k, v'); auto).
      rewrite oget_oset_other by exact N. apply H. now right.
    + left. exact Hok.
    + right. split; [exact Hf|]. exists k', v'. split; [now right|].
      assert (k' <> k) as N by (intros ->; apply Hnin, in_map_iff; exists (k, v'); auto).
      now rewrite oget_oset_other in He.
  - right. split; [reflexivity|]. exists k, v. split; [now left | exact E].
Qed.

Lemma ord_props (ord : oracle) path m : perm_oracle ord -> sorted m ->
  NoDup (keys (ord path m)) /\ (forall k v, In (k, v) (ord path m) <-> oget k m = Some v) /\
  (forall k, In k (keys (ord path m)) <-> In k (keys m)).
Proof.
  intros Hord Hs. assert (Permutation (ord path m) m) as HP by apply Hord.
  split; [|split].
  - eapply Permutation_NoDup; [apply Permutation_map; symmetry; exact HP | now apply sorted_nodup].
  - intros k v. split; intro H.
    + apply sorted_in_oget; [exact Hs|]. eapply Permutation_in; eassumption.
    + apply oget_in in H. eapply Permutation_in; [symmetry; exact HP | exact H].
  - intro k. split; apply Permutation_in; [|symmetry]; apply Permutation_map, HP.
Qed.

Lemma is_obj_inv j : is_obj j = true -> exists m, j = JObj m.
Proof. destruct j; try discriminate. eauto. Qed.

(** The three cases of [keyres]. *)
Lemma keyres_cases rec coll v o :
  (o = None /\ keyres rec coll v o = Ok v) \/
  (exists t e, o = Some (JObj e) /\ v = JObj t /\ keyres rec coll v o = do e' <- rec t e ; Ok (JObj e')) \/
  (exists x, o = Some x /\ is_obj x && is_obj v = false /\
             keyres rec coll v o = match coll x v with None => Err | Some y => Ok y end).
Proof.
  destruct o as [x|]; [|left; auto]. right.
  destruct v as [| | | | |t]; try (right; exists x; split; [reflexivity|split; [now rewrite andb_false_r | reflexivity]]).
  destruct x as [| | | | |e]; try (right; eexists; split; [reflexivity|split; reflexivity]).
  left. exists t, e. auto.
Qed.

Lemma lmerge_sound (ord : oracle) coll : perm_oracle ord ->
  forall f path m d r, wf (JObj m) -> wf (JObj d) ->
  lmerge ord coll f path m d = Ok r -> merged coll (JObj d) (JObj m) (JObj r).
Proof.
  intros Hord. induction f as [|f IH]; intros path m d r Hm Hd H; [discriminate|].
  cbn [lmerge] in H. destruct (ord_props ord path m Hord (wf_sorted _ Hm)) as (HN & Hin & Hk).
  destruct (lloop_ok _ coll _ HN d r (wf_sorted _ Hd) H) as (Hs & H1 & H2).
  constructor; [exact Hs|]. intro k. destruct (oget k m) as [v|] eqn:Em.
  - destruct (H1 k v (proj2 (Hin k v) Em)) as (x & Hx & ->).
    destruct (keyres_cases (lmerge ord coll f (path ++ [k])) coll v (oget k d)) as [[Ho E]|[(t & e & Ho & -> & E)|(y & Ho & Hno & E)]];
      rewrite E in Hx.
    + injection Hx as <-. rewrite Ho. constructor.
    + destruct (lmerge ord coll f (path ++ [k]) t e) as [e'| | |] eqn:Er; cbn [bind] in Hx; try discriminate.
      injection Hx as <-. rewrite Ho. apply mk_both; [reflexivity | reflexivity|].
      eapply IH; [| | exact Er]; wfo.
    + rewrite Ho. apply mk_coll; [exact Hno|]. destruct (coll y v); congruence.
  - rewrite H2 by (rewrite Hk; now apply oget_none). destruct (oget k d); constructor.
Qed.

Lemma lmerge_no_panic (ord : oracle) coll : perm_oracle ord ->
  forall f path m d, wf (JObj m) -> wf (JObj d) -> height (JObj m) <= f ->
  (exists r, lmerge ord coll f path m d = Ok r) \/
  (lmerge ord coll f path m d = Err /\ rejected coll (JObj d) (JObj m)).
Proof.
  intros Hord. induction f as [|f IH]; intros path m d Hm Hd Hf; [cbn in Hf; lia|].
  cbn [lmerge]. destruct (ord_props ord path m Hord (wf_sorted _ Hm)) as (HN & Hin & Hk).
  assert (Hsub : forall k t e, oget k m = Some (JObj t) -> oget k d = Some (JObj e) ->
     (exists r, lmerge ord coll f (path ++ [k]) t e = Ok r) \/
     (lmerge ord coll f (path ++ [k]) t e = Err /\ rejected coll (JObj e) (JObj t))).
  { intros k t e Ht He. apply IH; [wfo | wfo|].
    pose proof (height_oget _ _ _ Ht). lia. }
  destruct (lloop_fail (fun k => lmerge ord coll f (path ++ [k])) coll _ HN d (wf_sorted _ Hd)) as [Hok|(He & k & v & Hkv & Hkr)].
  - intros k v Hkv. apply Hin in Hkv.
    destruct (keyres_cases (lmerge ord coll f (path ++ [k])) coll v (oget k d)) as [[_ E]|[(t & e & Ho & -> & E)|(y & _ & _ & E)]]; rewrite E.
    + split; discriminate.
    + destruct (Hsub k t e Hkv Ho) as [[r ->]|[-> _]]; split; discriminate.
    + destruct (coll y v); split; discriminate.
  - left. exact Hok.
  - right. split; [exact He|]. apply Hin in Hkv.
    destruct (keyres_cases (lmerge ord coll f (path ++ [k])) coll v (oget k d)) as [[_ E]|[(t & e & Ho & -> & E)|(y & Ho & Hno & E)]]; rewrite E in Hkr.
    + discriminate.
    + destruct (Hsub k t e Hkv Ho) as [[r Hr]|[_ Hrej]]; [rewrite Hr in Hkr; discriminate|].
      destruct Hrej as (p & x & y & H1 & H2 & H3 & H4). exists (k :: p), x, y. cbn. rewrite Ho, Hkv. auto.
    + exists [k], y, v. cbn. rewrite Ho, Hkv. split; [reflexivity|]. split; [reflexivity|]. split; [exact Hno|].
      destruct (coll y v); [discriminate | reflexivity].
Qed.

(** *** the specification is functional and excludes rejection *)
Lemma merged_inv coll d s r : merged coll (JObj d) (JObj s) r ->
  exists m, r = JObj m /\ sorted m /\ forall k, merged_key coll (oget k d) (oget k s) (oget k m).
Proof. intro H. inversion H; subst. eauto. Qed.

Lemma merged_objs coll d s r : merged coll d s r -> exists a b c, d = JObj a /\ s = JObj b /\ r = JObj c.
Proof. intro H; inversion H; subst; eauto 6. Qed.

Lemma merged_fun coll s : forall d r1 r2, merged coll d s r1 -> merged coll d s r2 -> r1 = r2.
Proof.
  induction s as [| | | | |m IH] using json_induction; intros d r1 r2 H1 H2;
    try (inversion H1; fail).
  destruct (merged_objs _ _ _ _ H1) as (d0 & b & c & -> & [= <-] & ->).
  destruct (merged_inv _ _ _ _ H1) as (m1 & [= <-] & S1 & K1).
  destruct (merged_inv _ _ _ _ H2) as (m2 & -> & S2 & K2).
  f_equal. apply obj_ext; [exact S1 | exact S2|]. intro k. specialize (K1 k). specialize (K2 k).
  destruct (oget k m) as [v|] eqn:E.
  - inversion K1 as [| |v1 E1|d1 s1 r1 Hd1 Hs1 M1 E1 E1' E1''|d1 s1 r1 N1 C1 E1 E1' E1'']; subst;
    inversion K2 as [| |v2 E2|d2 s2 r2 Hd2 Hs2 M2 E2 E2' E2''|d2 s2 r2 N2 C2 E2 E2' E2'']; subst; try congruence.
    + assert (d2 = d1) by congruence. subst. f_equal.
      rewrite Forall_forall in IH. apply oget_in in E. eapply (IH (k, v) E); eassumption.
    + assert (d2 = d1) by congruence. subst. rewrite Hd1, Hs1 in N2. discriminate.
    + assert (d2 = d1) by congruence. subst. rewrite Hd2, Hs2 in N1. discriminate.
  - inversion K1; subst; inversion K2; subst; congruence.
Qed.

Lemma merged_not_rejected coll d s r : merged coll d s r -> ~ rejected coll d s.
Proof.
  intros H (p & x & y & H1 & H2 & H3 & H4). revert d s r H H1 H2.
  induction p as [|k p IH]; intros d s r H H1 H2.
  - cbn in H1, H2. injection H1 as ->. injection H2 as ->.
    destruct (merged_objs _ _ _ _ H) as (a & b & c & -> & -> & ->). discriminate.
  - destruct (merged_objs _ _ _ _ H) as (a & b & c & -> & -> & ->).
    destruct (merged_inv _ _ _ _ H) as (m & [= <-] & _ & K). specialize (K k). cbn in H1, H2.
    destruct (oget k a) as [va|]; [|discriminate]. destruct (oget k b) as [vb|]; [|discriminate].
    inversion K as [| | |d1 s1 r1 Hd1 Hs1 M1|d1 s1 r1 N1 C1]; subst.
    + eapply IH; eassumption.
    + destruct p as [|k' p].
      * cbn in H1, H2. congruence.
      * cbn in H1, H2. destruct va; try discriminate; destruct vb; discriminate.
Qed.

(** *** cloning *)
Lemma clone_arr l : clone (JArr l) =
  do l' <- (fix go (l : list json) : res (list json) :=
              match l with
              | [] => Ok []
              | x :: r => do x' <- clone x ; do r' <- go r ; Ok (x' :: r')
              end) l ; Ok (JArr l').
Proof. reflexivity. Qed.

Fixpoint clone_list (l : list json) : res (list json) :=
  match l with
  | [] => Ok []
  | x :: r => do x' <- clone x ; do r' <- clone_list r ; Ok (x' :: r')
  end.
Fixpoint clone_map (m : list (string * json)) : res (list (string * json)) :=
  match m with
  | [] => Ok []
  | (k, x) :: r => do x' <- clone x ; do r' <- clone_map r ; Ok ((k, x') :: r')
  end.
Lemma clone_arr_eq l : clone (JArr l) = do l' <- clone_list l ; Ok (JArr l').
Proof. reflexivity. Qed.
Lemma clone_obj_eq m : clone (JObj m) = do m' <- clone_map m ; Ok (JObj m').
Proof. reflexivity. Qed.

Lemma bind_ok {A B} (r : res A) (f : A -> res B) b : bind r f = Ok b -> exists a, r = Ok a /\ f a = Ok b.
Proof. destruct r; cbn; try discriminate. eauto. Qed.

Lemma clone_list_ok l l' : clone_list l = Ok l' -> Forall2 (fun x y => clone x = Ok y) l l'.
Proof.
  revert l'; induction l as [|x l IH]; intros l' H; cbn in H.
  - injection H as <-. constructor.
  - apply bind_ok in H as (y & Hy & H). apply bind_ok in H as (r & Hr & H). injection H as <-. constructor; auto.
Qed.

Lemma clone_map_ok m m' : clone_map m = Ok m' ->
  Forall2 (fun x y => fst x = fst y /\ clone (snd x) = Ok (snd y)) m m'.
Proof.
  revert m'; induction m as [|[k x] m IH]; intros m' H; cbn in H.
  - injection H as <-. constructor.
  - apply bind_ok in H as (y & Hy & H). apply bind_ok in H as (r & Hr & H). injection H as <-. constructor; auto.
Qed.

Lemma clone_map_oget m m' k : clone_map m = Ok m' ->
  match oget k m with
  | Some v => exists v', oget k m' = Some v' /\ clone v = Ok v'
  | None => oget k m' = None
  end.
Proof.
  intro H. apply clone_map_ok in H. induction H as [|[a x] [b y] m m' [E Hc] _ IH]; cbn; [reflexivity|].
  cbn in E, Hc. subst b. destruct (String.eqb k a); [eauto | exact IH].
Qed.

Lemma clone_map_sorted m m' : clone_map m = Ok m' -> sorted m -> sorted m'.
Proof.
  intro H. apply clone_map_ok in H. induction H as [|[a x] [b y] m m' [E Hc] HF IH]; intro Hs; [exact I|].
  cbn in E. subst b. destruct Hs as [Hlt Hs]. cbn. split; [|now apply IH].
  destruct HF as [|[c z] [e w] ? ? [E' _] _]; [exact I|]. cbn in E'. now subst e.
Qed.

Lemma clone_wf j : forall j', wf j -> clone j = Ok j' -> wf j'.
Proof.
  induction j as [| | n | | l IH | m IH] using json_induction; intros j' Hw H.
  - injection H as <-. exact I.
  - injection H as <-. exact I.
  - destruct n; cbn in H; try discriminate; injection H as <-; exact I.
  - injection H as <-. exact I.
  - rewrite clone_arr_eq in H. apply bind_ok in H as (l' & Hl & H). injection H as <-.
    apply wf_arr in Hw. apply wf_arr. apply clone_list_ok in Hl.
    induction Hl as [|x y l l' Hxy _ IHl]; constructor; inversion IH; inversion Hw; subst; auto.
  - rewrite clone_obj_eq in H. apply bind_ok in H as (m' & Hm & H). injection H as <-.
    apply wf_obj in Hw as [Hs Hw]. apply wf_obj. split; [eapply clone_map_sorted; eassumption|].
    apply clone_map_ok in Hm. clear Hs.
    induction Hm as [|x y m m' [Hk Hc] _ IHm]; constructor; inversion IH; inversion Hw; subst; auto.
Qed.

Lemma clone_cases j : (exists j', clone j = Ok j') \/ clone j = Err.
Proof.
  induction j as [| | n | | l IH | m IH] using json_induction; try (left; eexists; reflexivity).
  - destruct n; [left | left | right]; cbn; eauto.
  - rewrite clone_arr_eq. assert ((exists l', clone_list l = Ok l') \/ clone_list l = Err) as [[l' ->]| ->].
    { induction IH as [|x l Hx _ IHl]; cbn; [left; eauto|].
      destruct Hx as [[x' ->]| ->]; cbn; [|auto]. destruct IHl as [[l' ->]| ->]; cbn; eauto. }
    + left; cbn; eauto.
    + right; reflexivity.
  - rewrite clone_obj_eq. assert ((exists l', clone_map m = Ok l') \/ clone_map m = Err) as [[l' ->]| ->].
    { induction IH as [|[k x] l Hx _ IHl]; cbn; [left; eauto|]. cbn in Hx.
      destruct Hx as [[x' ->]| ->]; cbn; [|auto]. destruct IHl as [[l' ->]| ->]; cbn; eauto. }
    + left; cbn; eauto.
    + right; reflexivity.
Qed.

Lemma clone_obj_inv m j : clone (JObj m) = Ok j -> exists m', j = JObj m' /\ clone_map m = Ok m'.
Proof. rewrite clone_obj_eq. intro H. apply bind_ok in H as (m' & Hm & H). injection H as <-. eauto. Qed.

(** A rule that returns canonical values for canonical arguments. *)
Definition good_rule (coll : merger) : Prop := forall x y z, wf x -> wf y -> coll x y = Some z -> wf z.
Lemma good_strict : good_rule merge_strict. Proof. intros x y z _ _; discriminate. Qed.
Lemma good_default : good_rule merge_default. Proof. intros x y z Hx _ [= <-]. exact Hx. Qed.
Lemma good_override : good_rule merge_override. Proof. intros x y z _ Hy [= <-]. exact Hy. Qed.

(** Merge of objects, characterised. *)
Lemma c_merge_obj (ord : oracle) coll d s s' : perm_oracle ord -> good_rule coll ->
  wf (JObj d) -> wf (JObj s) -> clone (JObj s) = Ok s' ->
  (exists r, c_merge ord coll (Some (JObj d)) (Some (JObj s)) = Ok (Some r) /\ wf r /\ merged coll (JObj d) s' r) \/
  (c_merge ord coll (Some (JObj d)) (Some (JObj s)) = Err /\ rejected coll (JObj d) s').
Proof.
  intros Hord Hcoll Hd Hs Hc. pose proof (clone_wf _ _ Hs Hc) as Hs'.
  destruct (clone_obj_inv _ _ Hc) as (m & -> & _).
  unfold c_merge, c_clone, c_data. rewrite Hc.
  rewrite (merge_rec_local ord coll Hord Hcoll _ [] m (JObj d) d Hs' Hd eq_refl).
  destruct (lmerge_no_panic ord coll Hord (height (JObj m)) [] m d Hs' Hd (le_n _)) as [[r Hr]|[Hr Hrej]].
  - left. exists (JObj r). rewrite Hr. split; [reflexivity|]. split.
    + eapply lmerge_wf; [exact Hord | exact Hcoll | | | exact Hr]; assumption.
    + eapply lmerge_sound; [exact Hord | | | exact Hr]; assumption.
  - right. rewrite Hr. split; [reflexivity | exact Hrej].
Qed.

Lemma c_merge_iff (ord : oracle) coll d s s' : perm_oracle ord -> good_rule coll ->
  wf (JObj d) -> wf (JObj s) -> clone (JObj s) = Ok s' ->
  (forall r, c_merge ord coll (Some (JObj d)) (Some (JObj s)) = Ok (Some r) <-> merged coll (JObj d) s' r) /\
  (c_merge ord coll (Some (JObj d)) (Some (JObj s)) = Err <-> rejected coll (JObj d) s').
Proof.
  intros Hord Hcoll Hd Hs Hc.
  destruct (c_merge_obj ord coll d s s' Hord Hcoll Hd Hs Hc) as [(r & Hr & _ & HM)|[Hr Hrej]]; rewrite Hr.
  - split.
    + intro r'. split; [now intros [= <-]|]. intro HM'. now rewrite (merged_fun _ _ _ _ _ HM HM').
    + split; [discriminate|]. intro Hrej. exfalso. eapply merged_not_rejected; eassumption.
  - split.
    + intro r'. split; [discriminate|]. intro HM. exfalso. eapply merged_not_rejected; eassumption.
    + tauto.
Qed.
