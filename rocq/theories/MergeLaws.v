(** Laws of default, override and strict merging. *)
From Coq Require Import String Ascii List Bool Arith ZArith Lia Permutation.
From Verif Require Import GoStr GoStrFacts Json JsonFacts Gabs GabsFacts Container Spec_Merge MergeFacts.
Import ListNotations.
Local Open Scope string_scope.
Local Open Scope nat_scope.
Local Open Scope list_scope.

Definition id_ord : oracle := fun _ m => m.
Lemma id_ord_perm : perm_oracle id_ord. Proof. intros p l. apply Permutation_refl. Qed.

Lemma merged_total coll d s : good_rule coll -> wf (JObj d) -> wf (JObj s) ->
  (exists r, wf r /\ merged coll (JObj d) (JObj s) r) \/ rejected coll (JObj d) (JObj s).
Proof.
  intros Hc Hd Hs.
  destruct (lmerge_no_panic id_ord coll id_ord_perm (height (JObj s)) [] s d Hs Hd (le_n _)) as [[r Hr]|[_ Hr]]; [left|now right].
  exists (JObj r). split.
  - eapply lmerge_wf; [exact id_ord_perm | exact Hc | exact Hs | exact Hd | exact Hr].
  - eapply lmerge_sound; [exact id_ord_perm | exact Hs | exact Hd | exact Hr].
Qed.

(** *** default and override *)
Lemma not_rejected_default d s : ~ rejected merge_default d s.
Proof. intros (p & x & y & _ & _ & _ & H). discriminate. Qed.
Lemma not_rejected_override d s : ~ rejected merge_override d s.
Proof. intros (p & x & y & _ & _ & _ & H). discriminate. Qed.

Lemma merged_default_leaf p : forall d s r v, merged merge_default d s r -> leaf_at p d v -> leaf_at p r v.
Proof.
  induction p as [|k p IH]; intros d s r v HM [Hp Hl].
  - cbn in Hp. injection Hp as ->. destruct (merged_objs _ _ _ _ HM) as (a & b & c & -> & _ & _). discriminate.
  - destruct (merged_objs _ _ _ _ HM) as (a & b & c & -> & -> & ->).
    destruct (merged_inv _ _ _ _ HM) as (m & [= <-] & _ & K). specialize (K k).
    cbn in Hp. destruct (oget k a) as [x|] eqn:Ea; [|discriminate].
    assert (Hx : leaf_at p x v) by (split; assumption).
    inversion K as [|x' E1 E2 E3| |x' y r' Hx' Hy HM' E1 E2 E3|x' y r' N C E1 E2 E3]; subst.
    + split; [cbn; now rewrite <- E3 | exact Hl].
    + destruct (IH _ _ _ _ HM' Hx) as [Hr _]. split; [cbn; now rewrite <- E3 | exact Hl].
    + injection C as <-. split; [cbn; now rewrite <- E3 | exact Hl].
Qed.

Lemma merged_override_leaf p : forall d s r v, merged merge_override d s r -> leaf_at p s v -> leaf_at p r v.
Proof.
  induction p as [|k p IH]; intros d s r v HM [Hp Hl].
  - cbn in Hp. injection Hp as ->. destruct (merged_objs _ _ _ _ HM) as (a & b & c & _ & -> & _). discriminate.
  - destruct (merged_objs _ _ _ _ HM) as (a & b & c & -> & -> & ->).
    destruct (merged_inv _ _ _ _ HM) as (m & [= <-] & _ & K). specialize (K k).
    cbn in Hp. destruct (oget k b) as [x|] eqn:Ea; [|discriminate].
    assert (Hx : leaf_at p x v) by (split; assumption).
    inversion K as [| |x' E1 E2 E3|x' y r' Hx' Hy HM' E1 E2 E3|x' y r' N C E1 E2 E3]; subst.
    + split; [cbn; now rewrite <- E3 | exact Hl].
    + destruct (IH _ _ _ _ HM' Hx) as [Hr _]. split; [cbn; now rewrite <- E3 | exact Hl].
    + injection C as <-. split; [cbn; now rewrite <- E3 | exact Hl].
Qed.

Scheme merged_ind2 := Induction for merged Sort Prop
  with merged_key_ind2 := Induction for merged_key Sort Prop.

Lemma default_override_dual d s r : merged merge_default d s r -> merged merge_override s d r.
Proof.
  intro H. induction H using merged_ind2 with
    (P0 := fun a b c _ => merged_key merge_override b a c).
  - constructor; auto.
  - constructor.
  - constructor.
  - constructor.
  - apply mk_both; auto.
  - apply mk_coll; [rewrite andb_comm; assumption|]. unfold merge_default, merge_override in *. congruence.
Qed.
Lemma override_default_dual d s r : merged merge_override d s r -> merged merge_default s d r.
Proof.
  intro H. induction H using merged_ind2 with
    (P0 := fun a b c _ => merged_key merge_default b a c).
  - constructor; auto.
  - constructor.
  - constructor.
  - constructor.
  - apply mk_both; auto.
  - apply mk_coll; [rewrite andb_comm; assumption|]. unfold merge_default, merge_override in *. congruence.
Qed.

(** A document merged into itself. *)
Lemma merged_self coll (Hc : forall x, coll x x = Some x) j : wf j -> is_obj j = true -> merged coll j j j.
Proof.
  induction j as [| | | | |m IH] using json_induction; intros Hw Ho; try discriminate.
  constructor; [eapply wf_sorted, Hw|]. intro k. destruct (oget k m) as [v|] eqn:E; [|constructor].
  assert (wf v) by (eapply wf_oget; eassumption).
  destruct (is_obj v) eqn:Ev.
  - apply mk_both; auto. rewrite Forall_forall in IH. apply oget_in in E. apply (IH (k, v) E); auto.
  - apply mk_coll; [now rewrite Ev | apply Hc].
Qed.

(** *** strict: pointwise union of locations *)
Definition comb (a b : option node) : option (option node) :=
  match a, b with
  | None, x | x, None => Some x
  | Some NObj, Some NObj => Some (Some NObj)
  | _, _ => None
  end.
(** With the conflict element, a total operation. *)
Definition comb' (a b : option (option node)) : option (option node) :=
  match a, b with
  | Some x, Some y => comb x y
  | _, _ => None
  end.

Lemma comb_comm a b : comb a b = comb b a.
Proof. destruct a as [[|]|], b as [[|]|]; reflexivity. Qed.
Lemma comb'_swap c a b : comb' (comb' c a) b = comb' (comb' c b) a.
Proof. destruct c as [[[|]|]|], a as [[[|]|]|], b as [[[|]|]|]; reflexivity. Qed.

Lemma at_path_kget p j : at_path p j = kget p j.
Proof. revert j; induction p as [|k p IH]; intro j; cbn; [reflexivity|]. destruct j; try reflexivity; destruct (oget k m); auto. Qed.

Lemma node_nil j : node_at [] j <> None.
Proof. unfold node_at. cbn. destruct j; discriminate. Qed.

Lemma node_cons k p m : node_at (k :: p) (JObj m) = match oget k m with Some v => node_at p v | None => None end.
Proof. unfold node_at. cbn. destruct (oget k m); reflexivity. Qed.

Lemma node_ext j1 : forall j2, wf j1 -> wf j2 -> (forall p, node_at p j1 = node_at p j2) -> j1 = j2.
Proof.
  induction j1 as [| | | | |m IH] using json_induction; intros j2 H1 H2 E;
    try (pose proof (E []) as E0; unfold node_at in E0; cbn in E0; destruct j2; congruence).
  assert (exists m2, j2 = JObj m2) as [m2 ->].
  { pose proof (E []) as E0; unfold node_at in E0; cbn in E0; destruct j2; try congruence; eauto. }
  f_equal. apply obj_ext; [eapply wf_sorted, H1 | eapply wf_sorted, H2|].
  intro k. assert (Ek : forall p, match oget k m with Some v => node_at p v | None => None end
                            = match oget k m2 with Some v => node_at p v | None => None end).
  { intro p. rewrite <- !node_cons. apply E. }
  destruct (oget k m) as [v1|] eqn:G1, (oget k m2) as [v2|] eqn:G2.
  - f_equal. rewrite Forall_forall in IH. apply (IH (k, v1) (oget_in _ _ _ G1)).
    + exact (wf_oget _ _ _ H1 G1).
    + exact (wf_oget _ _ _ H2 G2).
    + exact Ek.
  - exfalso. apply (node_nil v1). apply (Ek []).
  - exfalso. apply (node_nil v2). symmetry. apply (Ek []).
  - reflexivity.
Qed.

Lemma strict_nodes p : forall d s r, merged merge_strict d s r -> comb (node_at p d) (node_at p s) = Some (node_at p r).
Proof.
  induction p as [|k p IH]; intros d s r HM; destruct (merged_objs _ _ _ _ HM) as (a & b & c & -> & -> & ->).
  - reflexivity.
  - destruct (merged_inv _ _ _ _ HM) as (m & [= <-] & _ & K). specialize (K k).
    rewrite !node_cons. inversion K as [E1 E2 E3|x E1 E2 E3|x E1 E2 E3|x y r' Hx' Hy HM' E1 E2 E3|x y r' N C E1 E2 E3]; subst.
    + reflexivity.
    + destruct (node_at p x) as [[|]|]; reflexivity.
    + destruct (node_at p x) as [[|]|]; reflexivity.
    + now apply IH.
    + discriminate.
Qed.

Lemma strict_rejected d s : rejected merge_strict d s -> exists p, comb (node_at p d) (node_at p s) = None.
Proof.
  intros (p & x & y & H1 & H2 & H3 & _). exists p. unfold node_at. rewrite H1, H2.
  destruct x, y; try discriminate; reflexivity.
Qed.

Lemma strict_conflict d s p : comb (node_at p d) (node_at p s) = None -> rejected merge_strict d s.
Proof.
  unfold node_at. destruct (at_path p d) as [x|] eqn:E1; [|destruct (match at_path p s with None => None | Some (JObj _) => _ | _ => _ end) as [[|]|]; discriminate].
  destruct (at_path p s) as [y|] eqn:E2; [|destruct x; discriminate].
  intro H. exists p, x, y. repeat split; auto. destruct x, y; try reflexivity; discriminate.
Qed.

Lemma merged_strict_iff d s r : wf (JObj d) -> wf (JObj s) -> wf r ->
  merged merge_strict (JObj d) (JObj s) r <->
  (forall p, comb (node_at p (JObj d)) (node_at p (JObj s)) = Some (node_at p r)).
Proof.
  intros Hd Hs Hr. split; [intros H p; now apply strict_nodes|].
  intro H. destruct (merged_total merge_strict d s good_strict Hd Hs) as [(r' & Hr' & HM)|Hrej].
  - assert (r' = r) as <-; [|exact HM]. apply node_ext; auto. intro p.
    pose proof (strict_nodes p _ _ _ HM) as H1. rewrite (H p) in H1. congruence.
  - apply strict_rejected in Hrej as [p Hp]. rewrite H in Hp. discriminate.
Qed.

Lemma rejected_strict_comm d s : rejected merge_strict d s -> rejected merge_strict s d.
Proof. intros (p & x & y & H1 & H2 & H3 & _). exists p, y, x. rewrite andb_comm. auto. Qed.

Lemma merged_strict_comm d s r : merged merge_strict d s r -> merged merge_strict s d r.
Proof.
  intro H. induction H using merged_ind2 with
    (P0 := fun a b c _ => merged_key merge_strict b a c).
  - constructor; auto.
  - constructor.
  - constructor.
  - constructor.
  - apply mk_both; auto.
  - discriminate.
Qed.

(** *** lists of containers *)

(** The object a container contributes to a merge, if any. *)
Definition contrib (c : cont) : option (list (string * json)) :=
  match clone (c_data c) with Ok (JObj m) => Some m | _ => None end.
Definition cnode (c : cont) (p : list string) : option node :=
  match contrib c with Some m => node_at p (JObj m) | None => None end.

Lemma contrib_wf c m : wf (c_data c) -> contrib c = Some m -> wf (JObj m).
Proof.
  unfold contrib. intro Hw. destruct (clone (c_data c)) as [j| | |] eqn:E; try discriminate.
  destruct j; try discriminate. intros [= <-]. eapply clone_wf; eassumption.
Qed.

Lemma c_merge_contrib (ord : oracle) coll d c : perm_oracle ord -> good_rule coll -> wf (JObj d) -> wf (c_data c) ->
  match contrib c with
  | None => c_merge ord coll (Some (JObj d)) c = Ok (Some (JObj d))
  | Some m =>
      (exists r, c_merge ord coll (Some (JObj d)) c = Ok (Some r) /\ wf r /\ merged coll (JObj d) (JObj m) r) \/
      (c_merge ord coll (Some (JObj d)) c = Err /\ rejected coll (JObj d) (JObj m))
  end.
Proof.
  intros Hord Hcoll Hd Hw. destruct (contrib c) as [m|] eqn:E.
  - unfold contrib in E. destruct (clone (c_data c)) as [j| | |] eqn:Ec; try discriminate.
    destruct j; try discriminate. injection E as ->.
    destruct c as [j|]; [|discriminate]. cbn in Ec, Hw.
    destruct j as [| |n| |l|s]; try discriminate.
    + destruct n; discriminate.
    + rewrite clone_arr_eq in Ec. apply bind_ok in Ec as (? & _ & Ec). discriminate.
    + exact (c_merge_obj ord coll d s (JObj m) Hord Hcoll Hd Hw Ec).
  - unfold contrib in E. unfold c_merge, c_clone.
    destruct (clone (c_data c)) as [j| | |]; try reflexivity. destruct j; try reflexivity. discriminate.
Qed.

Lemma containers_strict_nodes (ord : nat -> oracle) : (forall n, perm_oracle (ord n)) ->
  forall l n d, wf (JObj d) -> Forall (fun c => wf (c_data c)) l ->
  (exists r, containers_merge_from ord merge_strict n (Some (JObj d)) l = Ok (Some r) /\ wf r /\
     forall p, fold_left comb' (map (fun c => Some (cnode c p)) l) (Some (node_at p (JObj d))) = Some (node_at p r)) \/
  (containers_merge_from ord merge_strict n (Some (JObj d)) l = Err /\
     exists p, fold_left comb' (map (fun c => Some (cnode c p)) l) (Some (node_at p (JObj d))) = None).
Proof.
  intros Hord. induction l as [|c l IH]; intros n d Hd Hl.
  - left. exists (JObj d). cbn. auto.
  - inversion Hl as [|? ? Hc Hl']; subst. cbn [containers_merge_from].
    pose proof (c_merge_contrib (ord n) merge_strict d c (Hord n) good_strict Hd Hc) as H.
    destruct (contrib c) as [m|] eqn:Ec.
    + destruct H as [(r & Hr & Hwr & HM)|[Hr Hrej]].
      * destruct (merged_objs _ _ _ _ HM) as (? & ? & r' & _ & _ & ->). rewrite Hr. cbn [bind].
        destruct (IH (S n) r' Hwr Hl') as [(r2 & H2 & Hw2 & Hn)|(H2 & p & Hn)]; rewrite H2.
        -- left. exists r2. split; [reflexivity|]. split; [exact Hw2|]. intro p. rewrite <- (Hn p).
           cbn [map fold_left]. f_equal. cbn [comb']. unfold cnode. rewrite Ec.
           exact (strict_nodes p _ _ _ HM).
        -- right. split; [reflexivity|]. exists p. rewrite <- Hn.
           cbn [map fold_left]. f_equal. cbn [comb']. unfold cnode. rewrite Ec.
           exact (strict_nodes p _ _ _ HM).
      * rewrite Hr. right. split; [reflexivity|]. destruct (strict_rejected _ _ Hrej) as [p Hp].
        exists p. cbn [map fold_left]. unfold cnode at 2. rewrite Ec. cbn [comb']. rewrite Hp.
        clear. induction (map (fun c0 => Some (cnode c0 p)) l) as [|x l' IH]; [reflexivity | exact IH].
    + rewrite H. cbn [bind]. destruct (IH (S n) d Hd Hl') as [(r2 & H2 & Hw2 & Hn)|(H2 & p & Hn)]; rewrite H2.
      * left. exists r2. split; [reflexivity|]. split; [exact Hw2|]. intro p. rewrite <- (Hn p).
        cbn [map fold_left]. f_equal. unfold cnode. rewrite Ec. cbn [comb']. destruct (node_at p (JObj d)) as [[|]|]; reflexivity.
      * right. split; [reflexivity|]. exists p. rewrite <- Hn.
        cbn [map fold_left]. f_equal. unfold cnode. rewrite Ec. cbn [comb']. destruct (node_at p (JObj d)) as [[|]|]; reflexivity.
Qed.

Lemma fold_comb_perm l1 l2 : Permutation l1 l2 -> forall a, fold_left comb' l1 a = fold_left comb' l2 a.
Proof.
  induction 1 as [|x l1 l2 _ IH|x y l|l1 l2 l3 _ IH1 _ IH2]; intro a; cbn.
  - reflexivity.
  - apply IH.
  - now rewrite comb'_swap.
  - now rewrite IH1.
Qed.

Lemma containers_merge_perm (ord1 ord2 : nat -> oracle) l1 l2 :
  (forall n, perm_oracle (ord1 n)) -> (forall n, perm_oracle (ord2 n)) ->
  Forall (fun c => wf (c_data c)) l1 -> Permutation l1 l2 ->
  containers_merge ord1 merge_strict l1 = containers_merge ord2 merge_strict l2.
Proof.
  intros H1 H2 Hw HP. assert (Forall (fun c => wf (c_data c)) l2) as Hw2 by (eapply Permutation_Forall; eassumption).
  unfold containers_merge, c_new. assert (wf (JObj [])) as He by (cbn; auto).
  assert (HF : forall p, fold_left comb' (map (fun c => Some (cnode c p)) l1) (Some (node_at p (JObj []))) =
                         fold_left comb' (map (fun c => Some (cnode c p)) l2) (Some (node_at p (JObj [])))).
  { intro p. apply fold_comb_perm. now apply Permutation_map. }
  destruct (containers_strict_nodes ord1 H1 l1 0 [] He Hw) as [(r1 & E1 & W1 & N1)|(E1 & p1 & N1)], (containers_strict_nodes ord2 H2 l2 0 [] He Hw2) as [(r2 & E2 & W2 & N2)|(E2 & p2 & N2)]; rewrite E1, E2.
  - do 2 f_equal. apply node_ext; auto. intro p. specialize (N1 p). specialize (N2 p). rewrite HF in N1. congruence.
  - rewrite <- HF, N1 in N2. discriminate.
  - rewrite HF, N2 in N1. discriminate.
  - reflexivity.
Qed.

Lemma fold_comb_none l : fold_left comb' l None = None.
Proof. induction l as [|x l IH]; [reflexivity | exact IH]. Qed.

Lemma fold_comb_leaf l : forall v a w, In (Some (Some (NLeaf v))) l -> a = Some (Some (NLeaf w)) -> fold_left comb' l a = None.
Proof.
  induction l as [|x l IH]; intros v a w Hin ->; [destruct Hin|]. cbn. destruct Hin as [->|Hin].
  - cbn. apply fold_comb_none.
  - destruct x as [[[|u]|]|]; cbn; try apply fold_comb_none. eapply IH; [exact Hin | reflexivity].
Qed.

Lemma fold_comb_two l1 : forall l2 v w a, In (Some (Some (NLeaf w))) l2 ->
  fold_left comb' (l1 ++ Some (Some (NLeaf v)) :: l2) a = None.
Proof.
  intros l2 v w a Hin. rewrite fold_left_app. cbn.
  destruct (fold_left comb' l1 a) as [[[|u]|]|]; cbn; try apply fold_comb_none.
  eapply fold_comb_leaf; [exact Hin | reflexivity].
Qed.

(** Two contributions with a leaf at the same place never merge strictly. *)
Lemma containers_two_leaves (ord : nat -> oracle) l1 c1 l2 c2 l3 p v w : (forall n, perm_oracle (ord n)) ->
  Forall (fun c => wf (c_data c)) (l1 ++ c1 :: l2 ++ c2 :: l3) ->
  cnode c1 p = Some (NLeaf v) -> cnode c2 p = Some (NLeaf w) ->
  containers_merge ord merge_strict (l1 ++ c1 :: l2 ++ c2 :: l3) = Err.
Proof.
  intros Hord Hw Hc1 Hc2.
  destruct (containers_strict_nodes ord Hord _ 0 [] ltac:(cbn; auto) Hw) as [(r & E & _ & Hn)|(E & _)]; [|exact E].
  exfalso. specialize (Hn p). rewrite map_app in Hn. cbn [map] in Hn. rewrite Hc1 in Hn.
  erewrite fold_comb_two in Hn; [discriminate|].
  rewrite map_app, in_app_iff. right. cbn [map]. left. now rewrite Hc2.
Qed.
