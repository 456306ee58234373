(** Lemmas about canonical maps and JSON trees. *)
From Coq Require Import String Ascii List Bool Arith ZArith Lia Permutation.
From Verif Require Import GoStr GoStrFacts Json.
Import ListNotations.
Local Open Scope nat_scope.

(** *** induction over trees *)
Section JsonInd.
  Variable P : json -> Prop.
  Hypothesis Hnull : P JNull.
  Hypothesis Hbool : forall b, P (JBool b).
  Hypothesis Hnum : forall n, P (JNum n).
  Hypothesis Hstr : forall s, P (JStr s).
  Hypothesis Harr : forall l, Forall P l -> P (JArr l).
  Hypothesis Hobj : forall m, Forall (fun kv => P (snd kv)) m -> P (JObj m).
  Fixpoint json_rect' (j : json) : P j :=
    match j with
    | JNull => Hnull
    | JBool b => Hbool b
    | JNum n => Hnum n
    | JStr s => Hstr s
    | JArr l => Harr l ((fix go (l : list json) : Forall P l :=
                           match l with
                           | [] => Forall_nil _
                           | x :: r => Forall_cons _ (json_rect' x) (go r)
                           end) l)
    | JObj m => Hobj m ((fix go (m : list (string * json)) : Forall (fun kv => P (snd kv)) m :=
                           match m with
                           | [] => Forall_nil _
                           | x :: r => Forall_cons x (json_rect' (snd x)) (go r)
                           end) m)
    end.
End JsonInd.
Definition json_induction := json_rect'.

Lemma wf_arr l : wf (JArr l) <-> Forall wf l.
Proof.
  cbn. induction l as [|x l IH]; [split; auto|].
  rewrite IH. split; [intros [? ?]; constructor; auto | intro H; inversion H; auto].
Qed.

Lemma wf_obj m : wf (JObj m) <-> sorted m /\ Forall (fun kv => wf (snd kv)) m.
Proof.
  cbn. apply and_iff_compat_l. induction m as [|[k x] m IH]; [split; auto|].
  rewrite IH. split; [intros [? ?]; constructor; auto | intro H; inversion H; auto].
Qed.

Lemma height_arr_in l x : In x l -> height x < height (JArr l).
Proof.
  cbn. induction l as [|y l IH]; cbn; [tauto|].
  intros [<-|H]; [lia|]. specialize (IH H). lia.
Qed.

Lemma height_obj_in m k x : In (k, x) m -> height x < height (JObj m).
Proof.
  cbn. induction m as [|[k' y] m IH]; cbn; [tauto|].
  intros [H|H]; [injection H as -> ->; lia|]. specialize (IH H). lia.
Qed.

(** *** maps *)
Section Maps.
  Context {A : Type}.
  Implicit Types m : list (string * A).

  Lemma sorted_tail k v m : sorted ((k, v) :: m) -> sorted m.
  Proof. cbn. tauto. Qed.

  Lemma sorted_lt k v m : sorted ((k, v) :: m) -> forall k' v', In (k', v') m -> String.compare k k' = Lt.
  Proof.
    revert k v. induction m as [|[k1 v1] m IH]; intros k v H k' v' Hin; [destruct Hin|].
    cbn in H. destruct H as [H1 H2]. destruct Hin as [E|Hin].
    - injection E as <- <-. exact H1.
    - eapply scmp_trans; [exact H1|]. exact (IH k1 v1 H2 _ _ Hin).
  Qed.

  Lemma sorted_cons k v m : sorted m -> (forall k' v', In (k', v') m -> String.compare k k' = Lt) -> sorted ((k, v) :: m).
  Proof.
    intros Hs Hlt. cbn. split; [|exact Hs]. destruct m as [|[k1 v1] m]; [exact I|].
    eapply Hlt. left. reflexivity.
  Qed.

  Lemma sorted_nodup m : sorted m -> NoDup (keys m).
  Proof.
    induction m as [|[k v] m IH]; intro H; cbn; constructor.
    - intro Hin. unfold keys in Hin. apply in_map_iff in Hin as [[k' v'] [E Hin]]. cbn in E. subst k'.
      pose proof (sorted_lt _ _ _ H _ _ Hin) as L. rewrite scmp_refl in L. discriminate.
    - apply IH. eapply sorted_tail, H.
  Qed.

  Lemma oget_in k v m : oget k m = Some v -> In (k, v) m.
  Proof.
    induction m as [|[k' v'] m IH]; cbn; [discriminate|].
    destruct (String.eqb_spec k k') as [<-|N]; [intros [= <-]; auto | auto].
  Qed.

  Lemma oget_none k m : oget k m = None <-> ~ In k (keys m).
  Proof.
    induction m as [|[k' v'] m IH]; cbn; [tauto|].
    destruct (String.eqb_spec k k') as [<-|N]; [split; [discriminate | intuition] |].
    rewrite IH. intuition.
  Qed.

  Lemma oget_some_key k v m : oget k m = Some v -> In k (keys m).
  Proof. intro H. apply oget_in in H. apply in_map_iff. exists (k, v). auto. Qed.

  Lemma in_keys_oget k m : In k (keys m) -> exists v, oget k m = Some v.
  Proof.
    intro H. destruct (oget k m) as [v|] eqn:E; [eauto|].
    apply oget_none in E. tauto.
  Qed.

  Lemma in_oget k v m : NoDup (keys m) -> In (k, v) m -> oget k m = Some v.
  Proof.
    induction m as [|[k' v'] m IH]; cbn; intros Hn Hin; [tauto|].
    inversion Hn as [|? ? Hnin Hn' E]; subst. destruct Hin as [E|Hin].
    - injection E as -> ->. now rewrite String.eqb_refl.
    - destruct (String.eqb_spec k k') as [<-|N]; [|auto].
      exfalso. apply Hnin. apply in_map_iff. exists (k, v). auto.
  Qed.

  Lemma sorted_in_oget k v m : sorted m -> In (k, v) m -> oget k m = Some v.
  Proof. intros H. apply in_oget, sorted_nodup, H. Qed.

  Lemma oget_below k m : (forall k' v', In (k', v') m -> String.compare k k' = Lt) -> oget k m = None.
  Proof.
    intro H. apply oget_none. intro Hin. apply in_map_iff in Hin as [[k' v'] [E Hin]]. cbn in E. subst.
    apply H in Hin. rewrite scmp_refl in Hin. discriminate.
  Qed.

  Lemma oget_oset k k' v m : oget k (oset k' v m) = if String.eqb k k' then Some v else oget k m.
  Proof.
    induction m as [|[k1 v1] m IH]; cbn; [reflexivity|].
    destruct (String.compare k' k1) eqn:C; cbn.
    - apply scmp_eq in C as <-. destruct (String.eqb k k'); reflexivity.
    - reflexivity.
    - rewrite IH. destruct (String.eqb_spec k k1) as [<-|N]; [|reflexivity].
      destruct (String.eqb_spec k k') as [<-|N']; [|reflexivity].
      rewrite scmp_refl in C. discriminate.
  Qed.

  Lemma oget_oset_same k v m : oget k (oset k v m) = Some v.
  Proof. now rewrite oget_oset, String.eqb_refl. Qed.

  Lemma oget_oset_other k k' v m : k <> k' -> oget k (oset k' v m) = oget k m.
  Proof. intro N. rewrite oget_oset. now apply String.eqb_neq in N as ->. Qed.

  Lemma in_oset k v m x : In x (oset k v m) -> x = (k, v) \/ In x m.
  Proof.
    induction m as [|[k' v'] m IH]; cbn.
    - intros [H|[]]; auto.
    - destruct (String.compare k k'); cbn; intuition.
  Qed.

  Lemma sorted_oset k v m : sorted m -> sorted (oset k v m).
  Proof.
    induction m as [|[k1 v1] m IH]; intro H; [cbn; auto|].
    cbn [oset]. destruct (String.compare k k1) eqn:C.
    - apply scmp_eq in C as <-. exact H.
    - apply sorted_cons; [exact H|]. intros k' v' [E|Hin]; [injection E as <- <-; exact C|].
      eapply scmp_trans; [exact C|]. eapply sorted_lt; eassumption.
    - apply sorted_cons; [apply IH; eapply sorted_tail, H|].
      intros k' v' Hin. apply in_oset in Hin as [E|Hin].
      + injection E as -> ->. now apply scmp_gt.
      + eapply sorted_lt; eassumption.
  Qed.

  Lemma oget_odel k k' m : sorted m -> oget k (odel k' m) = if String.eqb k k' then None else oget k m.
  Proof.
    induction m as [|[k1 v1] m IH]; intro H; cbn; [now destruct (String.eqb k k')|].
    destruct (String.eqb_spec k' k1) as [<-|N].
    - destruct (String.eqb_spec k k') as [<-|N']; [|reflexivity].
      apply oget_below. intros. eapply sorted_lt; eassumption.
    - cbn. rewrite IH by (eapply sorted_tail, H).
      destruct (String.eqb_spec k k1) as [<-|N1]; [|reflexivity].
      destruct (String.eqb_spec k k') as [<-|N2]; [congruence | reflexivity].
  Qed.

  Lemma in_odel k m x : In x (odel k m) -> In x m.
  Proof.
    induction m as [|[k' v'] m IH]; cbn; [tauto|].
    destruct (String.eqb k k'); cbn; intuition.
  Qed.

  Lemma sorted_odel k m : sorted m -> sorted (odel k m).
  Proof.
    induction m as [|[k1 v1] m IH]; intro H; [exact H|].
    cbn [odel]. destruct (String.eqb k k1); [eapply sorted_tail, H|].
    apply sorted_cons; [apply IH; eapply sorted_tail, H|].
    intros k' v' Hin. apply in_odel in Hin. eapply sorted_lt; eassumption.
  Qed.

  (** Two canonical maps with the same lookups are equal. *)
  Lemma obj_ext m1 m2 : sorted m1 -> sorted m2 -> (forall k, oget k m1 = oget k m2) -> m1 = m2.
  Proof.
    revert m2. induction m1 as [|[k1 v1] m1 IH]; intros [|[k2 v2] m2] H1 H2 E.
    - reflexivity.
    - specialize (E k2). cbn in E. rewrite String.eqb_refl in E. discriminate.
    - specialize (E k1). cbn in E. rewrite String.eqb_refl in E. discriminate.
    - assert (k1 = k2) as <-.
      { destruct (String.compare k1 k2) eqn:C.
        - now apply scmp_eq in C.
        - exfalso. pose proof (E k1) as E1. cbn in E1. rewrite String.eqb_refl in E1.
          destruct (String.eqb_spec k1 k2) as [->|N]; [rewrite scmp_refl in C; discriminate|].
          rewrite oget_below in E1; [discriminate|]. intros k' v' Hin.
          eapply scmp_trans; [exact C | eapply sorted_lt; eassumption].
        - exfalso. apply scmp_gt in C. pose proof (E k2) as E2. cbn in E2. rewrite String.eqb_refl in E2.
          destruct (String.eqb_spec k2 k1) as [->|N]; [rewrite scmp_refl in C; discriminate|].
          rewrite oget_below in E2; [discriminate|]. intros k' v' Hin.
          eapply scmp_trans; [exact C | eapply sorted_lt; eassumption]. }
      pose proof (E k1) as E1. cbn in E1. rewrite String.eqb_refl in E1. injection E1 as <-.
      f_equal. apply IH; [eapply sorted_tail, H1 | eapply sorted_tail, H2|].
      intro k. specialize (E k). cbn in E. destruct (String.eqb_spec k k1) as [Ek|N]; [subst k|exact E].
      rewrite (oget_below k1 m1) by (intros k' v' Hin; exact (sorted_lt _ _ _ H1 _ _ Hin)).
      rewrite (oget_below k1 m2) by (intros k' v' Hin; exact (sorted_lt _ _ _ H2 _ _ Hin)).
      reflexivity.
  Qed.

  Lemma oset_oset k v v' m : sorted m -> oset k v (oset k v' m) = oset k v m.
  Proof.
    intro H. apply obj_ext; try (repeat apply sorted_oset; exact H).
    intro k'. rewrite !oget_oset. now destruct (String.eqb k' k).
  Qed.

  Lemma oset_comm k1 v1 k2 v2 m : sorted m -> k1 <> k2 -> oset k1 v1 (oset k2 v2 m) = oset k2 v2 (oset k1 v1 m).
  Proof.
    intros H N. apply obj_ext; try (repeat apply sorted_oset; exact H).
    intro k'. rewrite !oget_oset. destruct (String.eqb_spec k' k1) as [->|N1]; [|reflexivity].
    destruct (String.eqb_spec k1 k2); congruence.
  Qed.

  Lemma oset_same k v m : sorted m -> oget k m = Some v -> oset k v m = m.
  Proof.
    intros H E. apply obj_ext; [apply sorted_oset, H | exact H|].
    intro k'. rewrite oget_oset. destruct (String.eqb_spec k' k) as [->|N]; [now symmetry | reflexivity].
  Qed.

  Lemma sorted_obj_of (l : list (string * A)) : sorted (obj_of l).
  Proof. induction l as [|[k v] l IH]; cbn; [exact I | now apply sorted_oset]. Qed.

  Lemma oget_obj_of k (l : list (string * A)) : oget k (obj_of l) = oget k l.
  Proof. induction l as [|[k' v] l IH]; cbn; [reflexivity | rewrite oget_oset; now rewrite <- IH]. Qed.

  Lemma obj_of_sorted m : sorted m -> obj_of m = m.
  Proof. intro H. apply obj_ext; [apply sorted_obj_of | exact H | intro k; apply oget_obj_of]. Qed.

  Lemma keys_oset_perm k v m : sorted m -> forall k', In k' (keys (oset k v m)) <-> k' = k \/ In k' (keys m).
  Proof.
    intros H k'. split; intro Hin.
    - apply in_keys_oget in Hin as [v' E]. rewrite oget_oset in E.
      destruct (String.eqb_spec k' k) as [->|N]; [auto|]. right. eapply oget_some_key, E.
    - destruct (oget k' (oset k v m)) eqn:E; [eapply oget_some_key, E|].
      rewrite oget_oset in E. destruct (String.eqb_spec k' k) as [->|N]; [discriminate|].
      destruct Hin as [->|Hin]; [congruence|]. apply oget_none in E. tauto.
  Qed.

  Lemma oget_perm m1 m2 k : Permutation m1 m2 -> NoDup (keys m1) -> oget k m1 = oget k m2.
  Proof.
    intros HP HN. assert (NoDup (keys m2)) as HN2 by (eapply Permutation_NoDup; [apply Permutation_map, HP | exact HN]).
    destruct (oget k m1) as [v|] eqn:E.
    - apply oget_in in E. symmetry. apply in_oget; [exact HN2|]. eapply Permutation_in; eassumption.
    - symmetry. apply oget_none. apply oget_none in E. intro H. apply E.
      eapply Permutation_in; [apply Permutation_map; symmetry; exact HP | exact H].
  Qed.
End Maps.

Lemma wf_oget m k v : wf (JObj m) -> oget k m = Some v -> wf v.
Proof.
  intros H E. apply wf_obj in H as [_ H]. apply oget_in in E.
  rewrite Forall_forall in H. exact (H _ E).
Qed.

Lemma wf_sorted m : wf (JObj m) -> sorted m.
Proof. intro H. now apply wf_obj in H. Qed.

Lemma wf_oset m k v : wf (JObj m) -> wf v -> wf (JObj (oset k v m)).
Proof.
  intros H Hv. apply wf_obj in H as [Hs H]. apply wf_obj. split; [apply sorted_oset, Hs|].
  rewrite Forall_forall in *. intros x Hin. apply in_oset in Hin as [->|Hin]; auto.
Qed.

Lemma wf_nth l i v : wf (JArr l) -> nth_error l i = Some v -> wf v.
Proof. intros H E. apply wf_arr in H. rewrite Forall_forall in H. eapply H, nth_error_In, E. Qed.

Lemma height_oget m k v : oget k m = Some v -> height v < height (JObj m).
Proof. intro E. apply oget_in in E. eapply height_obj_in, E. Qed.
