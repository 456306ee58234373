(** The merging laws restated for Container.Merge itself. *)
From Coq Require Import String Ascii List Bool Arith ZArith Lia Permutation.
From Verif Require Import GoStr Json JsonFacts Gabs Container Spec_Merge Spec_Clone MergeFacts MergeLaws CloneFacts.
Import ListNotations.
Local Open Scope list_scope.

Notation oracle := (list string -> list (string * json) -> list (string * json)).

Lemma obj_clone d : (exists s', clone (JObj d) = Ok s') \/ clone (JObj d) = Err.
Proof. apply clone_cases. Qed.

(** A source that is not an object, or does not clone, contributes nothing. *)
Lemma c_merge_nothing ord coll c src : (forall m, clone (c_data src) <> Ok (JObj m)) -> c_merge ord coll c src = Ok c.
Proof.
  intro H. unfold c_merge, c_clone. destruct (clone (c_data src)) as [j| | |] eqn:E; cbn; try reflexivity.
  destruct j; try reflexivity. exfalso. eapply H. reflexivity.
Qed.

Lemma c_merge_order (ord1 ord2 : oracle) coll d src : perm_oracle ord1 -> perm_oracle ord2 -> good_rule coll ->
  wf (JObj d) -> wf (c_data src) ->
  c_merge ord1 coll (Some (JObj d)) src = c_merge ord2 coll (Some (JObj d)) src.
Proof.
  intros H1 H2 Hc Hd Hs.
  pose proof (c_merge_contrib ord1 coll d src H1 Hc Hd Hs) as A.
  pose proof (c_merge_contrib ord2 coll d src H2 Hc Hd Hs) as B.
  destruct (contrib src) as [m|]; [|now rewrite A, B].
  destruct A as [(r & -> & _ & M1)|[-> R1]], B as [(r' & -> & _ & M2)|[-> R2]]; auto.
  - now rewrite (merged_fun _ _ _ _ _ M1 M2).
  - exfalso. eapply merged_not_rejected; eassumption.
  - exfalso. eapply merged_not_rejected; eassumption.
Qed.

Section Laws.
Variables (ord : oracle) (d s s' : list (string * json)).
Hypothesis Hord : perm_oracle ord.
Hypothesis Hd : wf (JObj d).
Hypothesis Hs : wf (JObj s).
Hypothesis Hcl : clone (JObj s) = Ok (JObj s').

Lemma c_merge_default : exists r, c_merge ord merge_default (Some (JObj d)) (Some (JObj s)) = Ok (Some r) /\
  wf r /\ merged merge_default (JObj d) (JObj s') r.
Proof.
  destruct (c_merge_obj ord merge_default d s (JObj s') Hord good_default Hd Hs Hcl) as [H|[_ H]]; [exact H|].
  exfalso. eapply not_rejected_default, H.
Qed.
Lemma c_merge_override : exists r, c_merge ord merge_override (Some (JObj d)) (Some (JObj s)) = Ok (Some r) /\
  wf r /\ merged merge_override (JObj d) (JObj s') r.
Proof.
  destruct (c_merge_obj ord merge_override d s (JObj s') Hord good_override Hd Hs Hcl) as [H|[_ H]]; [exact H|].
  exfalso. eapply not_rejected_override, H.
Qed.

Lemma default_keeps : exists r, c_merge ord merge_default (Some (JObj d)) (Some (JObj s)) = Ok (Some r) /\
  forall p v, leaf_at p (JObj d) v -> leaf_at p r v.
Proof.
  destruct c_merge_default as (r & E & _ & M). exists r. split; [exact E|]. intros p v. eapply merged_default_leaf, M.
Qed.
Lemma override_wins : exists r, c_merge ord merge_override (Some (JObj d)) (Some (JObj s)) = Ok (Some r) /\
  forall p v, leaf_at p (JObj s') v -> leaf_at p r v.
Proof.
  destruct c_merge_override as (r & E & _ & M). exists r. split; [exact E|]. intros p v. eapply merged_override_leaf, M.
Qed.
End Laws.

Lemma merge_dual (ord1 ord2 : oracle) d s : perm_oracle ord1 -> perm_oracle ord2 -> wf (JObj d) -> wf (JObj s) ->
  clone (JObj d) = Ok (JObj d) -> clone (JObj s) = Ok (JObj s) ->
  c_merge ord1 merge_default (Some (JObj d)) (Some (JObj s)) = c_merge ord2 merge_override (Some (JObj s)) (Some (JObj d)).
Proof.
  intros H1 H2 Hd Hs Cd Cs.
  destruct (c_merge_default ord1 d s s H1 Hd Hs Cs) as (r & -> & _ & M).
  destruct (c_merge_override ord2 s d d H2 Hs Hd Cd) as (r' & -> & _ & M').
  apply default_override_dual in M. now rewrite (merged_fun _ _ _ _ _ M M').
Qed.

Lemma merge_self ord d : perm_oracle ord -> wf (JObj d) -> clone (JObj d) = Ok (JObj d) ->
  c_merge ord merge_default (Some (JObj d)) (Some (JObj d)) = Ok (Some (JObj d)) /\
  c_merge ord merge_override (Some (JObj d)) (Some (JObj d)) = Ok (Some (JObj d)).
Proof.
  intros Ho Hd Cd. split.
  - destruct (c_merge_default ord d d d Ho Hd Hd Cd) as (r & -> & _ & M).
    now rewrite (merged_fun _ _ _ _ _ M (merged_self merge_default (fun x => eq_refl) _ Hd eq_refl)).
  - destruct (c_merge_override ord d d d Ho Hd Hd Cd) as (r & -> & _ & M).
    now rewrite (merged_fun _ _ _ _ _ M (merged_self merge_override (fun x => eq_refl) _ Hd eq_refl)).
Qed.

Lemma leaf_node p j v : leaf_at p j v <-> node_at p j = Some (NLeaf v).
Proof.
  unfold leaf_at, node_at. destruct (at_path p j) as [x|]; [|split; [intros [? _]|intro]; discriminate].
  split.
  - intros [[= ->] H]. destruct v; try discriminate; reflexivity.
  - destruct x; intro H; try discriminate; injection H as <-; auto.
Qed.

(** ** strict *)
Definition conflict (d s : json) : Prop :=
  exists p x y, at_path p d = Some x /\ at_path p s = Some y /\ is_obj x && is_obj y = false.

Lemma strict_conflict_iff d s : rejected merge_strict d s <-> conflict d s.
Proof.
  split; intros (p & x & y & H).
  - destruct H as (? & ? & ? & _). exists p, x, y. auto.
  - destruct H as (? & ? & ?). exists p, x, y. auto.
Qed.

Lemma strict_merge ord d s s' : perm_oracle ord -> wf (JObj d) -> wf (JObj s) -> clone (JObj s) = Ok (JObj s') ->
  (c_merge ord merge_strict (Some (JObj d)) (Some (JObj s)) = Err <-> 
    exists p x y, at_path p (JObj d) = Some x /\ at_path p (JObj s') = Some y /\ is_obj x && is_obj y = false) /\
  (forall r, c_merge ord merge_strict (Some (JObj d)) (Some (JObj s)) = Ok (Some r) ->
     forall p v, leaf_at p r v <-> leaf_at p (JObj d) v \/ leaf_at p (JObj s') v) /\
  c_merge ord merge_strict (Some (JObj d)) (Some (JObj s)) <> Panic /\
  c_merge ord merge_strict (Some (JObj d)) (Some (JObj s)) <> OutOfFuel.
Proof.
  intros Ho Hd Hs Hc. destruct (c_merge_iff ord merge_strict d s (JObj s') Ho good_strict Hd Hs Hc) as [A B].
  split; [rewrite B; apply strict_conflict_iff|]. split.
  - intros r Hr p v. apply A in Hr. pose proof (strict_nodes p _ _ _ Hr) as C.
    rewrite !leaf_node. destruct (node_at p (JObj d)) as [[|x]|], (node_at p (JObj s')) as [[|y]|], (node_at p r) as [[|z]|];
      cbn in C; try discriminate C; try (injection C as C); subst; intuition congruence.
  - destruct (c_merge_obj ord merge_strict d s _ Ho good_strict Hd Hs Hc) as [(r & -> & _)|[-> _]]; split; discriminate.
Qed.

Lemma strict_comm (ord1 ord2 : oracle) d s : perm_oracle ord1 -> perm_oracle ord2 -> wf (JObj d) -> wf (JObj s) ->
  clone (JObj d) = Ok (JObj d) -> clone (JObj s) = Ok (JObj s) ->
  c_merge ord1 merge_strict (Some (JObj d)) (Some (JObj s)) = c_merge ord2 merge_strict (Some (JObj s)) (Some (JObj d)).
Proof.
  intros H1 H2 Hd Hs Cd Cs.
  destruct (c_merge_obj ord1 merge_strict d s _ H1 good_strict Hd Hs Cs) as [(r & -> & _ & M)|[-> R]];
  destruct (c_merge_obj ord2 merge_strict s d _ H2 good_strict Hs Hd Cd) as [(r' & -> & _ & M')|[-> R']]; auto.
  - apply merged_strict_comm in M. now rewrite (merged_fun _ _ _ _ _ M M').
  - exfalso. apply merged_strict_comm in M. eapply merged_not_rejected; eassumption.
  - exfalso. apply merged_strict_comm in M'. eapply merged_not_rejected; eassumption.
Qed.

(** Two documents with a value that is not an object at the same key. *)
Lemma two_specs_fail (ord : nat -> oracle) k l i j di dj : (forall n, perm_oracle (ord n)) ->
  Forall (fun c => wf (c_data c)) l -> i <> j ->
  nth_error l i = Some (Some (JObj di)) -> nth_error l j = Some (Some (JObj dj)) ->
  (exists v, oget k di = Some v /\ is_obj v = false) -> (exists v, oget k dj = Some v /\ is_obj v = false) ->
  ~ In NBad (numbers (JObj di)) -> ~ In NBad (numbers (JObj dj)) ->
  containers_merge ord merge_strict l = Err.
Proof.
  intros Ho Hw Hij Hi Hj Ki Kj Bi Bj.
  assert (G : forall di, ~ In NBad (numbers (JObj di)) -> (exists v, oget k di = Some v /\ is_obj v = false) ->
     exists w, cnode (Some (JObj di)) [k] = Some (NLeaf w)).
  { clear. intros di Hb (v & Hv & Hn). unfold cnode, contrib. cbn [c_data].
    destruct (clone_cases (JObj di)) as [[c Hc]|Hc]; [|exfalso; apply Hb; now apply clone_fails].
    rewrite Hc. destruct (clone_obj_inv _ _ Hc) as (m & -> & Hm).
    rewrite node_cons. pose proof (clone_map_oget _ _ k Hm) as E. rewrite Hv in E. cbn in E.
    destruct E as (y & E & Hy). rewrite E.
    exists y. unfold node_at. cbn. destruct v as [| |n| | |]; try discriminate Hn; cbn in Hy.
    - injection Hy as <-. reflexivity.
    - injection Hy as <-. reflexivity.
    - destruct n; try discriminate; injection Hy as <-; reflexivity.
    - injection Hy as <-. reflexivity.
    - fold (clone_list l) in Hy. destruct (clone_list l); try discriminate. injection Hy as <-. reflexivity. }
  destruct (G _ Bi Ki) as [wi Wi], (G _ Bj Kj) as [wj Wj].
  assert (H : forall i j c1 c2 w1 w2, i < j -> nth_error l i = Some c1 -> nth_error l j = Some c2 ->
    cnode c1 [k] = Some (NLeaf w1) -> cnode c2 [k] = Some (NLeaf w2) -> containers_merge ord merge_strict l = Err).
  { clear - Ho Hw. intros i j c1 c2 w1 w2 Hlt H1 H2 N1 N2.
    apply nth_error_split in H1 as (l1 & l2 & -> & <-).
    rewrite nth_error_app2 in H2 by lia. destruct (j - length l1) as [|n] eqn:En; [lia|]. cbn in H2.
    apply nth_error_split in H2 as (l3 & l4 & -> & _). eapply containers_two_leaves; eassumption. }
  destruct (Nat.lt_total i j) as [Hlt|[->|Hlt]]; [|congruence|].
  - eapply H; eassumption.
  - eapply H; [exact Hlt | exact Hj | exact Hi | exact Wj | exact Wi].
Qed.

(** Clone and Make. *)
Lemma c_clone_nan c : In NBad (numbers (c_data c)) -> c_clone c = Some JNull.
Proof. intro H. apply clone_fails in H. unfold c_clone. now rewrite H. Qed.

Lemma merge_nan_ignored ord coll c src : In NBad (numbers (c_data src)) -> c_merge ord coll c src = Ok c.
Proof. intro H. apply c_merge_nothing. intros m E. apply clone_fails in H. congruence. Qed.

Lemma make_setp_nan v : In NBad (numbers v) <-> c_make v = Err.
Proof.
  rewrite <- clone_fails. unfold c_make. destruct (clone v) eqn:E; cbn; split; intro H; try discriminate; try reflexivity.
Qed.
