(** Chains of a relation without repetitions. *)
From Coq Require Import List Arith Lia.
Import ListNotations.
Local Open Scope nat_scope.
Local Open Scope list_scope.

Lemma last_occurrence {A} (dec : forall x y : A, {x = y} + {x <> y}) (a : A) (l : list A) : In a l -> exists l1 l2, l = l1 ++ a :: l2 /\ ~ In a l2.
Proof.
  induction l as [|x l IH]; [contradiction|]. intro H. destruct (in_dec dec a l) as [Hin|Nin].
  - destruct (IH Hin) as (l1 & l2 & -> & N). exists (x :: l1), l2. auto.
  - destruct H as [-> |H]; [|contradiction]. exists [], l. auto.
Qed.

Section Chain.
  Context {A : Type} (dec : forall x y : A, {x = y} + {x <> y}) (R : A -> A -> Prop).
  (** The nodes left, and the last one. *)
  Inductive rchain : A -> list A -> A -> Prop :=
  | rc_nil a : rchain a [] a
  | rc_cons a b c d : R a b -> rchain b c d -> rchain a (a :: c) d.
  Lemma rchain_suffix a c b : rchain a c b -> forall l1 x l2, c = l1 ++ x :: l2 -> rchain x (x :: l2) b.
  Proof.
    induction 1 as [a|a b c d Hr Hc IH]; intros l1 x l2 E; [destruct l1; discriminate|]. destruct l1 as [|y l1]; cbn in E.
    - injection E as -> ->. econstructor; eauto.
    - injection E as _ E. eapply IH; eauto.
  Qed.
  Lemma simple_chain_n n : forall a c b, length c <= n -> rchain a c b -> exists c', rchain a c' b /\ NoDup c' /\ incl c' c.
  Proof.
    induction n as [|n IH]; intros a c b L H.
    - destruct c; [|cbn in L; lia]. exists []. repeat split; [exact H | constructor | intros x []].
    - inversion H as [? E1 E2|? x c1 ? Hr Hc]; subst; [exists []; repeat split; [constructor | constructor | intros x []]|].
      destruct (last_occurrence dec a (a :: c1) (or_introl eq_refl)) as (l1 & l2 & E & N).
      pose proof (rchain_suffix _ _ _ H _ _ _ E) as H2. inversion H2 as [|? y c2 ? Hr2 Hc2]; subst.
      assert (L2 : length l2 <= n) by (apply (f_equal (@length A)) in E; rewrite app_length in E; cbn in E, L; lia).
      destruct (IH _ _ _ L2 Hc2) as (c' & Hc' & ND & I). exists (a :: c'). repeat split; [econstructor; eauto | constructor; auto |].
      intros z [-> |Hz]; [now left|]. rewrite E. apply in_app_iff. right. right. auto.
  Qed.
  Theorem simple_chain a c b : rchain a c b -> exists c', rchain a c' b /\ NoDup c' /\ incl c' c.
  Proof. apply (simple_chain_n (length c)). apply le_n. Qed.
End Chain.
