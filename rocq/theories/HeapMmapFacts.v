(** mmap leaves values without interface-keyed maps alone. *)
From Coq Require Import String Ascii List Bool Arith Lia.
From Verif Require Import GoStr GoStrFacts Json JsonFacts Gabs SetFacts HeapSet HeapMmap Spec_Heap.
Import ListNotations.
Local Open Scope string_scope.
Local Open Scope nat_scope.
Local Open Scope list_scope.

Lemma ymmap_plain n : forall h v h' w, plain_below h v -> ymmap n h v = Some (h', w) -> h' = h /\ w = v.
Proof.
  induction n as [|n IH]; intros h v h' w P E; destruct v as [j|a]; try (cbn in E; split; congruence). cbn [ymmap] in E.
  destruct (nth_error h a) as [[l|m|m]|] eqn:Ea; try discriminate.
  - revert E. assert (K : forall es i, (forall x k, nth_error es k = Some x -> nth_error l (i + k) = Some x) -> 
      (fix go (i : nat) (es : list yv) (h : yheap) : option (yheap * yv) := match es with [] => Some (h, YRef a) | x :: r => match ymmap n h x with Some (h1, y) => go (S i) r (store_elem a i y h1) | None => None end end) i es h = Some (h', w) -> h' = h /\ w = YRef a).
    { induction es as [|x r IHr]; intros i Q E; [split; congruence|].
      pose proof (Q x 0 eq_refl) as Qx. rewrite Nat.add_0_r in Qx.
      destruct (ymmap n h x) as [[h1 y]|] eqn:Ex; [|discriminate].
      destruct (IH h x h1 y) as (-> & ->); [|exact Ex|].
      { intros b m Hb. apply (P b m). eapply yreach_arr; [exact Ea | eapply nth_error_In, Qx | exact Hb]. }
      assert (St : store_elem a i x h = h). { unfold store_elem. rewrite Ea, (set_nth_id i x l Qx). now apply set_nth_id. }
      rewrite St in E. apply (IHr (S i)); [|exact E]. intros z k Hz. rewrite Nat.add_succ_l, <- Nat.add_succ_r. now apply Q. }
    intro E. apply (K l 0); [auto | exact E].
  - revert E. assert (So : sorted m) by (apply (P a (YObj m)); [constructor | exact Ea]).
    assert (K : forall es, (forall k x, In (k, x) es -> In (k, x) m) ->
      (fix go (es : list (string * yv)) (h : yheap) : option (yheap * yv) := match es with [] => Some (h, YRef a) | (k, x) :: r => match ymmap n h x with Some (h1, y) => go r (store_key a k y h1) | None => None end end) es h = Some (h', w) -> h' = h /\ w = YRef a).
    { induction es as [|[k x] r IHr]; intros Q E; [split; congruence|].
      destruct (ymmap n h x) as [[h1 y]|] eqn:Ex; [|discriminate]. pose proof (Q k x (or_introl eq_refl)) as Qx.
      destruct (IH h x h1 y) as (-> & ->); [|exact Ex|].
      { intros b c Hb. apply (P b c). eapply yreach_obj; [exact Ea | exact Qx | exact Hb]. }
      assert (St : store_key a k x h = h). { unfold store_key. rewrite Ea, (oset_id k x m So (sorted_in_oget _ _ _ So Qx)). now apply set_nth_id. }
      rewrite St in E. apply IHr; [|exact E]. intros k1 x1 H. apply Q. now right. }
    intro E. apply (K m); [auto | exact E].
  - exfalso. exact (P a (YAny m) (yreach_here h a) Ea).
Qed.
