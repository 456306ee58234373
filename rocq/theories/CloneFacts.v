(** Cloning: numbers become the nearest double, everything else is kept. *)
From Coq Require Import String Ascii List Bool Arith ZArith Lia Permutation.
From Verif Require Import GoStr GoStrFacts Json JsonFacts Container Spec_Clone MergeFacts.
Import ListNotations.
Local Open Scope list_scope.
Local Open Scope Z_scope.

Lemma strip2_spec p : forall e q e', 0 <= e -> strip2 p e = (q, e') ->
  e <= e' /\ Zpos p * 2 ^ e = Zpos q * 2 ^ e' /\ Zpos q <= Zpos p /\ Z.odd (Zpos q) = true.
Proof.
  induction p as [p IH|p IH|]; intros e q e' He H; cbn in H.
  - injection H as <- <-. repeat split; lia.
  - apply IH in H; [|lia]. destruct H as (H1 & H2 & H3 & H4). split; [lia|]. split; [|split; [lia|assumption]].
    rewrite <- H2. rewrite Z.pow_add_r by lia. lia.
  - injection H as <- <-. repeat split; lia.
Qed.

Lemma flt_spec m e : 0 <= e -> exists m' e', flt m e = NFlt m' e' /\ 0 <= e' /\ m' * 2 ^ e' = m * 2 ^ e /\ Z.abs m' <= Z.abs m
  /\ (m' = 0 \/ Z.odd m' = true).
Proof.
  intro He. destruct m as [|p|p]; cbn [flt].
  - exists 0, 0. cbn. split; [reflexivity|]. split; [lia|]. split; [lia|]. split; [lia|]. now left.
  - destruct (strip2 p e) as [q e'] eqn:E. apply strip2_spec in E; [|exact He]. destruct E as (H1 & H2 & H3 & H4).
    exists (Zpos q), e'. split; [reflexivity|]. split; [lia|]. split; [lia|]. split; [lia|]. now right.
  - destruct (strip2 p e) as [q e'] eqn:E. apply strip2_spec in E; [|exact He]. destruct E as (H1 & H2 & H3 & H4).
    exists (Zneg q), e'. split; [reflexivity|]. split; [lia|]. split; [lia|]. split; [lia|]. right. exact H4.
Qed.

Lemma round_even_spec p k : 0 <= k -> 
  let q := p / 2 ^ k in let r := p mod 2 ^ k in
  p = 2 ^ k * q + r /\ 0 <= r < 2 ^ k /\
  ((round_even p k = q /\ 2 * r <= 2 ^ k) \/ (round_even p k = q + 1 /\ 2 ^ k <= 2 * r)).
Proof.
  intro Hk. assert (0 < 2 ^ k) by (apply Z.pow_pos_nonneg; lia). cbn zeta.
  split; [apply Z.div_mod; lia|]. split; [apply Z.mod_pos_bound; lia|].
  unfold round_even. destruct (Z.compare_spec (2 * (p mod 2 ^ k)) (2 ^ k)) as [E|L|G].
  - destruct (Z.even (p / 2 ^ k)); [left | right]; lia.
  - left. lia.
  - right. lia.
Qed.

(** The case of a positive integer needing rounding. *)
Lemma round_nearest p k q r v m' e' :
  0 < k -> p = 2 ^ k * q + r -> 0 <= r < 2 ^ k -> 2 ^ 52 <= q -> 
  ((v = q /\ 2 * r <= 2 ^ k) \/ (v = q + 1 /\ 2 ^ k <= 2 * r)) ->
  0 <= e' -> Z.abs m' < 2 ^ 53 ->
  Z.abs (v * 2 ^ k - p) <= Z.abs (m' * 2 ^ e' - p).
Proof.
  intros Hk Hp Hr Hq Hv He Hm. assert (0 < 2 ^ k) as Hpos by (apply Z.pow_pos_nonneg; lia).
  assert (Hd : Z.abs (v * 2 ^ k - p) <= r /\ Z.abs (v * 2 ^ k - p) <= 2 ^ k - r) by (destruct Hv as [[-> ?]|[-> ?]]; nia).
  destruct (Z.le_gt_cases k e') as [Hge|Hlt].
  - (* a multiple of 2^k *)
    replace e' with (k + (e' - k)) by lia. rewrite Z.pow_add_r by lia. set (w := m' * 2 ^ (e' - k)).
    replace (m' * (2 ^ k * 2 ^ (e' - k))) with (w * 2 ^ k) by (unfold w; ring).
    destruct (Z.le_gt_cases w q) as [Hw|Hw].
    + assert (w * 2 ^ k <= q * 2 ^ k) by (apply Z.mul_le_mono_nonneg_r; lia). lia.
    + assert ((q + 1) * 2 ^ k <= w * 2 ^ k) by (apply Z.mul_le_mono_nonneg_r; lia). lia.
  - (* smaller exponent: strictly below q * 2^k *)
    assert (m' * 2 ^ e' < q * 2 ^ k); [|lia].
    assert (0 < 2 ^ e') by (apply Z.pow_pos_nonneg; lia).
    apply Z.lt_le_trans with (2 ^ 53 * 2 ^ e'); [apply Z.mul_lt_mono_pos_r; lia|].
    apply Z.le_trans with (2 ^ 52 * 2 ^ k); [|apply Z.mul_le_mono_nonneg_r; lia].
    rewrite <- !Z.pow_add_r by lia. apply Z.pow_le_mono_r; lia.
Qed.

Lemma two53 : 2 ^ 53 = 2 * 2 ^ 52. Proof. reflexivity. Qed.

Lemma to_float_nearest z : exists m e, to_float z = NFlt m e /\ nearest_double z m e /\ (Z.abs z <= 2 ^ 53 -> m * 2 ^ e = z).
Proof.
  unfold to_float. set (k := Z.max 0 (Z.log2 (Z.abs z) - 52)). assert (0 <= k) as Hk by (unfold k; lia).
  destruct (flt_spec (Z.sgn z * round_even (Z.abs z) k) k Hk) as (m & e & -> & He & Hme & Habs & Hodd).
  exists m, e. split; [reflexivity|].
  destruct (round_even_spec (Z.abs z) k Hk) as (Hp & Hr & Hv). set (p := Z.abs z) in *.
  set (q := p / 2 ^ k) in *. set (r := p mod 2 ^ k) in *. set (v := round_even p k) in *.
  assert (0 < 2 ^ k) as Hpos by (apply Z.pow_pos_nonneg; lia).
  destruct (Z.eq_dec k 0) as [K0|K0].
  - (* exact *)
    rewrite K0 in *. change (2 ^ 0) with 1 in *.
    assert (v = p /\ p = q /\ r = 0) as (Ev & _ & _) by lia.
    assert (Z.sgn z * v = z) as Ez by (rewrite Ev; unfold p; lia).
    assert (m * 2 ^ e = z) as Em by lia.
    assert (p < 2 ^ 53) as Hb.
    { unfold k in K0. destruct (Z.eq_dec p 0) as [->|]; [lia|].
      assert (0 <= p) by (unfold p; lia).
      apply Z.log2_lt_pow2; lia. }
    split; [|auto]. split; [lia|]. split.
    + assert (Z.abs m <= Z.abs z); [|unfold p in *; lia]. rewrite Ez in Habs. exact Habs.
    + intros m' e' _ _. rewrite Em. lia.
  - assert (0 < k) as Hk0 by lia.
    assert (2 ^ (52 + k) <= p < 2 ^ (53 + k)) as Hb.
    { unfold k in *. assert (0 < p) as Hp0.
      { destruct (Z.eq_dec p 0) as [E|]; [rewrite E in *; cbn in *; lia | unfold p in *; lia]. }
      pose proof (Z.log2_spec p Hp0) as [L1 L2].
      replace (52 + Z.max 0 (Z.log2 p - 52)) with (Z.log2 p) by lia.
      replace (53 + Z.max 0 (Z.log2 p - 52)) with (Z.succ (Z.log2 p)) by lia. lia. }
    rewrite !Z.pow_add_r in Hb by lia.
    assert (2 ^ 52 <= q < 2 ^ 53) as Hq by (clear - Hb Hp Hr Hpos; nia).
    assert (Hsgn : Z.abs (Z.sgn z) = 1) by (assert (p <> 0) by lia; unfold p in *; lia).
    assert (Hv53 : Z.abs m <= v).
    { rewrite Z.abs_mul, Hsgn in Habs. assert (0 <= v) by lia. lia. }
    assert (Hdist : forall x, Z.abs (Z.abs (x * Z.sgn z) - p) <= Z.abs (x - z)) by (intro x; unfold p; lia).
    assert (Hdz : Z.abs (m * 2 ^ e - z) = Z.abs (v * 2 ^ k - p)).
    { rewrite Hme. assert (Ez : z = Z.sgn z * p) by (unfold p; lia).
      rewrite Ez at 2. replace (Z.sgn z * v * 2 ^ k - Z.sgn z * p) with (Z.sgn z * (v * 2 ^ k - p)) by ring.
      rewrite Z.abs_mul, Hsgn. lia. }
    split; [|intro Hs].
    + split; [exact He|]. split.
      * assert (v <= 2 ^ 53) as Hle by lia.
        assert (Z.abs m <> 2 ^ 53) as Hne; [|lia].
        intro E. destruct Hodd as [->|Ho]; [discriminate E|].
        assert (m = 2 ^ 53 \/ m = - 2 ^ 53) as [-> | ->] by lia; discriminate Ho.
      * intros m' e' He' Hm'. rewrite Hdz.
        assert (Hn : Z.abs (v * 2 ^ k - p) <= Z.abs (Z.sgn z * m' * 2 ^ e' - p)).
        { apply (round_nearest p k q r v (Z.sgn z * m') e'); try assumption; try lia. }
        apply (Z.le_trans _ _ _ Hn).
        replace (Z.sgn z * m' * 2 ^ e') with ((m' * 2 ^ e') * Z.sgn z) by ring. unfold p. clear - Hsgn.
        destruct z; cbn in *; lia.
    + assert (p = 2 ^ 53 /\ k = 1) as [Ep Ek].
      { assert (p <= 2 ^ 53) by (unfold p; exact Hs).
        assert (1 <= k) by lia. assert (2 ^ 1 <= 2 ^ k) by (apply Z.pow_le_mono_r; lia).
        assert (2 ^ 52 * 2 ^ k <= 2 ^ 52 * 2 ^ 1) by (change (2 ^ 52 * 2 ^ 1) with (2 ^ 53); lia).
        assert (2 ^ k <= 2 ^ 1) by lia. assert (k <= 1) by (apply (Z.pow_le_mono_r_iff 2); lia).
        split; [|lia]. assert (k = 1) as Ek by lia. rewrite Ek in Hb. change (2 ^ 52 * 2 ^ 1) with (2 ^ 53) in Hb. lia. }
      assert (Z.abs (m * 2 ^ e - z) = 0); [|lia]. rewrite Hdz.
      assert (q = 2 ^ 52 /\ r = 0) as [Eq Er].
      { unfold q, r. rewrite Ep, Ek. split; reflexivity. }
      rewrite Ek in *. change (2 ^ 1) with 2 in *. lia.
Qed.

(** ** The whole document *)
Lemma clone_rel (R : num -> num -> Prop) :
  forall j j', (forall z, In (NInt z) (numbers j) -> R (NInt z) (to_float z)) ->
    (forall m e, R (NFlt m e) (NFlt m e)) ->
  clone j = Ok j' -> same_but_numbers R j j'.
Proof.
  intros j j' HI HF. revert j' HI. induction j as [|b|n|s|l IH|m IH] using json_induction; intros j' HI Hc.
  - injection Hc as <-. constructor.
  - injection Hc as <-. constructor.
  - destruct n as [z|m e|]; cbn in Hc; try discriminate; injection Hc as <-; constructor; auto.
    apply HI. now left.
  - injection Hc as <-. constructor.
  - rewrite clone_arr_eq in Hc. apply bind_ok in Hc as (l' & Hl & Hc). injection Hc as <-. constructor.
    apply clone_list_ok in Hl. induction Hl as [|x y l l' Hxy _ IHl]; constructor; inversion IH as [|? ? Hx Hr]; subst.
    + apply Hx; [|exact Hxy]. intros z Hz. apply HI. cbn. apply in_or_app. now left.
    + apply IHl; [exact Hr|]. intros z Hz. apply HI. cbn. apply in_or_app. now right.
  - rewrite clone_obj_eq in Hc. apply bind_ok in Hc as (m' & Hm & Hc). injection Hc as <-. constructor.
    apply clone_map_ok in Hm. induction Hm as [|[k x] [k' y] m m' [Hk Hxy] _ IHm]; constructor; inversion IH as [|? ? Hx Hr]; subst.
    + split; [exact Hk|]. apply Hx; [|exact Hxy]. intros z Hz. apply HI. cbn. apply in_or_app. now left.
    + apply IHm; [exact Hr|]. intros z Hz. apply HI. cbn. apply in_or_app. now right.
Qed.

Theorem clone_same j j' : clone j = Ok j' -> same_but_numbers as_double j j'.
Proof.
  apply clone_rel; [|reflexivity]. intros z _. cbn. destruct (to_float_nearest z) as (m & e & -> & H & _). eauto.
Qed.

Theorem clone_exact j j' :
  (forall z, In (NInt z) (numbers j) -> Z.abs z <= 2 ^ 53) ->
  clone j = Ok j' -> same_but_numbers same_value j j'.
Proof.
  intro HI. apply clone_rel; [|reflexivity].
  intros z Hz. cbn. destruct (to_float_nearest z) as (m & e & -> & _ & H). exists m, e. auto.
Qed.

Theorem clone_fails j : clone j = Err <-> In NBad (numbers j).
Proof.
  induction j as [|b|n|s|l IH|m IH] using json_induction; try (cbn; split; [discriminate | tauto]).
  - destruct n; cbn; split; intro H; try discriminate; try reflexivity; try (now left); destruct H as [H|[]]; discriminate.
  - rewrite clone_arr_eq. assert (clone_list l = Err <-> In NBad (numbers (JArr l))) as HL.
    { induction IH as [|x l Hx _ IHl]; [cbn; split; [discriminate|tauto]|].
      cbn. fold (clone_list l). rewrite in_app_iff. change (In NBad (numbers (JArr l))) with (In NBad (numbers (JArr l))) in IHl.
      cbn in IHl. rewrite <- Hx, <- IHl.
      destruct (clone_cases x) as [[x' Ex]|Ex]; rewrite Ex; cbn [bind]; [|tauto].
      destruct (clone_list l); cbn [bind]; split; intro H; try tauto; try discriminate; destruct H as [H|H]; discriminate. }
    rewrite <- HL. destruct (clone_list l); cbn [bind]; split; intro H; try discriminate; reflexivity.
  - rewrite clone_obj_eq. assert (clone_map m = Err <-> In NBad (numbers (JObj m))) as HL.
    { induction IH as [|[k x] l Hx _ IHl]; [cbn; split; [discriminate|tauto]|].
      cbn. fold (clone_map l). rewrite in_app_iff. cbn in IHl, Hx. rewrite <- Hx, <- IHl.
      destruct (clone_cases x) as [[x' Ex]|Ex]; rewrite Ex; cbn [bind]; [|tauto].
      destruct (clone_map l); cbn [bind]; split; intro H; try tauto; try discriminate; destruct H as [H|H]; discriminate. }
    rewrite <- HL. destruct (clone_map m); cbn [bind]; split; intro H; try discriminate; reflexivity.
Qed.

Lemma to_float_flt z : exists m e, to_float z = NFlt m e.
Proof. destruct (to_float_nearest z) as (m & e & H & _). eauto. Qed.

Theorem clone_idem j : forall j', clone j = Ok j' -> clone j' = Ok j'.
Proof.
  induction j as [|b|n|s|l IH|m IH] using json_induction; intros j' Hc; try (injection Hc as <-; reflexivity).
  - destruct n as [z|m e|]; cbn in Hc; try discriminate; injection Hc as <-; [|reflexivity].
    destruct (to_float_flt z) as (m & e & ->). reflexivity.
  - rewrite clone_arr_eq in Hc. apply bind_ok in Hc as (l' & Hl & Hc). injection Hc as <-.
    rewrite clone_arr_eq. enough (clone_list l' = Ok l') as -> by reflexivity.
    apply clone_list_ok in Hl. induction Hl as [|x y l l' Hxy _ IHl]; [reflexivity|].
    inversion IH as [|? ? Hx Hr]; subst. cbn. fold (clone_list l').  rewrite (Hx _ Hxy). cbn [bind]. rewrite (IHl Hr). reflexivity.
  - rewrite clone_obj_eq in Hc. apply bind_ok in Hc as (l' & Hl & Hc). injection Hc as <-.
    rewrite clone_obj_eq. enough (clone_map l' = Ok l') as -> by reflexivity.
    apply clone_map_ok in Hl. induction Hl as [|[k x] [k' y] l l' [_ Hxy] _ IHl]; [reflexivity|].
    inversion IH as [|? ? Hx Hr]; subst. cbn in *. fold (clone_map l'). rewrite (Hx _ Hxy). cbn [bind]. rewrite (IHl Hr). reflexivity.
Qed.

(** 2^53+1 comes back as 2^53. *)
Theorem clone_lossy : exists z m e, clone (JNum (NInt z)) = Ok (JNum (NFlt m e)) /\ m * 2 ^ e <> z.
Proof. exists (2 ^ 53 + 1), 1, 53. split; [reflexivity | discriminate]. Qed.
