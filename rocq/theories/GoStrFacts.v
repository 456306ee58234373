(** Lemmas about the string primitives of GoStr.v. *)
From Coq Require Import String Ascii List Bool Arith NArith ZArith Lia.
From Verif Require Import GoStr.
Import ListNotations.
Local Open Scope string_scope.
Local Open Scope nat_scope.

Lemma app_nil_r_s s : s +++ "" = s.
Proof. induction s as [|c s IH]; cbn; [reflexivity | now rewrite IH]. Qed.

Lemma app_assoc_s a b c : (a +++ b) +++ c = a +++ (b +++ c).
Proof. induction a as [|x a IH]; cbn; [reflexivity | now rewrite IH]. Qed.

Lemma app_length_s a b : String.length (a +++ b) = String.length a + String.length b.
Proof. induction a as [|x a IH]; cbn; [reflexivity | now rewrite IH]. Qed.

Lemma app_inj_l a b c : a +++ b = a +++ c -> b = c.
Proof. induction a as [|x a IH]; cbn; [auto | intro H; injection H as H; auto]. Qed.

Lemma app_eq_nil_s a b : a +++ b = "" -> a = "" /\ b = "".
Proof. destruct a; cbn; [auto | discriminate]. Qed.

Lemma ascii_eqb_eq a b : Ascii.eqb a b = true <-> a = b.
Proof. apply Ascii.eqb_eq. Qed.

Lemma has_char_app c a b : has_char c (a +++ b) = has_char c a || has_char c b.
Proof. induction a as [|x a IH]; cbn; [reflexivity | rewrite IH; now rewrite orb_assoc]. Qed.

(** *** has_prefix *)
Lemma has_prefix_app p s : has_prefix p (p +++ s) = true.
Proof. induction p as [|c p IH]; cbn; [reflexivity | now rewrite Ascii.eqb_refl, IH]. Qed.

Lemma has_prefix_inv p s : has_prefix p s = true -> exists t, s = p +++ t.
Proof.
  revert s; induction p as [|c p IH]; intros s H; cbn in *.
  - now exists s.
  - destruct s as [|d s]; [discriminate|].
    apply andb_true_iff in H as [H1 H2]. apply Ascii.eqb_eq in H1 as ->.
    destruct (IH _ H2) as [t ->]. now exists t.
Qed.

Lemma has_prefix_iff p s : has_prefix p s = true <-> exists t, s = p +++ t.
Proof. split; [apply has_prefix_inv | intros [t ->]; apply has_prefix_app]. Qed.

Lemma skipn_s_app a b : skipn_s (String.length a) (a +++ b) = b.
Proof. induction a; cbn; auto. Qed.

Lemma firstn_s_app a b : firstn_s (String.length a) (a +++ b) = a.
Proof. induction a as [|c a IH]; cbn; [now destruct b | now rewrite IH]. Qed.

Lemma firstn_skipn_s n s : firstn_s n s +++ skipn_s n s = s.
Proof. revert s; induction n as [|n IH]; intros [|c s]; cbn; auto. now rewrite IH. Qed.

(** *** split / join *)
Lemma split_char_nonempty c s : split_char c s <> [].
Proof.
  induction s as [|d s IH]; cbn; [discriminate|].
  destruct (Ascii.eqb c d); [discriminate|].
  destruct (split_char c s); [contradiction | discriminate].
Qed.

Lemma split_char_none c s : has_char c s = false -> split_char c s = [s].
Proof.
  induction s as [|d s IH]; cbn; intro H; [reflexivity|].
  apply orb_false_iff in H as [H1 H2]. rewrite H1, (IH H2). reflexivity.
Qed.

Lemma split_char_app_sep c a b :
  has_char c a = false -> split_char c (a +++ String c b) = a :: split_char c b.
Proof.
  induction a as [|d a IH]; cbn; intro H.
  - now rewrite Ascii.eqb_refl.
  - apply orb_false_iff in H as [H1 H2]. rewrite H1, (IH H2). reflexivity.
Qed.

Lemma join_cons sep x y l : join sep (x :: y :: l) = x +++ sep +++ join sep (y :: l).
Proof. reflexivity. Qed.

Lemma split_join c l :
  l <> [] -> Forall (fun t => has_char c t = false) l ->
  split_char c (join (str1 c) l) = l.
Proof.
  intros Hne H. induction H as [|x l Hx Hl IH]; [contradiction|].
  destruct l as [|y l].
  - cbn. now apply split_char_none.
  - rewrite join_cons. cbn [str1 append].
    rewrite split_char_app_sep by assumption. f_equal. apply IH. discriminate.
Qed.

Lemma join_split c s : join (str1 c) (split_char c s) = s.
Proof.
  induction s as [|d s IH]; [reflexivity|].
  cbn [split_char]. destruct (Ascii.eqb c d) eqn:E.
  - apply Ascii.eqb_eq in E as ->.
    destruct (split_char d s) as [|y l] eqn:Es; [now destruct (split_char_nonempty d s)|].
    rewrite join_cons. cbn [append str1]. cbn. f_equal. exact IH.
  - destruct (split_char c s) as [|y l] eqn:Es; [now destruct (split_char_nonempty c s)|].
    destruct l as [|z l].
    + cbn in *. now rewrite IH.
    + rewrite join_cons in *. cbn [append]. now rewrite IH.
Qed.

Lemma split_char_no_sep c s : Forall (fun t => has_char c t = false) (split_char c s).
Proof.
  induction s as [|d s IH]; cbn; [repeat constructor|].
  destruct (Ascii.eqb c d) eqn:E.
  - constructor; [reflexivity | exact IH].
  - destruct (split_char c s) as [|y l]; [repeat constructor; cbn; now rewrite E|].
    inversion IH; subst. constructor; [cbn; now rewrite E | assumption].
Qed.

Lemma split_char_inj c a b : split_char c a = split_char c b -> a = b.
Proof. intro H. rewrite <- (join_split c a), <- (join_split c b), H. reflexivity. Qed.

(** *** cut_char *)
Lemma cut_char_app c a b : has_char c a = false -> cut_char c (a +++ String c b) = Some (a, b).
Proof.
  induction a as [|d a IH]; cbn; intro H.
  - now rewrite Ascii.eqb_refl.
  - apply orb_false_iff in H as [H1 H2]. now rewrite H1, (IH H2).
Qed.

Lemma cut_char_none c s : cut_char c s = None <-> has_char c s = false.
Proof.
  induction s as [|d s IH]; cbn; [tauto|].
  destruct (Ascii.eqb c d); cbn; [split; discriminate|].
  destruct (cut_char c s) as [[a b]|]; [|tauto].
  split; [discriminate|]. intro H. apply IH in H. discriminate.
Qed.

Lemma cut_char_some c s a b : cut_char c s = Some (a, b) -> s = a +++ String c b /\ has_char c a = false.
Proof.
  revert a; induction s as [|d s IH]; intros a H; cbn in H; [discriminate|].
  destruct (Ascii.eqb c d) eqn:E.
  - injection H as <- <-. apply Ascii.eqb_eq in E as ->. split; reflexivity.
  - destruct (cut_char c s) as [[x y]|] eqn:Ec; [|discriminate].
    injection H as <- <-. destruct (IH _ eq_refl) as [-> Hx].
    cbn. split; [reflexivity | now rewrite E, Hx].
Qed.

(** *** replace_all *)
Lemma replace_from_skip old new a b :
  replace_from (String.length a) old new (a +++ b) = replace_from 0 old new b.
Proof.
  induction a as [|c a IH]; cbn [append String.length]; [reflexivity|].
  exact IH.
Qed.

Lemma replace_all_match c old new s :
  replace_all (String c old) new (String c old +++ s) = new +++ replace_all (String c old) new s.
Proof.
  unfold replace_all. cbn [append].
  cbn [replace_from].
  rewrite (has_prefix_app (String c old) s : has_prefix (String c old) (String c (old +++ s)) = true).
  cbn [String.length]. rewrite Nat.sub_succ, Nat.sub_0_r, replace_from_skip. reflexivity.
Qed.

Lemma replace_all_nomatch old new c s :
  has_prefix old (String c s) = false ->
  replace_all old new (String c s) = String c (replace_all old new s).
Proof. unfold replace_all. cbn [replace_from]. intros ->. reflexivity. Qed.

Lemma replace_all_nil old new : replace_all old new "" = "".
Proof. reflexivity. Qed.

(** Two-byte pattern [x y]. *)
Lemma replace2_hit x y new s :
  replace_all (String x (str1 y)) new (String x (String y s)) = new +++ replace_all (String x (str1 y)) new s.
Proof. apply (replace_all_match x (str1 y) new s). Qed.

Lemma replace2_miss1 x y new c s :
  c <> x -> replace_all (String x (str1 y)) new (String c s) = String c (replace_all (String x (str1 y)) new s).
Proof.
  intro H. apply replace_all_nomatch. cbn.
  replace (Ascii.eqb x c) with false; [reflexivity|].
  symmetry. apply Ascii.eqb_neq. congruence.
Qed.

Lemma replace2_miss2 x y new d s :
  d <> y -> replace_all (String x (str1 y)) new (String x (String d s)) =
            String x (replace_all (String x (str1 y)) new (String d s)).
Proof.
  intro H. apply replace_all_nomatch. cbn. rewrite Ascii.eqb_refl.
  replace (Ascii.eqb y d) with false; [reflexivity|].
  symmetry. apply Ascii.eqb_neq. congruence.
Qed.

Lemma replace2_last x y new : replace_all (String x (str1 y)) new (str1 x) = str1 x.
Proof. apply replace_all_nomatch. cbn. now rewrite Ascii.eqb_refl. Qed.

(** One-byte pattern. *)
Fixpoint subst_char (x : ascii) (new s : string) : string :=
  match s with
  | EmptyString => EmptyString
  | String c s' => (if Ascii.eqb c x then new else str1 c) +++ subst_char x new s'
  end.

Lemma replace1_subst x new s : replace_all (str1 x) new s = subst_char x new s.
Proof.
  induction s as [|c s IH]; [reflexivity|].
  cbn [subst_char]. destruct (Ascii.eqb c x) eqn:E.
  - apply Ascii.eqb_eq in E as ->.
    change (String x s) with (str1 x +++ s).
    unfold str1 at 1 2. rewrite replace_all_match. now rewrite <- IH.
  - rewrite replace_all_nomatch.
    + now rewrite IH.
    + cbn. rewrite Ascii.eqb_sym, E. reflexivity.
Qed.

Lemma replace_all_absent old new s c :
  has_char c old = true -> has_char c s = false -> replace_all old new s = s.
Proof.
  intros Ho. induction s as [|d s IH]; intro Hs; [reflexivity|].
  cbn in Hs. apply orb_false_iff in Hs as [Hd Hs].
  rewrite replace_all_nomatch; [now rewrite IH|].
  destruct (has_prefix old (String d s)) eqn:E; [|reflexivity].
  apply has_prefix_inv in E as [t Et].
  assert (has_char c (String d s) = true) as Hx by (rewrite Et, has_char_app, Ho; reflexivity).
  cbn in Hx. rewrite Hd, Hs in Hx. discriminate.
Qed.

(** *** itoa / atoi *)
Lemma digit_char n : n < 10 -> is_digit (ascii_of_nat (48 + n)) = true /\
                               nat_of_ascii (ascii_of_nat (48 + n)) - 48 = n.
Proof.
  intro H. unfold is_digit, in_range. rewrite nat_ascii_embedding by lia.
  split; [|lia]. apply andb_true_iff; split; apply Nat.leb_le; lia.
Qed.

Lemma digits_val_app acc a b :
  digits_val acc (a +++ b) = match digits_val acc a with Some z => digits_val z b | None => None end.
Proof.
  revert acc; induction a as [|c a IH]; intro acc; cbn; [reflexivity|].
  destruct (is_digit c); [apply IH | reflexivity].
Qed.

Lemma itoa_fuel_digits fuel n : n < fuel -> digits_val 0 (itoa_fuel fuel n) = Some (Z.of_nat n).
Proof.
  revert n; induction fuel as [|fuel IH]; intros n H; [lia|].
  cbn [itoa_fuel]. destruct (Nat.ltb_spec n 10) as [Hn|Hn].
  - destruct (digit_char n Hn) as [H1 H2]. cbn [digits_val str1]. rewrite H1, H2. f_equal; lia.
  - assert (n / 10 < n) by (apply Nat.div_lt; lia).
    rewrite digits_val_app, IH by lia.
    assert (n mod 10 < 10) as Hm by (apply Nat.mod_upper_bound; lia).
    destruct (digit_char _ Hm) as [H1 H2]. cbn [digits_val str1]. rewrite H1, H2. f_equal.
    pose proof (Nat.div_mod n 10 ltac:(lia)). lia.
Qed.

Lemma itoa_fuel_nonempty fuel n : 0 < fuel -> itoa_fuel fuel n <> "".
Proof.
  destruct fuel as [|fuel]; [lia|]. intros _. cbn [itoa_fuel].
  destruct (n <? 10); [discriminate|]. intro H. apply app_eq_nil_s in H as [_ H]. discriminate.
Qed.

Lemma itoa_all_digits fuel n c : 0 < fuel -> has_char c (itoa_fuel fuel n) = true -> is_digit c = true.
Proof.
  revert n; induction fuel as [|fuel IH]; intros n Hf H; [lia|].
  cbn [itoa_fuel] in H. destruct (Nat.ltb_spec n 10) as [Hn|Hn].
  - cbn in H. rewrite orb_false_r in H. apply Ascii.eqb_eq in H as ->. now apply digit_char.
  - rewrite has_char_app in H. apply orb_true_iff in H as [H|H].
    + destruct fuel; [discriminate H|]. eapply IH; [lia | exact H].
    + cbn [has_char str1] in H. rewrite orb_false_r in H. apply Ascii.eqb_eq in H. subst c.
      apply digit_char. apply Nat.mod_upper_bound; lia.
Qed.

Lemma itoa_no_char n c : is_digit c = false -> has_char c (itoa n) = false.
Proof.
  intro H. destruct (has_char c (itoa n)) eqn:E; [|reflexivity].
  apply itoa_all_digits in E; [congruence | lia].
Qed.

Lemma udigits_itoa n : udigits (itoa n) = Some (Z.of_nat n).
Proof.
  unfold udigits, itoa. destruct (itoa_fuel (S n) n) eqn:E.
  - exfalso. eapply itoa_fuel_nonempty; [|exact E]. lia.
  - rewrite <- E. apply itoa_fuel_digits. lia.
Qed.

Lemma udigits_nonneg s z : udigits s = Some z -> (0 <= z)%Z.
Proof.
  unfold udigits. destruct s as [|c s]; [discriminate|].
  generalize (String c s). intro t.
  assert (forall acc, (0 <= acc)%Z -> digits_val acc t = Some z -> (0 <= z)%Z) as H.
  { induction t as [|d t IH]; cbn; intros acc Ha H; [injection H as <-; exact Ha|].
    destruct (is_digit d); [|discriminate]. eapply IH; [|exact H]. lia. }
  apply H. lia.
Qed.

Lemma atoi_digit c s : is_digit c = true ->
  atoi (String c s) =
  match udigits (String c s) with
  | Some z => if ((- 2 ^ 63 <=? z) && (z <? 2 ^ 63))%Z then Some z else None
  | None => None
  end.
Proof.
  intro Hc. destruct c as [b0 b1 b2 b3 b4 b5 b6 b7].
  destruct b0, b1, b2, b3, b4, b5, b6, b7; try discriminate Hc; reflexivity.
Qed.

Lemma atoi_itoa n : (Z.of_nat n < 2 ^ 63)%Z -> atoi (itoa n) = Some (Z.of_nat n).
Proof.
  intro H. pose proof (udigits_itoa n) as Hu. destruct (itoa n) as [|c s] eqn:E.
  - discriminate Hu.
  - rewrite atoi_digit, Hu.
    + assert ((- 2 ^ 63 <=? Z.of_nat n)%Z = true) as -> by (apply Z.leb_le; lia).
      assert ((Z.of_nat n <? 2 ^ 63)%Z = true) as -> by (apply Z.ltb_lt; lia).
      reflexivity.
    + apply (itoa_all_digits (S n) n); [lia|]. fold (itoa n). rewrite E. cbn. now rewrite Ascii.eqb_refl.
Qed.

(** *** string order *)
Lemma scmp_refl s : String.compare s s = Eq.
Proof.
  induction s as [|c s IH]; cbn; [reflexivity|].
  unfold Ascii.compare. now rewrite N.compare_refl.
Qed.

Lemma scmp_eq a b : String.compare a b = Eq <-> a = b.
Proof. split; [apply String.compare_eq_iff | intros ->; apply scmp_refl]. Qed.

Lemma acmp_lt a b : Ascii.compare a b = Lt <-> (N_of_ascii a < N_of_ascii b)%N.
Proof. unfold Ascii.compare. apply N.compare_lt_iff. Qed.

Lemma acmp_eq a b : Ascii.compare a b = Eq <-> a = b.
Proof.
  split; [apply Ascii.compare_eq_iff|]. intros ->. unfold Ascii.compare. apply N.compare_refl.
Qed.

Lemma scmp_trans a b c : String.compare a b = Lt -> String.compare b c = Lt -> String.compare a c = Lt.
Proof.
  revert b c; induction a as [|x a IH]; intros [|y b] [|z c]; cbn; try congruence.
  intros H1 H2.
  destruct (Ascii.compare x y) eqn:E1; try discriminate.
  - apply acmp_eq in E1 as ->. destruct (Ascii.compare y z); try discriminate; [eauto | reflexivity].
  - destruct (Ascii.compare y z) eqn:E2; try discriminate.
    + apply acmp_eq in E2 as <-. now rewrite E1.
    + assert (Ascii.compare x z = Lt) as ->; [|reflexivity].
      apply acmp_lt in E1. apply acmp_lt in E2. apply acmp_lt. eapply N.lt_trans; eassumption.
Qed.

Lemma scmp_gt a b : String.compare a b = Gt <-> String.compare b a = Lt.
Proof.
  rewrite (String.compare_antisym a b).
  destruct (String.compare b a); cbn; split; congruence.
Qed.

Lemma scons_inj c d s t : String c s = String d t -> c = d /\ s = t.
Proof. intro E. split; [exact (f_equal (fun x => match x with String a _ => a | _ => c end) E) | exact (f_equal (fun x => match x with String _ a => a | _ => s end) E)]. Qed.
