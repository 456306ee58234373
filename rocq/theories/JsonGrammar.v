(** What the JSON reader accepts is a layout of the value it returns. *)
From Coq Require Import String Ascii List Bool Arith ZArith Lia.
From Verif Require Import GoStr GoStrFacts Json JsonFacts JsonText JsonTextFacts JsonReadFacts.
Import ListNotations.
Local Open Scope string_scope.
Local Open Scope nat_scope.
Local Open Scope list_scope.

Lemma skip_split s : exists w, ws w /\ s = w +++ skip_ws s /\ (forall c r, skip_ws s = String c r -> is_ws c = false).
Proof.
  induction s as [|c s IH]; [exists ""; repeat split; discriminate|]. cbn [skip_ws]. destruct (is_ws c) eqn:E.
  - destruct IH as (w & Hw & Es & N). exists (String c w). split; [unfold ws; cbn [all]; now rewrite E|]. split; [cbn [append]; now rewrite <- Es | exact N].
  - exists "". split; [reflexivity|]. split; [reflexivity|]. intros c' r' Q. injection Q as <- <-. exact E.
Qed.

(** A string literal, by the bytes it is made of; [G] restricts the characters
    used after a backslash. *)
Inductive strbytes (G : ascii -> Prop) : string -> string -> Prop :=
| sb_end : strbytes G "" (str1 DQ)
| sb_plain c x t : Ascii.eqb c DQ = false -> Ascii.eqb c BS = false -> (nat_of_ascii c <? 32) = false -> strbytes G x t -> strbytes G (String c x) (String c t)
| sb_esc d y x t : Ascii.eqb d "u" = false -> unesc1 d = Some y -> G d -> strbytes G x t -> strbytes G (String y x) (String BS (String d t))
| sb_hex h1 h2 h3 h4 n u x t : hex4 h1 h2 h3 h4 = Some n -> utf8 n = Some u -> strbytes G x t ->
    strbytes G (u +++ x) (String BS (String "u" (String h1 (String h2 (String h3 (String h4 t))))))
| sb_pair h1 h2 h3 h4 n g1 g2 g3 g4 k x t : hex4 h1 h2 h3 h4 = Some n -> utf8 n = None -> high_half n = true ->
    hex4 g1 g2 g3 g4 = Some k -> low_half k = true -> G "u"%char -> strbytes G x t ->
    strbytes G (utf8_pair n k +++ x) (String BS (String "u" (String h1 (String h2 (String h3 (String h4
      (String BS (String "u" (String g1 (String g2 (String g3 (String g4 t))))))))))))
| sb_lone h1 h2 h3 h4 n x t : hex4 h1 h2 h3 h4 = Some n -> utf8 n = None -> (high_half n = true -> low_next t = None) ->
    G "u"%char -> strbytes G x t ->
    strbytes G (replacement +++ x) (String BS (String "u" (String h1 (String h2 (String h3 (String h4 t)))))).

Definition anyesc (_ : ascii) : Prop := True.

Lemma before_some a o s r : before a o = Some (s, r) -> exists x, o = Some (x, r) /\ s = a +++ x.
Proof. destruct o as [(x, r')|]; [|discriminate]. cbn. intro H. injection H as <- <-. eauto. Qed.

Lemma low_next_some s k : low_next s = Some k -> exists g1 g2 g3 g4 r, s = String BS (String "u" (String g1 (String g2 (String g3 (String g4 r))))) /\
  hex4 g1 g2 g3 g4 = Some k /\ low_half k = true.
Proof.
  unfold low_next. intro H. destruct s as [|c [|d [|g1 [|g2 [|g3 [|g4 r]]]]]]; try discriminate.
  destruct (Ascii.eqb c BS) eqn:E1; [|discriminate]. destruct (Ascii.eqb d "u") eqn:E2; [|discriminate]. apply Ascii.eqb_eq in E1 as ->. apply Ascii.eqb_eq in E2 as ->.
  destruct (hex4 g1 g2 g3 g4) as [j|] eqn:E3; [|discriminate]. destruct (low_half j) eqn:E4; [|discriminate]. injection H as <-.
  exists g1, g2, g3, g4, r. now repeat split.
Qed.
(** Whether a literal goes on with a low surrogate does not depend on what comes after it. *)
Lemma low_next_app G x t r : strbytes G x t -> low_next t = None -> low_next (t +++ r) = None.
Proof.
  intros H N. destruct H as [|c x t E1 E2 E3 H|d y x t E1 E2 Gd H|h1 h2 h3 h4 n u x t E1 E2 H|h1 h2 h3 h4 n g1 g2 g3 g4 k x t E1 E2 E3 E4 E5 Gu H|h1 h2 h3 h4 n x t E1 E2 E3 Gu H]; cbn [append str1].
  - now apply low_next_c.
  - now apply low_next_c.
  - now apply low_next_d.
  - rewrite (low_next_u _ _ _ _ _ _ E1) in N. rewrite (low_next_u _ _ _ _ _ _ E1). exact N.
  - rewrite (low_next_u _ _ _ _ _ _ E1) in N. rewrite (low_next_u _ _ _ _ _ _ E1). exact N.
  - rewrite (low_next_u _ _ _ _ _ _ E1) in N. rewrite (low_next_u _ _ _ _ _ _ E1). exact N.
Qed.

Lemma read_str_bytes n : forall s x r, String.length s <= n -> read_str s = Some (x, r) -> exists t, s = t +++ r /\ strbytes anyesc x t.
Proof.
  induction n as [|n IH]; intros s x r L H; [destruct s; [discriminate | cbn in L; lia]|].
  destruct s as [|c s]; [discriminate|]. cbn [String.length] in L. cbn [read_str] in H.
  destruct (Ascii.eqb c DQ) eqn:E1.
  - injection H as <- <-. apply Ascii.eqb_eq in E1 as ->. exists (str1 DQ). split; [reflexivity | constructor].
  - destruct (Ascii.eqb c BS) eqn:E2.
    + apply Ascii.eqb_eq in E2 as ->. destruct s as [|d s]; [discriminate|]. destruct (Ascii.eqb d "u") eqn:E3.
      * apply Ascii.eqb_eq in E3 as ->. destruct s as [|h1 [|h2 [|h3 [|h4 s]]]]; try discriminate.
        destruct (hex4 h1 h2 h3 h4) as [k|] eqn:Eh; [|discriminate]. destruct (utf8 k) as [u|] eqn:Eu.
        { apply before_some in H as (y & H & ->). apply IH in H as (t & -> & S); [|cbn [String.length] in L; lia].
          eexists (String BS (String "u" (String h1 (String h2 (String h3 (String h4 t)))))). split; [reflexivity|]. now apply (sb_hex _ h1 h2 h3 h4 k u). }
        destruct (if high_half k then low_next s else None) as [j|] eqn:El.
        { destruct (high_half k) eqn:Ehi; [|discriminate El]. apply low_next_some in El as (g1 & g2 & g3 & g4 & s' & -> & Eg & Elo).
          apply before_some in H as (y & H & ->). apply IH in H as (t & -> & S); [|cbn [String.length] in L; lia].
          exists (String BS (String "u" (String h1 (String h2 (String h3 (String h4 (String BS (String "u" (String g1 (String g2 (String g3 (String g4 t)))))))))))).
          split; [reflexivity|]. now apply (sb_pair _ h1 h2 h3 h4 k g1 g2 g3 g4 j). }
        assert (H' : before replacement (read_str s) = Some (x, r)) by exact H. clear H.
        apply before_some in H' as (y & H & ->). apply IH in H as (t & -> & S); [|cbn [String.length] in L; lia].
        exists (String BS (String "u" (String h1 (String h2 (String h3 (String h4 t)))))). split; [reflexivity|].
        apply (sb_lone _ h1 h2 h3 h4 k); [exact Eh | exact Eu | | exact Logic.I | exact S]. intro Ehi. rewrite Ehi in El.
        destruct (low_next t) as [j|] eqn:Ej; [|reflexivity]. exfalso. apply low_next_some in Ej as (g1 & g2 & g3 & g4 & t' & -> & Eg & Elo).
        cbn [append] in El. rewrite (low_next_u _ _ _ _ _ _ Eg), Elo in El. discriminate El.
      * destruct (unesc1 d) as [y|] eqn:Ey; [|discriminate]. apply before_some in H as (z & H & ->). apply IH in H as (t & -> & S); [|cbn [String.length] in L; lia].
        exists (String BS (String d t)). split; [reflexivity|]. now apply (sb_esc _ d y).
    + destruct (nat_of_ascii c <? 32) eqn:E3; [discriminate|]. apply before_some in H as (z & H & ->). apply IH in H as (t & -> & S); [|lia].
      exists (String c t). split; [reflexivity|]. now apply sb_plain.
Qed.
Lemma bytes_strlit G x t : strbytes G x t -> strlit x t.
Proof.
  intro H. induction H as [|c x t E1 E2 E3 H IH|d y x t E1 E2 _ H IH|h1 h2 h3 h4 n u x t E1 E2 H IH|h1 h2 h3 h4 n g1 g2 g3 g4 k x t E1 E2 E3 E4 E5 Gu H IH|h1 h2 h3 h4 n x t E1 E2 E3 Gu H IH]; intro r.
  all: cbn [append str1].
  - reflexivity.
  - cbn [read_str]. rewrite E1, E2, E3, IH. reflexivity.
  - rewrite (read_esc d y _ E1 E2), IH. reflexivity.
  - rewrite (read_u h1 h2 h3 h4 n u _ E1 E2), IH. reflexivity.
  - rewrite (read_pair h1 h2 h3 h4 n g1 g2 g3 g4 k _ E1 E2 E3 E4 E5), IH. reflexivity.
  - rewrite (read_lone h1 h2 h3 h4 n _ E1 E2); [now rewrite IH|]. intro Q. now apply (low_next_app G x t r H), E3.
Qed.
Lemma strlit_bytes x t : strlit x t -> strbytes anyesc x t.
Proof.
  intro H. specialize (H ""). rewrite app_nil_r_s in H. destruct (read_str_bytes _ t x "" (Nat.le_refl _) H) as (t' & -> & S). now rewrite app_nil_r_s.
Qed.

Lemma prefix_split p s : has_prefix p s = true -> s = p +++ skipn_s (String.length p) s.
Proof.
  revert s. induction p as [|c p IH]; intros s H; [reflexivity|]. destruct s as [|d s]; [discriminate|]. cbn [has_prefix] in H.
  apply andb_prop in H as (E & H). apply Ascii.eqb_eq in E as ->. cbn [append String.length skipn_s]. f_equal. now apply IH.
Qed.

Lemma span_split s a b : span_num s = (a, b) -> s = a +++ b.
Proof.
  revert a b. induction s as [|c s IH]; intros a b H; cbn [span_num] in H; [now injection H as <- <-|].
  destruct (num_char c); [|now injection H as <- <-]. destruct (span_num s) as (a', b') eqn:E. injection H as <- <-. cbn [append]. f_equal. now apply IH.
Qed.

Section Grammar.
  Context (rd : string -> option num).
  Local Notation lay := (lay rd ws).
  Local Notation lays := (lays rd ws).
  Local Notation laym := (laym rd ws).

  Lemma elems_lay f : (forall s j r, read_value rd f s = Some (j, r) -> exists w t, ws w /\ s = w +++ t +++ r /\ lay j t) ->
    forall n s l r, read_elems n (read_value rd f) s = Some (l, r) -> exists t, s = t +++ r /\ lays l t.
  Proof.
    intro V. induction n as [|n IH]; intros s l r H; [discriminate|]. cbn [read_elems] in H.
    destruct (read_value rd f s) as [(x, r1)|] eqn:E; [|discriminate]. destruct (V _ _ _ E) as (w & t & Hw & -> & Ht).
    destruct (skip_split r1) as (w2 & Hw2 & E2 & _). destruct (skip_ws r1) as [|c r2]; [discriminate|].
    destruct (Ascii.eqb c ",") eqn:Ec.
    - apply Ascii.eqb_eq in Ec as ->. destruct (read_elems n (read_value rd f) r2) as [(l', r3)|] eqn:E3; [|discriminate]. injection H as <- <-.
      destruct (IH _ _ _ E3) as (t' & -> & Hl). exists (w +++ t +++ w2 +++ String "," t'). split; [rewrite E2; now rewrite ?app_assoc_s|]. now apply lays_cons.
    - destruct (Ascii.eqb c "]") eqn:Ec2; [|discriminate]. apply Ascii.eqb_eq in Ec2 as ->. injection H as <- <-.
      exists (w +++ t +++ w2 +++ "]"). split; [rewrite E2; now rewrite ?app_assoc_s|]. now apply lays_one.
  Qed.
  Lemma members_lay f : (forall s j r, read_value rd f s = Some (j, r) -> exists w t, ws w /\ s = w +++ t +++ r /\ lay j t) ->
    forall n s l r, read_members n (read_value rd f) s = Some (l, r) -> exists t, s = t +++ r /\ laym l t.
  Proof.
    intro V. induction n as [|n IH]; intros s l r H; [discriminate|]. cbn [read_members] in H.
    destruct (skip_split s) as (w1 & Hw1 & E1 & _). destruct (skip_ws s) as [|q s1]; [discriminate|].
    destruct (Ascii.eqb q DQ) eqn:Eq; [|discriminate]. apply Ascii.eqb_eq in Eq as ->. cbn [negb] in H.
    destruct (read_str s1) as [(k, s2)|] eqn:Ek; [|discriminate]. destruct (read_str_bytes _ _ _ _ (Nat.le_refl _) Ek) as (kt & -> & Sk). apply (bytes_strlit anyesc) in Sk.
    destruct (skip_split s2) as (w2 & Hw2 & E2 & _). destruct (skip_ws s2) as [|c s3]; [discriminate|].
    destruct (Ascii.eqb c ":") eqn:Ec; [|discriminate]. apply Ascii.eqb_eq in Ec as ->. cbn [negb] in H.
    destruct (read_value rd f s3) as [(x, r1)|] eqn:E; [|discriminate]. destruct (V _ _ _ E) as (w3 & t & Hw3 & -> & Ht).
    destruct (skip_split r1) as (w4 & Hw4 & E4 & _). destruct (skip_ws r1) as [|c r2]; [discriminate|].
    destruct (Ascii.eqb c ",") eqn:Ec.
    - apply Ascii.eqb_eq in Ec as ->. destruct (read_members n (read_value rd f) r2) as [(l', r3)|] eqn:E3; [|discriminate]. injection H as <- <-.
      destruct (IH _ _ _ E3) as (t' & -> & Hl). exists (w1 +++ String DQ (kt +++ w2 +++ String ":" (w3 +++ t +++ w4 +++ String "," t'))).
      split; [rewrite E1, E2, E4; rewrite ?app_assoc_s; cbn [append]; rewrite ?app_assoc_s; cbn [append]; rewrite ?app_assoc_s; reflexivity|]. now apply laym_cons.
    - destruct (Ascii.eqb c "}") eqn:Ec2; [|discriminate]. apply Ascii.eqb_eq in Ec2 as ->. injection H as <- <-.
      exists (w1 +++ String DQ (kt +++ w2 +++ String ":" (w3 +++ t +++ w4 +++ "}"))).
      split; [rewrite E1, E2, E4; rewrite ?app_assoc_s; cbn [append]; rewrite ?app_assoc_s; cbn [append]; rewrite ?app_assoc_s; reflexivity|]. now apply laym_one.
  Qed.

  Theorem value_lay f : forall s j r, read_value rd f s = Some (j, r) -> exists w t, ws w /\ s = w +++ t +++ r /\ lay j t.
  Proof.
    induction f as [|f IH]; intros s j r H; [discriminate|]. cbn [read_value] in H.
    destruct (skip_split s) as (w & Hw & E & _). destruct (skip_ws s) as [|c r0]; [discriminate|]. exists w.
    destruct (Ascii.eqb c DQ) eqn:E1.
    { apply Ascii.eqb_eq in E1 as ->. destruct (read_str r0) as [(x, r')|] eqn:Er; [|discriminate]. injection H as <- <-.
      destruct (read_str_bytes _ _ _ _ (Nat.le_refl _) Er) as (t & -> & S). exists (String DQ t). split; [exact Hw|]. split; [exact E|]. apply lay_str. now apply (bytes_strlit anyesc). }
    destruct (Ascii.eqb c "{") eqn:E2.
    { apply Ascii.eqb_eq in E2 as ->. destruct (skip_split r0) as (w2 & Hw2 & Er & _). destruct (skip_ws r0) as [|d r1]; [discriminate|].
      destruct (Ascii.eqb d "}") eqn:E3.
      - apply Ascii.eqb_eq in E3 as ->. injection H as <- <-. exists (String "{" (w2 +++ "}")). split; [exact Hw|]. split; [|now apply lay_obj0].
        rewrite E, Er. cbn [append]. rewrite ?app_assoc_s. reflexivity.
      - destruct (read_members f (read_value rd f) r0) as [(l, r2)|] eqn:E4; [|discriminate]. injection H as <- <-.
        destruct (members_lay f IH _ _ _ _ E4) as (t & -> & Hl). exists (String "{" t). split; [exact Hw|]. split; [exact E | now apply lay_obj]. }
    destruct (Ascii.eqb c "[") eqn:E3.
    { apply Ascii.eqb_eq in E3 as ->. destruct (skip_split r0) as (w2 & Hw2 & Er & _). destruct (skip_ws r0) as [|d r1]; [discriminate|].
      destruct (Ascii.eqb d "]") eqn:E4.
      - apply Ascii.eqb_eq in E4 as ->. injection H as <- <-. exists (String "[" (w2 +++ "]")). split; [exact Hw|]. split; [|now apply lay_arr0].
        rewrite E, Er. cbn [append]. rewrite ?app_assoc_s. reflexivity.
      - destruct (read_elems f (read_value rd f) r0) as [(l, r2)|] eqn:E5; [|discriminate]. injection H as <- <-.
        destruct (elems_lay f IH _ _ _ _ E5) as (t & -> & Hl). exists (String "[" t). split; [exact Hw|]. split; [exact E | now apply lay_arr]. }
    destruct (has_prefix "null" (String c r0)) eqn:P1.
    { injection H as <- <-. exists "null". split; [exact Hw|]. split; [|constructor]. rewrite E. f_equal. exact (prefix_split _ _ P1). }
    destruct (has_prefix "true" (String c r0)) eqn:P2.
    { injection H as <- <-. exists "true". split; [exact Hw|]. split; [|constructor]. rewrite E. f_equal. exact (prefix_split _ _ P2). }
    destruct (has_prefix "false" (String c r0)) eqn:P3.
    { injection H as <- <-. exists "false". split; [exact Hw|]. split; [|constructor]. rewrite E. f_equal. exact (prefix_split _ _ P3). }
    destruct (span_num (String c r0)) as (t, r') eqn:Es. destruct (is_number t) eqn:En; [|discriminate].
    destruct (rd t) as [n|] eqn:Er; [|discriminate]. injection H as <- <-. exists t. split; [exact Hw|]. split; [|now apply lay_num].
    rewrite E. f_equal. exact (span_split _ _ _ Es).
  Qed.

  Lemma skip_empty s : skip_ws s = "" -> ws s.
  Proof. induction s as [|c s IH]; intro H; [reflexivity|]. cbn [skip_ws] in H. destruct (is_ws c) eqn:E; [|discriminate]. unfold ws. cbn [all]. rewrite E. now apply IH. Qed.

  Lemma ws_num w : ws w -> nonnum w.
  Proof. intro H. destruct w as [|d w]; [exact I|]. cbn. unfold ws in H. cbn [all] in H. apply andb_true_iff in H as (Hd & _).
    assert (K : forall c, (if is_ws c then negb (num_char c) else true) = true) by bytes. specialize (K d). rewrite Hd in K. now apply negb_true_iff. Qed.
  Lemma skip_all w : ws w -> skip_ws w = "".
  Proof. intro H. rewrite <- (app_nil_r_s w). now rewrite (skip_ws_app w "" H). Qed.

  (** The grammar of the reader. *)
  Theorem read_json_iff s j : read_json rd s = Some j <-> exists w1 t w2, ws w1 /\ ws w2 /\ s = w1 +++ t +++ w2 /\ lay j t.
  Proof.
    split.
    - unfold read_json. intro H. destruct (read_value rd (S (String.length s)) s) as [(j', r)|] eqn:E; [|discriminate].
      destruct (String.eqb (skip_ws r) "") eqn:Er; [|discriminate]. injection H as <-. apply String.eqb_eq in Er.
      destruct (value_lay _ _ _ _ E) as (w & t & Hw & -> & Ht). exists w, t, r. repeat split; try assumption. now apply skip_empty.
    - intros (w1 & t & w2 & H1 & H2 & -> & Ht). unfold read_json. rewrite (read_value_ws rd _ w1 _ H1).
      rewrite (proj1 (read_layout rd ws (fun w H => H)) j t Ht); [now rewrite (skip_all w2 H2) | rewrite !len_app; lia | now apply ws_num].
  Qed.
End Grammar.
