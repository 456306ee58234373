(** Facts about JSON texts: what is written is read back. *)
From Coq Require Import String Ascii List Bool Arith ZArith Permutation Sorted Lia.
From Verif Require Import GoStr GoStrFacts Json JsonFacts Gabs Container Spec_Clone JsonText.
Import ListNotations.
Local Open Scope string_scope.
Local Open Scope nat_scope.
Local Open Scope list_scope.

(** ** Passes over strings *)
Lemma esc_ind (P : string -> Prop) : P "" ->
  (forall a r, (forall b c r', r = String b (String c r') -> line_sep a b c = None) -> P r -> P (String a r)) ->
  (forall a b c r e, line_sep a b c = Some e -> P r -> P (String a (String b (String c r)))) -> forall s, P s.
Proof.
  intros H0 H1 H2.
  assert (K : forall n s, String.length s <= n -> P s).
  { induction n as [|n IH]; intros s L; [destruct s; [exact H0 | cbn in L; lia]|].
    destruct s as [|a r]; [exact H0|]. destruct r as [|b [|c r]].
    - apply H1; [intros; discriminate | exact H0].
    - apply H1; [intros; discriminate | apply IH; cbn in *; lia].
    - destruct (line_sep a b c) as [e|] eqn:E.
      + apply (H2 a b c r e E). apply IH. cbn in L. lia.
      + apply H1; [|apply IH; cbn in *; lia]. intros b' c' r' Q. congruence. }
  intro s. now apply (K (String.length s)).
Qed.
Lemma esc_cons f a r : (forall b c r', r = String b (String c r') -> line_sep a b c = None) -> escape_by f (String a r) = f a +++ escape_by f r.
Proof.
  intro H. destruct r as [|b [|c r]]; [reflexivity | reflexivity|].
  change (escape_by f (String a (String b (String c r)))) with (match line_sep a b c with Some e => e +++ escape_by f r | None => f a +++ escape_by f (String b (String c r)) end).
  now rewrite (H b c r eq_refl).
Qed.
Lemma esc_sep f a b c r e : line_sep a b c = Some e -> escape_by f (String a (String b (String c r))) = e +++ escape_by f r.
Proof.
  intro H. change (escape_by f (String a (String b (String c r)))) with (match line_sep a b c with Some e => e +++ escape_by f r | None => f a +++ escape_by f (String b (String c r)) end).
  now rewrite H.
Qed.
Lemma line_sep_inv a b c e : line_sep a b c = Some e -> a = chr 226 /\ b = chr 128 /\ (c = chr 168 /\ e = String BS "u2028" \/ c = chr 169 /\ e = String BS "u2029").
Proof.
  unfold line_sep. destruct (Ascii.eqb_spec a (chr 226)) as [->|]; [|discriminate]. destruct (Ascii.eqb_spec b (chr 128)) as [->|]; [|discriminate]. cbn [andb].
  destruct (Ascii.eqb_spec c (chr 168)) as [->|]; [intro H; injection H as <-; auto|].
  destruct (Ascii.eqb_spec c (chr 169)) as [->|]; [intro H; injection H as <-; auto | discriminate].
Qed.
Definition asc (c : ascii) : bool := nat_of_ascii c <? 128.
Lemma line_sep_asc a b c : asc a = true \/ asc b = true \/ asc c = true -> line_sep a b c = None.
Proof.
  intro H. destruct (line_sep a b c) as [e|] eqn:E; [|reflexivity]. apply line_sep_inv in E as (-> & -> & [(-> & _)|(-> & _)]);
  destruct H as [H|[H|H]]; discriminate H.
Qed.
Fixpoint all (p : ascii -> bool) (s : string) : bool := match s with EmptyString => true | String c r => p c && all p r end.
Lemma all_app p a b : all p (a +++ b) = all p a && all p b.
Proof. induction a as [|c a IH]; cbn; [reflexivity|]. now rewrite IH, andb_assoc. Qed.
Fixpoint emap (f : ascii -> string) (s : string) : string := match s with EmptyString => EmptyString | String c r => f c +++ emap f r end.
Lemma esc_app f p t : all asc p = true -> escape_by f (p +++ t) = emap f p +++ escape_by f t.
Proof.
  induction p as [|c p IH]; intro H; [reflexivity|]. cbn in H. apply andb_true_iff in H as (Hc & Hp). cbn [append emap].
  rewrite esc_cons; [rewrite (IH Hp); symmetry; apply app_assoc_s|]. intros b c' r' _. apply line_sep_asc. now left.
Qed.

(** ** String literals *)
Lemma before_app a b x : before a (before b x) = before (a +++ b) x.
Proof. destruct x as [[s r]|]; [|reflexivity]. cbn. now rewrite app_assoc_s. Qed.
Definition plain_char (c : ascii) : bool := negb (Ascii.eqb c DQ) && negb (Ascii.eqb c BS) && negb (nat_of_ascii c <? 32).
Lemma read_plain c r : plain_char c = true -> read_str (String c r) = before (str1 c) (read_str r).
Proof.
  unfold plain_char. intro H. apply andb_true_iff in H as (H & H3). apply andb_true_iff in H as (H1 & H2). apply negb_true_iff in H1, H2, H3.
  cbn [read_str]. now rewrite H1, H2, H3.
Qed.
Definition opt_is (a : ascii) (x : option ascii) : bool := match x with Some b => Ascii.eqb a b | None => false end.
(** p is a way to write the byte a in a string literal. *)
Definition lit1 (p : string) (a : ascii) : bool :=
  match p with
  | String c EmptyString => Ascii.eqb c a && plain_char c
  | String c (String d EmptyString) => Ascii.eqb c BS && negb (Ascii.eqb d "u") && opt_is a (unesc1 d)
  | String c (String d (String h1 (String h2 (String h3 (String h4 EmptyString))))) =>
      Ascii.eqb c BS && Ascii.eqb d "u" &&
      match hex4 h1 h2 h3 h4 with Some n => match utf8 n with Some (String b EmptyString) => Ascii.eqb a b | _ => false end | None => false end
  | _ => false
  end.
Lemma read_esc d x r : Ascii.eqb d "u" = false -> unesc1 d = Some x -> read_str (String BS (String d r)) = before (str1 x) (read_str r).
Proof. intros H1 H2. cbn [read_str]. change (Ascii.eqb BS DQ) with false. change (Ascii.eqb BS BS) with true. cbn iota. now rewrite H1, H2. Qed.
Lemma read_u h1 h2 h3 h4 n u r : hex4 h1 h2 h3 h4 = Some n -> utf8 n = Some u ->
  read_str (String BS (String "u" (String h1 (String h2 (String h3 (String h4 r)))))) = before u (read_str r).
Proof. intros H1 H2. cbn [read_str]. change (Ascii.eqb BS DQ) with false. change (Ascii.eqb BS BS) with true. change (Ascii.eqb "u" "u") with true. cbn iota. now rewrite H1, H2. Qed.
Lemma read_pair h1 h2 h3 h4 n g1 g2 g3 g4 k r : hex4 h1 h2 h3 h4 = Some n -> utf8 n = None -> high_half n = true -> hex4 g1 g2 g3 g4 = Some k -> low_half k = true ->
  read_str (String BS (String "u" (String h1 (String h2 (String h3 (String h4
    (String BS (String "u" (String g1 (String g2 (String g3 (String g4 r)))))))))))) = before (utf8_pair n k) (read_str r).
Proof.
  intros H1 H2 H3 H4 H5. cbn [read_str]. change (Ascii.eqb BS DQ) with false. change (Ascii.eqb BS BS) with true. change (Ascii.eqb "u" "u") with true. cbn iota.
  rewrite H1, H2, H3. cbn [low_next]. change (Ascii.eqb BS BS) with true. change (Ascii.eqb "u" "u") with true. cbn iota. now rewrite H4, H5.
Qed.
Lemma read_lone h1 h2 h3 h4 n r : hex4 h1 h2 h3 h4 = Some n -> utf8 n = None -> (high_half n = true -> low_next r = None) ->
  read_str (String BS (String "u" (String h1 (String h2 (String h3 (String h4 r)))))) = before replacement (read_str r).
Proof.
  intros H1 H2 H3. cbn [read_str]. change (Ascii.eqb BS DQ) with false. change (Ascii.eqb BS BS) with true. change (Ascii.eqb "u" "u") with true. cbn iota.
  rewrite H1, H2. destruct (high_half n); [rewrite (H3 eq_refl)|]; reflexivity.
Qed.
Lemma utf8_high n u : utf8 n = Some u -> high_half n = false /\ low_half n = false.
Proof.
  unfold utf8, high_half, low_half. intro H. destruct (n <? 128) eqn:E1.
  - apply Nat.ltb_lt in E1. assert (n / 64 / 16 = 0) as -> by (rewrite Nat.div_div by discriminate; apply Nat.div_small; cbn; lia). now split.
  - destruct (n / 64 <? 32) eqn:E2.
    + apply Nat.ltb_lt in E2. assert (n / 64 / 16 < 2) by (apply Nat.div_lt_upper_bound; lia). split; apply Nat.eqb_neq; lia.
    + destruct (n / 64 / 32 =? 27) eqn:E3; [discriminate|]. apply Nat.eqb_neq in E3. assert (Q : n / 64 / 32 = n / 64 / 16 / 2) by (rewrite (Nat.div_div (n / 64) 16 2) by discriminate; reflexivity).
      split; apply Nat.eqb_neq; intro W; rewrite W in Q; apply E3; rewrite Q; reflexivity.
Qed.
(** The bytes of a pair are the UTF-8 of its code point. *)
Lemma dm_unique n d q r : n = d * q + r -> r < d -> n / d = q /\ n mod d = r.
Proof. intros -> H. split; symmetry; [now apply (Nat.div_unique _ d q r) | now apply (Nat.mod_unique _ d q r)]. Qed.
Lemma pair_code a b : a < 1024 -> b < 1024 ->
  let c := 64 * 1024 + 1024 * a + b in
  c / 64 / 64 / 64 = (a / 64 + 1) / 4 /\ c / 64 / 64 mod 64 = (a / 64 + 1) mod 4 * 16 + a mod 64 / 4 /\ c / 64 mod 64 = a mod 4 * 16 + b / 64 /\ c mod 64 = b mod 64.
Proof.
  intros Ha Hb c.
  assert (E : forall n d, d <> 0 -> exists q r, n = d * q + r /\ r < d) by (intros n d Hd; exists (n / d), (n mod d); split; [now apply Nat.div_mod | now apply Nat.mod_upper_bound]).
  destruct (E a 64) as (q & r & Ea & Hr); [discriminate|]. destruct (E r 4) as (u & v & Er & Hv); [discriminate|].
  destruct (E b 64) as (s & t & Eb & Ht); [discriminate|]. destruct (E (q + 1) 4) as (x & y & Ew & Hy); [discriminate|].
  destruct (dm_unique a 64 q r) as (A1 & A2); [lia | lia|]. destruct (dm_unique r 4 u v) as (R1 & R2); [lia | lia|].
  destruct (dm_unique a 4 (16 * q + u) v) as (_ & A3); [lia | lia|]. destruct (dm_unique b 64 s t) as (B1 & B2); [lia | lia|]. destruct (dm_unique (q + 1) 4 x y) as (W1 & W2); [lia | lia|].
  destruct (dm_unique c 64 (1024 + 16 * a + s) t) as (C1 & C2); [unfold c; lia | lia|].
  destruct (dm_unique (1024 + 16 * a + s) 64 (16 + 16 * q + u) (16 * v + s)) as (D1 & D2); [lia | lia|].
  destruct (dm_unique (16 + 16 * q + u) 64 x (16 * y + u)) as (F1 & F2); [lia | lia|].
  rewrite C1, C2, D1, D2, F1, F2, A1, A2, A3, R1, B1, B2, W1, W2. repeat split; lia.
Qed.
Lemma utf8_pair_code a b : a < 1024 -> b < 1024 -> let c := 64 * 1024 + 1024 * a + b in
  utf8_pair (54 * 1024 + a) (55 * 1024 + b) =
  String (chr (240 + c / 64 / 64 / 64)) (String (chr (128 + c / 64 / 64 mod 64)) (String (chr (128 + c / 64 mod 64)) (str1 (chr (128 + c mod 64))))).
Proof.
  intros Ha Hb c. destruct (pair_code a b Ha Hb) as (E1 & E2 & E3 & E4). fold c in E1, E2, E3, E4. unfold utf8_pair.
  destruct (dm_unique (54 * 1024 + a) 1024 54 a) as (_ & ->); [lia | exact Ha|]. destruct (dm_unique (55 * 1024 + b) 1024 55 b) as (_ & ->); [lia | exact Hb|].
  rewrite E1, E2, E3, E4. now rewrite Nat.add_assoc, Nat.add_assoc.
Qed.
Lemma low_next_u h1 h2 h3 h4 n r : hex4 h1 h2 h3 h4 = Some n -> low_next (String BS (String "u" (String h1 (String h2 (String h3 (String h4 r)))))) = if low_half n then Some n else None.
Proof. intro H. cbn [low_next]. change (Ascii.eqb BS BS) with true. change (Ascii.eqb "u" "u") with true. cbn iota. now rewrite H. Qed.
Lemma low_next_c c r : Ascii.eqb c BS = false -> low_next (String c r) = None.
Proof. intro H. unfold low_next. rewrite H. now destruct r as [|? [|? [|? [|? [|? ?]]]]]. Qed.
Lemma low_next_d c d r : Ascii.eqb d "u" = false -> low_next (String c (String d r)) = None.
Proof. intro H. unfold low_next. rewrite H. destruct r as [|? [|? [|? [|? ?]]]]; try reflexivity. now destruct (Ascii.eqb c BS). Qed.
Lemma read_lit1 p a t : lit1 p a = true -> read_str (p +++ t) = before (str1 a) (read_str t).
Proof.
  unfold lit1. destruct p as [|c [|d [|h1 [|h2 [|h3 [|h4 [|? ?]]]]]]]; try discriminate; intro H.
  - apply andb_true_iff in H as (H1 & H2). apply Ascii.eqb_eq in H1. subst c. now apply read_plain.
  - apply andb_true_iff in H as (H & H3). apply andb_true_iff in H as (H1 & H2). apply Ascii.eqb_eq in H1. subst c. apply negb_true_iff in H2.
    cbn [append]. destruct (unesc1 d) as [b|] eqn:U; [|discriminate]. cbn in H3. apply Ascii.eqb_eq in H3. subst b. now apply read_esc.
  - apply andb_true_iff in H as (H & H3). apply andb_true_iff in H as (H1 & H2). apply Ascii.eqb_eq in H1, H2. subst c d.
    destruct (hex4 h1 h2 h3 h4) as [n|] eqn:N; [|discriminate]. destruct (utf8 n) as [[|b [|? ?]]|] eqn:U; try discriminate. apply Ascii.eqb_eq in H3. subst b.
    cbn [append]. now apply (read_u _ _ _ _ _ _ _ N U).
Qed.
Lemma by_byte (P : ascii -> bool) : forallb (fun n => P (chr n)) (seq 0 256) = true -> forall a, P a = true.
Proof.
  intros H a. rewrite forallb_forall in H. rewrite <- (ascii_nat_embedding a). apply (H (nat_of_ascii a)). apply in_seq. pose proof (nat_ascii_bounded a). lia.
Qed.
Lemma read_jesc1 a t : read_str (jesc1 a +++ t) = before (str1 a) (read_str t).
Proof. apply read_lit1. revert a. apply by_byte. vm_compute. reflexivity. Qed.
Lemma read_sep a b c e t : line_sep a b c = Some e -> read_str (e +++ t) = before (String a (String b (str1 c))) (read_str t).
Proof.
  intro H. apply line_sep_inv in H as (-> & -> & [(-> & ->)|(-> & ->)]); cbn [append].
  - apply (read_u _ _ _ _ (2 * 4096 + 40)); vm_compute; reflexivity.
  - apply (read_u _ _ _ _ (2 * 4096 + 41)); vm_compute; reflexivity.
Qed.
Lemma read_jquote s r : read_str (escape_by jesc1 s +++ String DQ r) = Some (s, r).
Proof.
  revert r. induction s as [|a s H IH|a b c s e H IH] using esc_ind; intro r.
  - reflexivity.
  - rewrite (esc_cons _ _ _ H), app_assoc_s, read_jesc1, IH. reflexivity.
  - rewrite (esc_sep _ _ _ _ _ _ H), app_assoc_s, (read_sep _ _ _ _ _ H), IH. reflexivity.
Qed.

(** The bytes that strconv.Quote writes as an escape JSON does not have. *)
Definition quotable (c : ascii) : bool :=
  let n := nat_of_ascii c in
  negb ((n <? 8) || (n =? 11) || ((14 <=? n) && (n <? 32)) || (n =? 127)).
Lemma read_bad d r : Ascii.eqb d "u" = false -> unesc1 d = None -> read_str (String BS (String d r)) = None.
Proof. intros H1 H2. cbn [read_str]. change (Ascii.eqb BS DQ) with false. change (Ascii.eqb BS BS) with true. cbn iota. now rewrite H1, H2. Qed.
Definition bad_lit (p : string) : bool :=
  match p with String c (String d _) => Ascii.eqb c BS && negb (Ascii.eqb d "u") && match unesc1 d with None => true | _ => false end | _ => false end.
Lemma gquote1_cases a : (if quotable a then lit1 (gquote1 a) a else bad_lit (gquote1 a)) = true.
Proof. revert a. apply (by_byte (fun a => if quotable a then lit1 (gquote1 a) a else bad_lit (gquote1 a))). vm_compute. reflexivity. Qed.
Lemma read_gquote1 a t : read_str (gquote1 a +++ t) = if quotable a then before (str1 a) (read_str t) else None.
Proof.
  pose proof (gquote1_cases a) as H. destruct (quotable a); [now apply read_lit1|]. unfold bad_lit in H. destruct (gquote1 a) as [|c [|d p]]; try discriminate.
  apply andb_true_iff in H as (H & H3). apply andb_true_iff in H as (H1 & H2). apply Ascii.eqb_eq in H1. subst c. apply negb_true_iff in H2.
  destruct (unesc1 d) eqn:U; [discriminate|]. cbn [append]. now apply read_bad.
Qed.
Lemma read_gquote s r : read_str (gquote_body s +++ String DQ r) = if all quotable s then Some (s, r) else None.
Proof.
  revert r. induction s as [|a s IH]; intro r; [reflexivity|]. cbn [gquote_body all]. rewrite app_assoc_s, read_gquote1.
  destruct (quotable a); [|reflexivity]. cbn [andb]. rewrite IH. now destruct (all quotable s).
Qed.
Ltac bytes := match goal with |- forall a, @?P a = true => apply (by_byte P); vm_compute; reflexivity end.
Lemma asc_gquote1 a : asc a = true -> all asc (gquote1 a) = true.
Proof.
  intro H. assert (K : forall a, (if asc a then all asc (gquote1 a) else true) = true) by bytes. specialize (K a). now rewrite H in K.
Qed.
Lemma nasc_gquote1 a : asc a = false -> gquote1 a = str1 a.
Proof.
  intro H. assert (K : forall a, (if asc a then true else String.eqb (gquote1 a) (str1 a)) = true) by bytes. specialize (K a). rewrite H in K. now apply String.eqb_eq.
Qed.
Lemma nasc_html1 a : asc a = false -> html1 a = str1 a.
Proof.
  intro H. assert (K : forall a, (if asc a then true else String.eqb (html1 a) (str1 a)) = true) by bytes. specialize (K a). rewrite H in K. now apply String.eqb_eq.
Qed.
Lemma nasc_plain a : asc a = false -> plain_char a = true.
Proof.
  intro H. assert (K : forall a, (if asc a then true else plain_char a) = true) by bytes. specialize (K a). now rewrite H in K.
Qed.
Lemma read_html_gquote1 a t : asc a = true -> quotable a = true -> read_str (emap html1 (gquote1 a) +++ t) = before (str1 a) (read_str t).
Proof.
  intros H Q. apply read_lit1. assert (K : forall a, (if asc a && quotable a then lit1 (emap html1 (gquote1 a)) a else true) = true) by bytes. specialize (K a). now rewrite H, Q in K.
Qed.

(** Non-ASCII bytes are copied: a line separator in the result is one in the source. *)
Definition copies (f : ascii -> string) : Prop :=
  (forall a, asc a = false -> f a = str1 a) /\ (forall a, asc a = true -> exists c t, f a = String c t /\ asc c = true).
Definition asc_head (s : string) : bool := match s with String c _ => asc c | _ => false end.
Lemma asc_head_ex s : asc_head s = true -> exists c t, s = String c t /\ asc c = true.
Proof. destruct s as [|c t]; [discriminate|]. intro H. now exists c, t. Qed.
Lemma gquote_copies : copies gquote1.
Proof.
  split; [apply nasc_gquote1|]. intros a Ha. apply asc_head_ex. assert (K : forall a, (if asc a then asc_head (gquote1 a) else true) = true) by bytes.
  specialize (K a). now rewrite Ha in K.
Qed.
Lemma jesc_copies : copies jesc1.
Proof.
  split; intros a Ha.
  - assert (K : forall a, (if asc a then true else String.eqb (jesc1 a) (str1 a)) = true) by bytes. specialize (K a). rewrite Ha in K. now apply String.eqb_eq.
  - apply asc_head_ex. assert (K : forall a, (if asc a then asc_head (jesc1 a) else true) = true) by bytes. specialize (K a). now rewrite Ha in K.
Qed.
Lemma gquote_first r b t x : asc b = false -> gquote_body r +++ String DQ x = String b t -> exists r', r = String b r' /\ t = gquote_body r' +++ String DQ x.
Proof.
  intros Hb E. destruct r as [|c r].
  - cbn in E. apply scons_inj in E as (<- & _). discriminate Hb.
  - cbn [gquote_body] in E. destruct (asc c) eqn:Hc.
    + destruct (proj2 gquote_copies c Hc) as (d & u & Eu & Hd). rewrite Eu in E. cbn in E. apply scons_inj in E as (<- & _). congruence.
    + rewrite (nasc_gquote1 c Hc) in E. cbn in E. apply scons_inj in E as (<- & <-). now exists r.
Qed.
Lemma jesc_first r b t x : asc b = false -> escape_by jesc1 r +++ String DQ x = String b t ->
  exists r', r = String b r' /\ (t = escape_by jesc1 r' +++ String DQ x).
Proof.
  intros Hb E. destruct r as [|c r H _|c b0 c0 r e H _] using esc_ind.
  - cbn in E. apply scons_inj in E as (<- & _). discriminate Hb.
  - rewrite (esc_cons _ _ _ H) in E. destruct (asc c) eqn:Hc.
    + destruct (proj2 jesc_copies c Hc) as (d & u & Eu & Hd). rewrite Eu in E. cbn in E. apply scons_inj in E as (<- & _). congruence.
    + rewrite (proj1 jesc_copies c Hc) in E. cbn in E. apply scons_inj in E as (<- & <-). now exists r.
  - rewrite (esc_sep _ _ _ _ _ _ H) in E. apply line_sep_inv in H as (_ & _ & [(_ & ->)|(_ & ->)]); cbn in E; apply scons_inj in E as (<- & _); discriminate Hb.
Qed.
Lemma line_sep_nasc a b c e : line_sep a b c = Some e -> asc a = false /\ asc b = false /\ asc c = false.
Proof. intro H. apply line_sep_inv in H as (-> & -> & [(-> & _)|(-> & _)]); repeat split. Qed.


Lemma html_gquote k x : all quotable k = true ->
  exists b, escape_by html1 (gquote_body k +++ String DQ x) = b +++ String DQ (escape_by html1 x) /\ forall r, read_str (b +++ String DQ r) = Some (k, r).
Proof.
  induction k as [|a k H IH|a b c k e H IH] using esc_ind; intro Q.
  - exists "". split; [|reflexivity]. cbn [gquote_body append]. rewrite esc_cons; [reflexivity|]. intros. apply line_sep_asc. now left.
  - cbn in Q. apply andb_true_iff in Q as (Qa & Qk). destruct (IH Qk) as (b & Eb & Rb). cbn [gquote_body]. rewrite app_assoc_s.
    destruct (asc a) eqn:Ha.
    + rewrite (esc_app _ _ _ (asc_gquote1 a Ha)), Eb. exists (emap html1 (gquote1 a) +++ b). split; [symmetry; apply app_assoc_s|].
      intro r. rewrite app_assoc_s, (read_html_gquote1 a _ Ha Qa), Rb. reflexivity.
    + rewrite (nasc_gquote1 a Ha). cbn [str1 append]. rewrite esc_cons.
      * rewrite Eb, (nasc_html1 a Ha). exists (String a b). split; [reflexivity|]. intro r. cbn [append]. rewrite (read_plain a _ (nasc_plain a Ha)), Rb. reflexivity.
      * intros b' c' r' E. destruct (line_sep a b' c') as [e|] eqn:L; [|reflexivity]. destruct (line_sep_nasc _ _ _ _ L) as (_ & Hb & Hc).
        destruct (gquote_first _ _ _ _ Hb E) as (k1 & -> & E1). symmetry in E1. destruct (gquote_first _ _ _ _ Hc E1) as (k2 & -> & _).
        now rewrite (H _ _ _ eq_refl) in L.
  - destruct (line_sep_nasc _ _ _ _ H) as (Ha & Hb & Hc). cbn in Q. apply andb_true_iff in Q as (_ & Q). apply andb_true_iff in Q as (_ & Q). apply andb_true_iff in Q as (_ & Qk).
    destruct (IH Qk) as (b0 & Eb & Rb). cbn [gquote_body]. rewrite (nasc_gquote1 a Ha), (nasc_gquote1 b Hb), (nasc_gquote1 c Hc). cbn [str1 append].
    rewrite (esc_sep _ _ _ _ _ _ H), Eb. exists (e +++ b0). split; [symmetry; apply app_assoc_s|]. intro r. rewrite app_assoc_s, (read_sep _ _ _ _ _ H), Rb. reflexivity.
Qed.

(** ** HTML escaping leaves what json.Marshal writes *)
Definition ascii_start (s : string) : Prop := s = "" \/ asc_head s = true.
Definition hclean (t : string) : Prop := forall rest, ascii_start rest -> escape_by html1 (t +++ rest) = t +++ escape_by html1 rest.
Definition calm (c : ascii) : bool := asc c && negb (is_html c).
Lemma emap_calm t : all calm t = true -> emap html1 t = t.
Proof.
  induction t as [|c t IH]; intro H; [reflexivity|]. cbn in H |- *. apply andb_true_iff in H as (Hc & Ht). unfold calm in Hc. apply andb_true_iff in Hc as (_ & Hc).
  apply negb_true_iff in Hc. rewrite (IH Ht). unfold html1. now rewrite Hc.
Qed.
Lemma calm_asc t : all calm t = true -> all asc t = true.
Proof. induction t as [|c t IH]; intro H; [reflexivity|]. cbn [all] in *. apply andb_true_iff in H as (Hc & Ht). unfold calm in Hc. apply andb_true_iff in Hc as (Hc & _). rewrite Hc. now apply IH. Qed.
Lemma calm_clean t : all calm t = true -> hclean t.
Proof. intros H rest _. now rewrite (esc_app _ _ _ (calm_asc t H)), (emap_calm t H). Qed.
Lemma clean_app a b : hclean a -> hclean b -> (b = "" \/ asc_head b = true) -> hclean (a +++ b).
Proof.
  intros Ha Hb S rest R. rewrite !app_assoc_s, Ha; [now rewrite Hb|]. destruct S as [-> | S]; [exact R|]. right. destruct b; [discriminate | exact S].
Qed.
Lemma clean_jquote s : hclean (jquote s).
Proof.
  unfold jquote. intros rest R. cbn [append]. rewrite esc_cons by (intros; apply line_sep_asc; now left). f_equal.
  change (html1 DQ) with (str1 DQ). cbn [str1 append]. f_equal. rewrite !app_assoc_s. cbn [append str1].
  revert rest R. induction s as [|a s H IH|a b c s e H IH] using esc_ind; intros rest R.
  - change (escape_by jesc1 "") with "". cbn [append]. rewrite esc_cons by (intros; apply line_sep_asc; now left). reflexivity.
  - rewrite (esc_cons jesc1 _ _ H), !app_assoc_s. destruct (asc a) eqn:Ha.
    + assert (K : forall a, (if asc a then all calm (jesc1 a) else true) = true) by bytes. specialize (K a). rewrite Ha in K.
      rewrite (esc_app _ _ _ (calm_asc _ K)), (emap_calm _ K), (IH rest R). reflexivity.
    + rewrite (proj1 jesc_copies a Ha). cbn [str1 append]. rewrite esc_cons.
      * rewrite (IH rest R), (nasc_html1 a Ha). reflexivity.
      * intros b' c' r' E. destruct (line_sep a b' c') as [e|] eqn:L; [|reflexivity]. destruct (line_sep_nasc _ _ _ _ L) as (_ & Hb & Hc).
        destruct (jesc_first _ _ _ _ Hb E) as (k1 & -> & E1). symmetry in E1. destruct (jesc_first _ _ _ _ Hc E1) as (k2 & -> & _).
        now rewrite (H _ _ _ eq_refl) in L.
  - rewrite (esc_sep _ _ _ _ _ _ H), !app_assoc_s. assert (K : all calm e = true) by (apply line_sep_inv in H as (_ & _ & [(_ & ->)|(_ & ->)]); reflexivity).
    rewrite (esc_app _ _ _ (calm_asc _ K)), (emap_calm _ K), (IH rest R). reflexivity.
Qed.
