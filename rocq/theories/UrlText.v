(** Facts about URL texts: printing a parsed URL and parsing it again. *)
From Coq Require Import String Ascii List Bool Arith ZArith Lia.
From Verif Require Import GoStr GoStrFacts Json JsonFacts Url Pointer Spec_Frag Spec_Ptr Spec_Url FragFacts PtrFacts.
Import ListNotations.
Local Open Scope string_scope.
Local Open Scope nat_scope.
Local Open Scope list_scope.

(** ** Escapes *)
Definition esc_ok (mode : emode) (x v : nat) : Prop :=
  match mode with EHost => x <? 8 = false \/ v = 37 | EZone => v = 37 \/ v = 32 \/ should_escape EHost (ascii_of_nat v) = false | _ => True end.
Definition char_ok (mode : emode) (c : ascii) : Prop :=
  match mode with EHost | EZone => (nat_of_ascii c <? 128) && should_escape EHost c = false | _ => True end.
Inductive unesc (mode : emode) : string -> string -> Prop :=
| un_nil : unesc mode "" ""
| un_hex a b x y r r' : hex_val a = Some x -> hex_val b = Some y -> esc_ok mode x (16 * x + y) -> unesc mode r r' ->
    unesc mode (String "%" (String a (String b r))) (String (ascii_of_nat (16 * x + y)) r')
| un_char c r r' : c <> "%"%char -> char_ok mode c -> unesc mode r r' -> unesc mode (String c r) (String c r').

Lemma zone_host c : should_escape EZone c = should_escape EHost c.
Proof. reflexivity. Qed.
Definition esc_bad (mode : emode) (x v : nat) : bool :=
  match mode with EHost => (x <? 8) && negb (v =? 37) | EZone => negb (v =? 37) && negb (v =? 32) && should_escape EHost (ascii_of_nat v) | _ => false end.
Lemma esc_bad_iff mode x v : esc_bad mode x v = false <-> esc_ok mode x v.
Proof.
  destruct mode; cbn [esc_bad esc_ok]; try (split; auto; fail).
  - rewrite andb_false_iff, negb_false_iff, Nat.eqb_eq. tauto.
  - rewrite !andb_false_iff, !negb_false_iff, !Nat.eqb_eq. tauto.
Qed.
Definition char_bad (mode : emode) (c : ascii) : bool := match mode with EHost | EZone => (nat_of_ascii c <? 128) && should_escape mode c | _ => false end.
Lemma char_bad_iff mode c : char_bad mode c = false <-> char_ok mode c.
Proof. destruct mode; cbn [char_bad char_ok]; rewrite ?zone_host; split; auto. Qed.
Lemma unescape_hex mode a b r : unescape mode (String "%" (String a (String b r))) =
  match hex_val a, hex_val b with Some x, Some y => if esc_bad mode x (16 * x + y) then None else option_map (String (ascii_of_nat (16 * x + y))) (unescape mode r) | _, _ => None end.
Proof. reflexivity. Qed.
Lemma unescape_unesc mode : forall n s t, String.length s <= n -> unescape mode s = Some t -> unesc mode s t.
Proof.
  induction n as [|n IH]; intros s t L E; [destruct s; [|cbn in L; lia]; injection E as <-; constructor|].
  destruct s as [|c s]; [injection E as <-; constructor|]. destruct (ascii_dec c "%") as [->|N].
  - destruct s as [|a [|b r]]; [discriminate E | discriminate E|]. rewrite unescape_hex in E. destruct (hex_val a) as [x|] eqn:X; [|discriminate E]. destruct (hex_val b) as [y|] eqn:Y; [|discriminate E].
    destruct (esc_bad mode x (16 * x + y)) eqn:M; [discriminate E|].
    destruct (unescape mode r) as [r'|] eqn:R; [|discriminate E]. injection E as <-. constructor; try assumption.
    + now apply esc_bad_iff.
    + apply IH; [cbn in L; lia | exact R].
  - rewrite unescape_char in E by exact N. change (match mode with EHost | EZone => (nat_of_ascii c <? 128) && should_escape mode c | _ => false end) with (char_bad mode c) in E.
    destruct (char_bad mode c) eqn:M; [discriminate E|].
    destruct (unescape mode s) as [s'|] eqn:R; [|discriminate E]. injection E as <-. constructor; [exact N | now apply char_bad_iff | apply IH; [cbn in L; lia | exact R]].
Qed.
Lemma unescape_of mode s t : unescape mode s = Some t -> unesc mode s t.
Proof. apply (unescape_unesc mode (String.length s)). auto. Qed.
Lemma unesc_unescape mode s t : unesc mode s t -> unescape mode s = Some t.
Proof.
  induction 1 as [|a b x y r r' X Y M _ IH|c r r' N M _ IH]; [reflexivity | |].
  - rewrite unescape_hex, X, Y, IH. apply esc_bad_iff in M. now rewrite M.
  - rewrite unescape_char by exact N. change (match mode with EHost | EZone => (nat_of_ascii c <? 128) && should_escape mode c | _ => false end) with (char_bad mode c). apply char_bad_iff in M. now rewrite M, IH.
Qed.

Definition free (mode : emode) : Prop := match mode with EHost | EZone => False | _ => True end.
Lemma unescape_escape mode s : free mode -> unescape mode (escape mode s) = Some s.
Proof.
  intro N. induction s as [|c s IH]; [reflexivity|]. cbn [escape]. destruct (should_escape mode c) eqn:E.
  - cbn [unescape]. destruct (hex_roundtrip c) as (-> & -> & H). cbv zeta. rewrite H, IH. destruct mode; try reflexivity; now elim N.
  - rewrite unescape_char; [rewrite IH; destruct mode; try reflexivity; now elim N|]. intros ->. destruct mode; discriminate E.
Qed.
(** Characters a host can have. *)
Definition host_char (c : ascii) : bool := negb ((nat_of_ascii c <? 128) && should_escape EHost c) || Ascii.eqb c "%".
Lemma hex_small c x : hex_val c = Some x -> x < 16.
Proof. destruct c as [[] [] [] [] [] [] [] []]; cbn; intro H; try discriminate H; injection H as <-; lia. Qed.
Lemma host_high n : 8 * 16 <= n < 256 -> host_char (ascii_of_nat n) = true.
Proof.
  intros [H1 H2]. unfold host_char. rewrite nat_ascii_embedding by exact H2. assert (n <? 128 = false) as -> by (apply Nat.ltb_ge; lia). reflexivity.
Qed.
Lemma unesc_host a h : unesc EHost a h -> str_all host_char h = true.
Proof.
  induction 1 as [|a b x y r r' X Y M _ IH|c r r' N M _ IH]; [reflexivity | |]; cbn [str_all]; rewrite IH, andb_true_r.
  - destruct M as [H| ->]; [|reflexivity]. apply Nat.ltb_ge in H. apply hex_small in X, Y. apply host_high. lia.
  - unfold host_char. cbn [char_ok] in M. now rewrite M.
Qed.
Lemma escape_cons mode c s : escape mode (String c s) =
  if should_escape mode c then String "%" (String (upper_hex (nat_of_ascii c / 16)) (String (upper_hex (nat_of_ascii c mod 16)) (escape mode s))) else String c (escape mode s).
Proof. reflexivity. Qed.
Lemma host_back_char c e : host_char c = true ->
  unescape EHost (if should_escape EHost c then String "%" (String (upper_hex (nat_of_ascii c / 16)) (String (upper_hex (nat_of_ascii c mod 16)) e)) else String c e) = option_map (String c) (unescape EHost e).
Proof. destruct c as [[] [] [] [] [] [] [] []]; intro H; try discriminate H; reflexivity. Qed.
Lemma host_back h : str_all host_char h = true -> unescape EHost (escape EHost h) = Some h.
Proof.
  induction h as [|c h IH]; [reflexivity|]. cbn [str_all]. intro H. apply andb_true_iff in H as [Hc H].
  rewrite escape_cons, (host_back_char c (escape EHost h) Hc), (IH H). reflexivity.
Qed.
(** Characters a zone can have, printed and parsed again. *)
Definition zone_char (c : ascii) : bool := Ascii.eqb c "%" || Ascii.eqb c " " || negb (should_escape EHost c).
Lemma zone_back_char c e : zone_char c = true ->
  unescape EZone (if should_escape EHost c then String "%" (String (upper_hex (nat_of_ascii c / 16)) (String (upper_hex (nat_of_ascii c mod 16)) e)) else String c e) = option_map (String c) (unescape EZone e).
Proof. destruct c as [[] [] [] [] [] [] [] []]; intro H; try discriminate H; reflexivity. Qed.
Lemma zone_back h : str_all zone_char h = true -> unescape EZone (escape EHost h) = Some h.
Proof.
  induction h as [|c h IH]; [reflexivity|]. cbn [str_all]. intro H. apply andb_true_iff in H as [Hc H].
  rewrite escape_cons, (zone_back_char c (escape EHost h) Hc), (IH H). reflexivity.
Qed.
Lemma unesc_zone a h : unesc EZone a h -> str_all is_ascii h = true -> str_all zone_char h = true.
Proof.
  induction 1 as [|a b x y r r' X Y M _ IH|c r r' N M _ IH]; [reflexivity | |]; cbn [str_all]; intro H; apply andb_true_iff in H as [Hc H]; rewrite (IH H), andb_true_r.
  - destruct M as [-> |[-> | M]]; [reflexivity | reflexivity|]. unfold zone_char. now rewrite M, orb_true_r.
  - cbn [char_ok] in M. unfold is_ascii in Hc. rewrite Hc in M. cbn [andb] in M. unfold zone_char. now rewrite M, orb_true_r.
Qed.

Definition hexes : string := "%0123456789ABCDEF".
Lemma hexes_upper c : has_char (upper_hex (nat_of_ascii c / 16)) hexes = true /\ has_char (upper_hex (nat_of_ascii c mod 16)) hexes = true.
Proof. destruct c as [[] [] [] [] [] [] [] []]; split; reflexivity. Qed.
Lemma neq_of d e l : has_char e l = true -> has_char d l = false -> Ascii.eqb d e = false.
Proof. intros H N. apply Ascii.eqb_neq. intros ->. congruence. Qed.
Lemma escape_no mode d s : should_escape mode d = true -> has_char d hexes = false -> has_char d (escape mode s) = false.
Proof.
  intros S H. induction s as [|c s IH]; [reflexivity|]. rewrite escape_cons. destruct (should_escape mode c) eqn:E.
  - destruct (hexes_upper c) as [U1 U2]. cbn [has_char]. now rewrite (neq_of d "%" hexes eq_refl H), (neq_of d _ hexes U1 H), (neq_of d _ hexes U2 H), IH.
  - cbn [has_char]. rewrite IH, orb_false_r. apply Ascii.eqb_neq. intros ->. congruence.
Qed.
Lemma escape_no_ctl_char mode c e : has_ctl e = false ->
  has_ctl (if should_escape mode c then String "%" (String (upper_hex (nat_of_ascii c / 16)) (String (upper_hex (nat_of_ascii c mod 16)) e)) else String c e) = false.
Proof. intro H. destruct mode, c as [[] [] [] [] [] [] [] []]; cbn; exact H. Qed.
Lemma escape_no_ctl mode s : has_ctl (escape mode s) = false.
Proof. induction s as [|c s IH]; [reflexivity|]. rewrite escape_cons. now apply escape_no_ctl_char. Qed.
Lemma has_ctl_app a b : has_ctl (a +++ b) = has_ctl a || has_ctl b.
Proof. induction a as [|c a IH]; [reflexivity|]. cbn [String.append has_ctl]. now rewrite IH, !orb_assoc. Qed.
Lemma escape_app mode a b : escape mode (a +++ b) = escape mode a +++ escape mode b.
Proof. induction a as [|c a IH]; [reflexivity|]. cbn [String.append]. rewrite !escape_cons, IH. destruct (should_escape mode c); reflexivity. Qed.

(** ** Hosts *)
Lemma escape_digits mode p : all_digits p = true -> escape mode p = p.
Proof.
  induction p as [|c p IH]; [reflexivity|]. cbn [all_digits]. intro H. apply andb_true_iff in H as [Hc H]. rewrite escape_cons.
  assert (should_escape mode c = false) as ->; [|now rewrite (IH H)]. unfold should_escape, is_alnum. now rewrite Hc, orb_true_r.
Qed.
Lemma unesc_digits mode p p' : unesc mode p p' -> all_digits p = true -> p' = p.
Proof.
  induction 1 as [|a b x y r r' X Y M _ IH|c r r' N M _ IH]; intro H; [reflexivity | discriminate H|]. cbn [all_digits] in H. apply andb_true_iff in H as [_ H]. now rewrite (IH H).
Qed.
Lemma unesc_colon a h : unesc EHost a h -> match after_last_colon a with Some p => exists p', after_last_colon h = Some p' /\ unesc EHost p p' | None => after_last_colon h = None end.
Proof.
  induction 1 as [|a b x y r r' X Y M U IH|c r r' N M U IH]; [reflexivity | |].
  - assert (Ca : Ascii.eqb a ":" = false) by (apply Ascii.eqb_neq; intros ->; discriminate X). assert (Cb : Ascii.eqb b ":" = false) by (apply Ascii.eqb_neq; intros ->; discriminate Y).
    cbn [after_last_colon]. rewrite Ca, Cb. change (Ascii.eqb "%" ":") with false. cbv iota.
    assert (Cv : Ascii.eqb (ascii_of_nat (16 * x + y)) ":" = false).
    { apply Ascii.eqb_neq. intro E. apply (f_equal nat_of_ascii) in E. apply hex_small in X, Y. rewrite nat_ascii_embedding in E by lia. change (nat_of_ascii ":") with 58 in E. destruct M as [Z|Z]; [apply Nat.ltb_ge in Z|]; lia. }
    rewrite Cv. destruct (after_last_colon r) as [p|]; [destruct IH as (p' & -> & P); eauto | now rewrite IH].
  - cbn [after_last_colon]. destruct (after_last_colon r) as [p|]; [destruct IH as (p' & -> & P); eauto|]. rewrite IH. destruct (Ascii.eqb c ":"); [eauto | reflexivity].
Qed.
Lemma escape_colon h : after_last_colon (escape EHost h) = option_map (escape EHost) (after_last_colon h).
Proof.
  induction h as [|c h IH]; [reflexivity|]. rewrite escape_cons. destruct (should_escape EHost c) eqn:E.
  - destruct (hexes_upper c) as [U1 U2]. cbn [after_last_colon]. rewrite IH. destruct (after_last_colon h) as [p|]; [reflexivity|]. cbn [option_map].
    rewrite (Ascii.eqb_sym _ ":"), (neq_of ":" _ hexes U2 eq_refl), (Ascii.eqb_sym _ ":"), (neq_of ":" _ hexes U1 eq_refl). change (Ascii.eqb "%" ":") with false. cbv iota.
    destruct (Ascii.eqb_spec c ":") as [->|]; [discriminate E | reflexivity].
  - cbn [after_last_colon]. rewrite IH. destruct (after_last_colon h) as [p|]; [reflexivity|]. cbn [option_map]. now destruct (Ascii.eqb c ":").
Qed.
Lemma bracket_back h : has_prefix "[" (escape EHost h) = has_prefix "[" h.
Proof. destruct h as [|c h]; [reflexivity|]. rewrite escape_cons. destruct c as [[] [] [] [] [] [] [] []]; reflexivity. Qed.
Lemma unesc_bracket a h : unesc EHost a h -> has_prefix "[" h = has_prefix "[" a.
Proof.
  intros U. inversion U as [|a' b x y r r' X Y M _|c r r' C M _]; subst; [reflexivity | |].
  - cbn [has_prefix]. rewrite andb_true_r. apply Ascii.eqb_neq. intro E. apply (f_equal nat_of_ascii) in E. apply hex_small in X, Y. rewrite nat_ascii_embedding in E by lia. change (nat_of_ascii "[") with 91 in E. destruct M as [Z|Z]; [apply Nat.ltb_ge in Z|]; lia.
  - reflexivity.
Qed.
(** The last of a character. *)
Lemma cut_last_app c a b : has_char c b = false -> cut_last c (a +++ String c b) = Some (a, b).
Proof.
  intro N. induction a as [|d a IH]; cbn [String.append cut_last]; [|now rewrite IH]. now rewrite (proj2 (cut_last_none c b) N), Ascii.eqb_refl.
Qed.
Lemma cut_last_some c s a b : cut_last c s = Some (a, b) -> s = a +++ String c b /\ has_char c b = false.
Proof.
  revert a b. induction s as [|d s IH]; intros a b E; [discriminate E|]. cbn [cut_last] in E. destruct (cut_last c s) as [[x y]|] eqn:C.
  - injection E as <- <-. destruct (IH _ _ eq_refl) as [-> N]. auto.
  - destruct (Ascii.eqb_spec c d) as [->|]; [|discriminate E]. injection E as <- <-. split; [reflexivity | now apply cut_last_none].
Qed.
(** The first "%25". *)
Lemma zone_eq s : cut_zone s = if has_prefix "%25" s then Some ("", s) else match s with EmptyString => None | String c r => match cut_zone r with Some (a, b) => Some (String c a, b) | None => None end end.
Proof. destruct s; reflexivity. Qed.
Lemma prefix_more p a b : has_prefix p a = true -> has_prefix p (a +++ b) = true.
Proof. intro H. apply has_prefix_inv in H as (r & ->). rewrite app_assoc_s. apply has_prefix_app. Qed.
Lemma zone_some s : forall a z, cut_zone s = Some (a, z) -> s = a +++ z /\ has_prefix "%25" z = true /\ cut_zone a = None.
Proof.
  induction s as [|c s IH]; intros a z E; rewrite zone_eq in E.
  - discriminate E.
  - destruct (has_prefix "%25" (String c s)) eqn:P; [injection E as <- <-; auto|]. destruct (cut_zone s) as [[x y]|] eqn:C; [|discriminate E]. injection E as <- <-.
    destruct (IH _ _ eq_refl) as (-> & A & B). split; [reflexivity|]. split; [exact A|]. rewrite zone_eq, B. destruct (has_prefix "%25" (String c x)) eqn:Q; [|reflexivity].
    apply (prefix_more _ _ y) in Q. change (String c x +++ y) with (String c (x +++ y)) in Q. congruence.
Qed.
Lemma zone_percent a h : unesc EHost a h -> cut_zone a = None -> has_char "%" h = false.
Proof.
  induction 1 as [|a b x y r r' X Y M U IH|c r r' N M U IH]; intro Z; [reflexivity | |]; rewrite zone_eq in Z.
  - destruct (has_prefix "%25" (String "%" (String a (String b r)))) eqn:P; [discriminate Z|]. rewrite zone_eq in Z. destruct (has_prefix "%25" (String a (String b r))); [discriminate Z|].
    rewrite zone_eq in Z. destruct (has_prefix "%25" (String b r)); [discriminate Z|]. destruct (cut_zone r) as [[? ?]|]; [discriminate Z|]. cbn [has_char]. rewrite (IH eq_refl), orb_false_r.
    apply Ascii.eqb_neq. intro E. apply (f_equal nat_of_ascii) in E. apply hex_small in X as Lx. apply hex_small in Y as Ly. rewrite nat_ascii_embedding in E by lia. change (nat_of_ascii "%") with 37 in E.
    assert (x = 2 /\ y = 5) as [-> ->] by lia. clear -X Y P. destruct a as [[] [] [] [] [] [] [] []]; try discriminate X. destruct b as [[] [] [] [] [] [] [] []]; try discriminate Y. discriminate P.
  - destruct (has_prefix "%25" (String c r)); [discriminate Z|]. destruct (cut_zone r) as [[? ?]|]; [discriminate Z|]. cbn [has_char]. rewrite (IH eq_refl), orb_false_r. apply Ascii.eqb_neq. congruence.
Qed.
Lemma zone_plain c r : c <> "%"%char -> cut_zone (String c r) = match cut_zone r with Some (a, b) => Some (String c a, b) | None => None end.
Proof.
  intro N. rewrite zone_eq. assert (has_prefix "%25" (String c r) = false) as ->; [|reflexivity]. cbn [has_prefix]. assert (Ascii.eqb "%" c = false) as ->; [apply Ascii.eqb_neq; congruence | reflexivity].
Qed.
Lemma zone_hex a b r : a <> "%"%char -> b <> "%"%char -> Ascii.eqb "2" a && Ascii.eqb "5" b = false ->
  cut_zone (String "%" (String a (String b r))) = match cut_zone r with Some (x, y) => Some (String "%" (String a (String b x)), y) | None => None end.
Proof.
  intros A B H. rewrite zone_eq. assert (has_prefix "%25" (String "%" (String a (String b r))) = false) as ->.
  { cbn [has_prefix]. rewrite andb_true_r, H. apply andb_false_r. }
  rewrite (zone_plain a _ A), (zone_plain b _ B). destruct (cut_zone r) as [[x y]|]; reflexivity.
Qed.
Lemma zone_escape_char c e : c <> "%"%char ->
  cut_zone (if should_escape EHost c then String "%" (String (upper_hex (nat_of_ascii c / 16)) (String (upper_hex (nat_of_ascii c mod 16)) e)) else String c e) =
  match cut_zone e with Some (a, b) => Some ((if should_escape EHost c then String "%" (String (upper_hex (nat_of_ascii c / 16)) (String (upper_hex (nat_of_ascii c mod 16)) a)) else String c a), b) | None => None end.
Proof.
  intro N. destruct (should_escape EHost c); [|now apply zone_plain]. apply zone_hex; destruct c as [[] [] [] [] [] [] [] []]; try (now elim N); try discriminate; reflexivity.
Qed.
Lemma zone_escape h : forall e, has_char "%" h = false -> cut_zone (escape EHost h +++ e) = match cut_zone e with Some (a, b) => Some (escape EHost h +++ a, b) | None => None end.
Proof.
  induction h as [|c h IH]; intros e N; [cbn [escape String.append]; now destruct (cut_zone e) as [[? ?]|]|]. cbn [has_char] in N. apply orb_false_iff in N as [Nc N]. apply Ascii.eqb_neq in Nc.
  rewrite escape_cons. specialize (IH e N).
  assert (P : forall t, (if should_escape EHost c then String "%" (String (upper_hex (nat_of_ascii c / 16)) (String (upper_hex (nat_of_ascii c mod 16)) (escape EHost h))) else String c (escape EHost h)) +++ t =
    (if should_escape EHost c then String "%" (String (upper_hex (nat_of_ascii c / 16)) (String (upper_hex (nat_of_ascii c mod 16)) (escape EHost h +++ t))) else String c (escape EHost h +++ t))) by (intro t; now destruct (should_escape EHost c)).
  rewrite P, zone_escape_char by congruence. rewrite IH. destruct (cut_zone e) as [[a b]|]; [|reflexivity]. now rewrite P.
Qed.
(** Text before a character that no escape contains. *)
Lemma unesc_split mode d : d <> "%"%char -> hex_val d = None -> forall n x y t, String.length x <= n -> unesc mode (x +++ String d y) t ->
  exists x' y', unesc mode x x' /\ unesc mode y y' /\ t = x' +++ String d y'.
Proof.
  intros Nd Hd. induction n as [|n IH]; intros x y t L U.
  - destruct x; [|cbn in L; lia]. cbn [String.append] in U. inversion U as [|a b u v r r' X Y M Ur|c r r' N M Ur]; subst; [now elim Nd|]. exists "", r'. split; [constructor|]. auto.
  - destruct x as [|c x]; [apply (IH "" y t); [cbn; lia | exact U]|]. cbn [String.append] in U. remember (String c (x +++ String d y)) as s eqn:Es. destruct U as [|a b u v r r' X Y M Ur|c' r r' N M Ur]; [discriminate Es | |].
    + injection Es as <- Er. destruct x as [|c1 x]; cbn [String.append] in Er; [injection Er as -> _; congruence|]. injection Er as -> Er. destruct x as [|c2 x]; cbn [String.append] in Er; [injection Er as -> _; congruence|].
      injection Er as -> ->. destruct (IH x y r') as (x' & y' & A & B & ->); [cbn in L; lia | exact Ur|]. exists (String (ascii_of_nat (16 * u + v)) x'), y'. split; [now constructor|]. auto.
    + injection Es as -> ->. destruct (IH x y r') as (x' & y' & A & B & ->); [cbn in L; lia | exact Ur|]. exists (String c x'), y'. split; [now constructor|]. auto.
Qed.
Lemma unesc_port p p' : unesc EHost p p' -> valid_port p = true -> p' = p.
Proof.
  intros U V. destruct p as [|c p]; [now inversion U|]. cbn [valid_port] in V. apply andb_true_iff in V as [Vc V]. apply Ascii.eqb_eq in Vc. subst c. inversion U as [| |c r r' N M Ur]; subst. now rewrite (unesc_digits _ _ _ Ur V).
Qed.
Lemma escape_port p : valid_port p = true -> escape EHost p = p.
Proof.
  destruct p as [|c p]; [reflexivity|]. cbn [valid_port]. intro H. apply andb_true_iff in H as [Hc H]. apply Ascii.eqb_eq in Hc. subst c. rewrite escape_cons. change (should_escape EHost ":") with false. cbv iota. now rewrite (escape_digits EHost p H).
Qed.
Lemma port_no_bracket p : valid_port p = true -> has_char "]" p = false.
Proof.
  destruct p as [|c p]; [reflexivity|]. cbn [valid_port has_char]. intro H. apply andb_true_iff in H as [Hc H]. apply Ascii.eqb_eq in Hc. subst c. cbn [orb]. change (Ascii.eqb "]" ":") with false. cbn [orb].
  induction p as [|c p IH]; [reflexivity|]. cbn [all_digits has_char] in *. apply andb_true_iff in H as [Hc H]. rewrite (IH H), orb_false_r. apply Ascii.eqb_neq. intros <-. discriminate Hc.
Qed.
Lemma port_host p : valid_port p = true -> str_all host_char p = true.
Proof.
  assert (D : forall r, all_digits r = true -> str_all host_char r = true).
  { induction r as [|c r IH]; [reflexivity|]. cbn [all_digits str_all]. intro H. apply andb_true_iff in H as [Hc H]. rewrite (IH H), andb_true_r. destruct c as [[] [] [] [] [] [] [] []]; try discriminate Hc; reflexivity. }
  destruct p as [|c p]; [reflexivity|]. cbn [valid_port str_all]. intro H. apply andb_true_iff in H as [Hc H]. apply Ascii.eqb_eq in Hc. subst c. now rewrite (D p H).
Qed.
Lemma prefix_app_ne p a b : has_prefix (str1 p) (String a b) = Ascii.eqb p a.
Proof. cbn. apply andb_true_r. Qed.
Lemma zone_split z : has_prefix "%25" z = true -> exists r, z = "%25" +++ r.
Proof. intro H. apply has_prefix_inv in H as (r & ->). eauto. Qed.
(** An address, its port cut off. *)
Lemma address_back h1 hz port : has_prefix "[" h1 = true -> str_all host_char h1 = true -> has_char "%" h1 = false -> valid_port port = true ->
  hz = "" \/ (exists r, hz = String "%" r /\ str_all zone_char r = true) ->
  parse_host (escape EHost (h1 +++ hz +++ String "]" port)) = Some (h1 +++ hz +++ String "]" port).
Proof.
  intros B C N V Z. unfold parse_host. rewrite bracket_back. rewrite (prefix_more _ _ _ B). rewrite !escape_app, escape_cons. change (should_escape EHost "]") with false. cbv iota. rewrite (escape_port port V).
  rewrite <- (app_assoc_s (escape EHost h1)). rewrite (cut_last_app "]" _ port (port_no_bracket port V)), V, (zone_escape h1 _ N). destruct Z as [->|(r & -> & Zr)].
  - cbn [escape]. rewrite zone_eq. cbn [has_prefix]. rewrite app_nil_r_s. cbn [String.append]. rewrite <- (host_back (h1 +++ String "]" port)).
    + rewrite escape_app, escape_cons. change (should_escape EHost "]") with false. cbv iota. now rewrite (escape_port port V).
    + rewrite str_all_app, C. cbn [str_all]. rewrite (port_host port V). reflexivity.
  - assert (escape EHost (String "%" r) = "%25" +++ escape EHost r) as -> by (rewrite escape_cons; reflexivity). rewrite zone_eq, has_prefix_app, app_nil_r_s, (host_back h1 C).
    assert (unescape EZone ("%25" +++ escape EHost r) = Some (String "%" r)) as ->.
    { transitivity (unescape EZone (escape EHost (String "%" r))); [reflexivity|]. apply zone_back. exact Zr. }
    assert (unescape EHost (String "]" port) = Some (String "]" port)) as ->; [|reflexivity].
    rewrite <- (host_back (String "]" port)); [rewrite escape_cons; change (should_escape EHost "]") with false; cbv iota; now rewrite (escape_port port V)|]. cbn [str_all]. rewrite (port_host port V). reflexivity.
Qed.
Definition zone_ascii (h : string) : Prop := forall a z, h = "[" +++ a +++ "%" +++ z -> str_all is_ascii z = true.
Lemma bracket_split x : has_prefix "[" x = true -> exists r, x = String "[" r.
Proof. intro H. apply has_prefix_inv in H as (r & ->). exists r. reflexivity. Qed.
Lemma parse_host_back a h : parse_host a = Some h -> zone_ascii h -> parse_host (escape EHost h) = Some h.
Proof.
  intros E Za. unfold parse_host in E. destruct (has_prefix "[" a) eqn:B.
  - destruct (cut_last "]" a) as [[x port]|] eqn:C; [|discriminate E]. apply cut_last_some in C as [-> Np]. destruct (valid_port port) eqn:V; [|discriminate E].
    assert (Bx : has_prefix "[" x = true) by (destruct x as [|c x]; [discriminate B|]; exact B). destruct (cut_zone x) as [[h0 z0]|] eqn:Z.
    + apply zone_some in Z as (-> & Pz & Nz). destruct (unescape EHost h0) as [h1|] eqn:U1; [|discriminate E]. destruct (unescape EZone z0) as [h2|] eqn:U2; [|discriminate E]. destruct (unescape EHost (String "]" port)) as [h3|] eqn:U3; [|discriminate E].
      injection E as <-. apply unescape_of in U1, U2, U3. inversion U3 as [| |c r r' N M Ur]; subst. rewrite (unesc_port _ _ Ur V) in *. apply zone_split in Pz as (zr & ->).
      assert (exists h2', h2 = String "%" h2' /\ unesc EZone zr h2') as (h2' & -> & U2').
      { inversion U2 as [|a b u v r r1 X Y M2 Ur2|c r r1 N2 M2 Ur2]; subst; [|now elim N2]. injection X as <-. injection Y as <-. exists r1. split; [reflexivity | exact Ur2]. }
      assert (B1 : has_prefix "[" h1 = true) by (rewrite (unesc_bracket _ _ U1); destruct h0 as [|c h0]; [discriminate Bx | exact Bx]).
      apply (address_back h1 (String "%" h2') port B1 (unesc_host _ _ U1) (zone_percent _ _ U1 Nz) V). right. exists h2'. split; [reflexivity|]. apply (unesc_zone _ _ U2').
      apply bracket_split in B1 as (h1' & ->). specialize (Za h1' (h2' +++ String "]" port) eq_refl). rewrite str_all_app in Za. now apply andb_true_iff in Za.
    + apply unescape_of in E. destruct (unesc_split EHost "]" ltac:(discriminate) eq_refl (String.length x) x port h (le_n _) E) as (h1 & p' & U1 & U2 & ->). rewrite (unesc_port _ _ U2 V).
      apply (address_back h1 "" port); [now rewrite (unesc_bracket _ _ U1) | exact (unesc_host _ _ U1) | exact (zone_percent _ _ U1 Z) | exact V | now left].
  - assert (U : unescape EHost a = Some h) by (destruct (after_last_colon a) as [p|]; [destruct (all_digits p); [exact E | discriminate E] | exact E]).
    pose proof (unescape_of _ _ _ U) as W. assert (HH := unesc_host a h W). unfold parse_host. rewrite bracket_back, (unesc_bracket a h W), B.
    rewrite escape_colon. pose proof (unesc_colon a h W) as C. destruct (after_last_colon a) as [p|].
    + destruct C as (p' & -> & P). cbn [option_map]. destruct (all_digits p) eqn:D; [|discriminate E]. rewrite (unesc_digits _ p p' P D), (escape_digits EHost p D), D. now apply host_back.
    + rewrite C. now apply host_back.
Qed.
(** ** User information *)
Definition userinfo : Type := option (string * option string).
Definition auth_text (us : userinfo) (h : string) : string := user_text us +++ escape EHost h.
Definition has_auth (us : userinfo) (h : string) : bool := nonempty h || has_user us.
Lemma auth_no d us h : should_escape EUser d = true -> should_escape EHost d = true -> has_char d hexes = false -> Ascii.eqb d ":" = false -> Ascii.eqb d "@" = false -> has_char d (auth_text us h) = false.
Proof.
  intros A B C D E. unfold auth_text. rewrite has_char_app, (escape_no EHost d h B C), orb_false_r. destruct us as [[n [p|]]|]; cbn [user_text]; [| |reflexivity]; rewrite !has_char_app, ?(escape_no EUser d _ A C); cbn [has_char]; now rewrite ?D, ?E.
Qed.
Lemma auth_no_ctl us h : has_ctl (auth_text us h) = false.
Proof. unfold auth_text. rewrite has_ctl_app, escape_no_ctl. destruct us as [[n [p|]]|]; cbn [user_text]; [| |reflexivity]; rewrite !has_ctl_app, !escape_no_ctl; reflexivity. Qed.
Lemma escape_nonempty mode h : h <> "" -> escape mode h <> "".
Proof. destruct h as [|c h]; [congruence|]. intros _. rewrite escape_cons. destruct (should_escape mode c); discriminate. Qed.
Lemma auth_nonempty us h : has_auth us h = true -> auth_text us h <> "".
Proof.
  unfold has_auth, auth_text. intros H E. destruct us as [[n pw]|].
  - cbn [user_text] in E. destruct (escape EUser n); [|discriminate E]. destruct pw; discriminate E.
  - cbn [has_user user_text] in *. rewrite orb_false_r in H. destruct h as [|c h]; [discriminate H|]. apply (escape_nonempty EHost (String c h)); [discriminate | exact E].
Qed.
Lemma valid_user_app a b : valid_userinfo (a +++ b) = valid_userinfo a && valid_userinfo b.
Proof. induction a as [|c a IH]; [reflexivity|]. cbn [String.append valid_userinfo]. now rewrite IH, andb_assoc. Qed.
Lemma escape_user_char c e : valid_userinfo e = true ->
  valid_userinfo (if should_escape EUser c then String "%" (String (upper_hex (nat_of_ascii c / 16)) (String (upper_hex (nat_of_ascii c mod 16)) e)) else String c e) = true.
Proof. intro H. destruct c as [[] [] [] [] [] [] [] []]; exact H. Qed.
Lemma escape_user s : valid_userinfo (escape EUser s) = true.
Proof. induction s as [|c s IH]; [reflexivity|]. rewrite escape_cons. now apply escape_user_char. Qed.
Lemma parse_authority_back a us h : parse_authority a = Some (us, h) -> zone_ascii h -> parse_authority (auth_text us h) = Some (us, h).
Proof.
  intros E Za. assert (Hb : parse_host (escape EHost h) = Some h).
  { unfold parse_authority in E. destruct (cut_last "@" a) as [[ui b]|].
    - destruct (parse_host b) as [h0|] eqn:P; [|discriminate E]. apply (parse_host_back b); [|exact Za]. destruct (valid_userinfo ui); [|discriminate E].
      destruct (cut_char ":" ui) as [[x y]|]; [destruct (unescape EUser x); [|discriminate E]; destruct (unescape EUser y); [|discriminate E] | destruct (unescape EUser ui); [|discriminate E]]; injection E as _ <-; exact P.
    - destruct (parse_host a) as [h0|] eqn:P; [|discriminate E]. injection E as _ <-. now apply (parse_host_back a). }
  clear E. unfold parse_authority, auth_text. pose proof (escape_no EHost "@" h eq_refl eq_refl) as Na. destruct us as [[n pw]|]; cbn [user_text].
  - assert (X : (escape EUser n +++ (match pw with Some p => ":" +++ escape EUser p | None => "" end) +++ "@") +++ escape EHost h = (escape EUser n +++ (match pw with Some p => ":" +++ escape EUser p | None => "" end)) +++ String "@" (escape EHost h)) by (rewrite !app_assoc_s; reflexivity).
    rewrite X, (cut_last_app "@" _ _ Na), Hb. pose proof (escape_no EUser ":" n eq_refl eq_refl) as Nc. rewrite valid_user_app, escape_user. destruct pw as [p|].
    + change (":" +++ escape EUser p) with (String ":" (escape EUser p)). cbn [valid_userinfo]. rewrite escape_user. change (is_alnum ":" || in_list ":" "-._:~!$&'()*+,;=%@") with true. cbn [andb].
      rewrite (cut_char_app ":" _ _ Nc). now rewrite !(unescape_escape EUser) by exact Logic.I.
    + cbn [valid_userinfo andb]. rewrite app_nil_r_s. rewrite (proj2 (cut_char_none ":" _) Nc). now rewrite (unescape_escape EUser) by exact Logic.I.
  - cbn [String.append]. rewrite (proj2 (cut_last_none "@" _) Na). now rewrite Hb.
Qed.

(** ** Schemes *)
Definition scheme_char (c : ascii) : bool := is_alpha c || is_digit c || in_list c "+-.".
Definition scheme_text (s : string) : bool := match s with EmptyString => false | String c r => is_alpha c && str_all scheme_char r end.
Lemma getscheme_from_spec : forall s first pre whole a b, getscheme_from first pre s whole = Some (a, b) ->
  a = "" /\ b = whole \/ exists m, a = pre +++ m /\ s = m +++ String ":" b /\ str_all scheme_char m = true /\ (first = true -> scheme_text m = true).
Proof.
  induction s as [|c s IH]; intros first pre whole a b E; cbn [getscheme_from] in E; [injection E as <- <-; now left|].
  destruct (is_alpha c) eqn:A.
  - destruct (IH _ _ _ _ _ E) as [L|(m & -> & -> & M & _)]; [now left | right]. exists (String c m). unfold str1. rewrite app_assoc_s. cbn [String.append str_all scheme_text]. unfold scheme_char at 1. rewrite A, M. auto.
  - destruct (is_digit c || in_list c "+-.") eqn:D.
    + destruct first; [injection E as <- <-; now left|]. destruct (IH _ _ _ _ _ E) as [L|(m & -> & -> & M & _)]; [now left | right]. exists (String c m). unfold str1. rewrite app_assoc_s. cbn [String.append str_all scheme_text].
      unfold scheme_char at 1. rewrite A, M. cbn [orb]. rewrite D. repeat split. discriminate.
    + destruct (Ascii.eqb_spec c ":") as [->|]; [|injection E as <- <-; now left]. destruct first; [discriminate E|]. injection E as <- <-. right. exists "". rewrite app_nil_r_s. repeat split. discriminate.
Qed.
Lemma getscheme_spec s a b : getscheme s = Some (a, b) -> a = "" /\ b = s \/ scheme_text a = true /\ s = a +++ String ":" b.
Proof. intro E. destruct (getscheme_from_spec _ _ _ _ _ _ E) as [L|(m & -> & S & _ & M)]; [now left | right]. now split; [apply M|]. Qed.
Lemma getscheme_from_back : forall m pre b whole, str_all scheme_char m = true -> getscheme_from false pre (m +++ String ":" b) whole = Some (pre +++ m, b).
Proof.
  induction m as [|c m IH]; intros pre b whole H; [cbn; now rewrite app_nil_r_s|]. cbn [str_all] in H. apply andb_true_iff in H as [Hc H]. unfold scheme_char in Hc. cbn [String.append getscheme_from].
  assert (N : pre +++ String c m = (pre +++ str1 c) +++ m) by (rewrite app_assoc_s; reflexivity). rewrite N. destruct (is_alpha c); [now apply IH|]. cbn [orb] in Hc. rewrite Hc. now apply IH.
Qed.
Lemma getscheme_back a b : scheme_text a = true -> getscheme (a +++ String ":" b) = Some (a, b).
Proof.
  destruct a as [|c m]; [discriminate|]. cbn [scheme_text]. intro H. apply andb_true_iff in H as [Hc H]. unfold getscheme. cbn [String.append getscheme_from]. rewrite Hc. cbn [String.append]. unfold str1.
  now rewrite (getscheme_from_back m _ b _ H).
Qed.
(** No colon before the first '/' or '?'. *)
Definition no_scheme (s : string) : Prop := forall a b, s = a +++ String ":" b -> has_char "/" a = true \/ has_char "?" a = true.
Lemma getscheme_from_none : forall s first pre whole, no_scheme s -> getscheme_from first pre s whole = Some ("", whole).
Proof.
  induction s as [|c s IH]; intros first pre whole H; [reflexivity|]. cbn [getscheme_from].
  destruct (Ascii.eqb_spec c ":") as [->|Nc]; [destruct (H "" s eq_refl) as [X|X]; discriminate X|].
  assert (T : has_char "/" (str1 c) = false -> has_char "?" (str1 c) = false -> no_scheme s).
  { intros N1 N2 a b E. destruct (H (String c a) b) as [X|X]; [now rewrite E | |]; cbn [has_char str1] in X, N1, N2; rewrite orb_false_r in N1, N2; [rewrite N1 in X | rewrite N2 in X]; auto. }
  destruct (is_alpha c) eqn:A; [apply IH, T; destruct c as [[] [] [] [] [] [] [] []]; try reflexivity; discriminate A|].
  destruct (is_digit c || in_list c "+-.") eqn:D; [|reflexivity]. destruct first; [reflexivity|]. apply IH, T; destruct c as [[] [] [] [] [] [] [] []]; try reflexivity; discriminate D.
Qed.
Lemma lower_scheme_char c : is_alpha (lower_char c) = is_alpha c /\ scheme_char (lower_char c) = scheme_char c /\ lower_char (lower_char c) = lower_char c.
Proof. destruct c as [[] [] [] [] [] [] [] []]; repeat split. Qed.
Lemma lower_scheme a : scheme_text (to_lower a) = scheme_text a.
Proof.
  destruct a as [|c a]; [reflexivity|]. cbn [to_lower scheme_text]. rewrite (proj1 (lower_scheme_char c)). f_equal. induction a as [|d a IH]; [reflexivity|]. cbn [to_lower str_all].
  now rewrite (proj1 (proj2 (lower_scheme_char d))), IH.
Qed.
Lemma lower_lower a : to_lower (to_lower a) = to_lower a.
Proof. induction a as [|c a IH]; [reflexivity|]. cbn [to_lower]. now rewrite (proj2 (proj2 (lower_scheme_char c))), IH. Qed.
Lemma scheme_no c a : scheme_char c = false -> scheme_text a = true -> has_char c a = false.
Proof.
  intros N. destruct a as [|d a]; [discriminate|]. cbn [scheme_text has_char]. intro H. apply andb_true_iff in H as [Hd H]. apply orb_false_iff. split.
  - apply Ascii.eqb_neq. intros ->. unfold scheme_char in N. now rewrite Hd in N.
  - clear Hd. induction a as [|e a IH]; [reflexivity|]. cbn [str_all has_char] in *. apply andb_true_iff in H as [He H]. rewrite (IH H), orb_false_r. apply Ascii.eqb_neq. intros ->. congruence.
Qed.
Lemma scheme_no_ctl a : scheme_text a = true -> has_ctl a = false.
Proof.
  assert (C : forall c, scheme_char c = true -> (nat_of_ascii c <? 32) || (nat_of_ascii c =? 127) = false) by (intros c H; destruct c as [[] [] [] [] [] [] [] []]; try discriminate H; reflexivity).
  destruct a as [|d a]; [discriminate|]. cbn [scheme_text has_ctl]. intro H. apply andb_true_iff in H as [Hd H]. rewrite (C d) by (unfold scheme_char; now rewrite Hd). cbn [orb]. clear Hd.
  induction a as [|e a IH]; [reflexivity|]. cbn [str_all has_ctl] in *. apply andb_true_iff in H as [He H]. now rewrite (C e He), (IH H).
Qed.

(** ** Queries *)
Definition cutq (s : string) : string * bool * string :=
  match cut_char "?" s with Some (a, "") => (a, true, "") | Some (a, b) => (a, false, b) | None => (s, false, "") end.
Definition qtext (fq : bool) (q : string) : string := if fq || nonempty q then "?" +++ q else "".
Lemma cutq_spec s a fq q : cutq s = (a, fq, q) -> s = a +++ qtext fq q /\ has_char "?" a = false /\ (fq = true -> q = "").
Proof.
  unfold cutq. destruct (cut_char "?" s) as [[x [|c y]]|] eqn:E.
  - intros [= <- <- <-]. apply cut_char_some in E as [-> N]. auto.
  - intros [= <- <- <-]. apply cut_char_some in E as [-> N]. split; [reflexivity|]. split; [exact N | discriminate].
  - intros [= <- <- <-]. apply cut_char_none in E. cbn. rewrite app_nil_r_s. split; [reflexivity|]. split; [exact E | discriminate].
Qed.
Lemma cutq_back a fq q : has_char "?" a = false -> (fq = true -> q = "") -> cutq (a +++ qtext fq q) = (a, fq, q).
Proof.
  intros N Q. unfold cutq, qtext. destruct fq; [rewrite (Q eq_refl)|]; cbn [orb].
  - change ("?" +++ "") with (String "?" ""). now rewrite (cut_char_app "?" a "" N).
  - destruct q as [|c q]; cbn [nonempty String.eqb negb].
    + rewrite app_nil_r_s. now rewrite (proj2 (cut_char_none "?" a) N).
    + change ("?" +++ String c q) with (String "?" (String c q)). now rewrite (cut_char_app "?" a _ N).
Qed.
Definition hier (sch rest : string) (fq : bool) (q : string) : option url :=
  match (if (negb (String.eqb sch "") || negb (has_prefix "///" rest)) && has_prefix "//" rest
         then let (a, r) := cut_slash (skipn_s 2 rest) in match parse_authority a with Some (us, h) => Some (us, h, r) | None => None end
         else Some (None, "", rest)) with
  | None => None
  | Some (us, h, r) => match set_path r with
                   | None => None
                   | Some (p, rp) => Some {| u_scheme := sch; u_opaque := ""; u_user := us; u_host := h; u_path := p; u_rawpath := rp; u_forcequery := fq; u_query := q; u_fragment := "" |}
                   end
  end.
Definition opaque (sch rest : string) (fq : bool) (q : string) : url :=
  {| u_scheme := sch; u_opaque := rest; u_user := None; u_host := ""; u_path := ""; u_rawpath := ""; u_forcequery := fq; u_query := q; u_fragment := "" |}.
Definition star : url := {| u_scheme := ""; u_opaque := ""; u_user := None; u_host := ""; u_path := "*"; u_rawpath := ""; u_forcequery := false; u_query := ""; u_fragment := "" |}.
Lemma parse_nofrag_eq s : parse_nofrag s =
  if has_ctl s then None else if String.eqb s "*" then Some star else
  match getscheme s with
  | None => None
  | Some (sch, rest0) => let '(rest, fq, q) := cutq rest0 in
      if negb (has_prefix "/" rest) && negb (String.eqb (to_lower sch) "") then Some (opaque (to_lower sch) rest fq q)
      else if negb (has_prefix "/" rest) && has_char ":" (fst (cut_slash rest)) then None else hier (to_lower sch) rest fq q
  end.
Proof. reflexivity. Qed.

(** ** Paths *)
Definition path_text (p rp : string) : string :=
  if negb (String.eqb rp "") && valid_encoded_path rp && match unescape EPath rp with Some p' => String.eqb p' p | None => false end then rp
  else if String.eqb p "*" then "*" else escape EPath p.
Lemma path_text_spec r p rp : set_path r = Some (p, rp) ->
  unescape EPath r = Some p /\ exists rp', set_path (path_text p rp) = Some (p, rp') /\ path_text p rp' = path_text p rp /\
  (path_text p rp = r /\ rp' = rp \/ path_text p rp = "*" /\ p = "*" \/ path_text p rp = escape EPath p /\ p <> "*" /\ valid_encoded_path r = false).
Proof.
  unfold set_path. destruct (unescape EPath r) as [p0|] eqn:U; [|discriminate]. intros [= -> <-]. split; [reflexivity|].
  assert (Star : p = "*" -> exists rp', (match unescape EPath "*" with None => None | Some path => Some (path, if String.eqb "*" (escape EPath path) then "" else "*") end) = Some (p, rp') /\ path_text p rp' = "*") by (intros ->; exists "*"; split; reflexivity).
  assert (Esc : p <> "*" -> exists rp', (match unescape EPath (escape EPath p) with None => None | Some path => Some (path, if String.eqb (escape EPath p) (escape EPath path) then "" else escape EPath p) end) = Some (p, rp') /\ path_text p rp' = escape EPath p /\ rp' = "").
  { intro N. exists "". rewrite (unescape_escape EPath p) by exact Logic.I. rewrite String.eqb_refl. split; [reflexivity|]. split; [|reflexivity]. unfold path_text. cbn [String.eqb negb andb]. apply String.eqb_neq in N. now rewrite N. }
  destruct (String.eqb_spec r (escape EPath p)) as [E|N].
  - change (path_text p "") with (if String.eqb p "*" then "*" else escape EPath p). destruct (String.eqb_spec p "*") as [Es|Ns].
    + destruct (Star Es) as (rp' & H1 & H2). exists rp'. split; [exact H1|]. split; [exact H2|]. right. left. auto.
    + destruct (Esc Ns) as (rp' & H1 & H2 & H3). exists rp'. split; [exact H1|]. split; [exact H2|]. left. auto.
  - assert (Nr : String.eqb r "" = false) by (apply String.eqb_neq; intros ->; injection U as <-; now apply N).
    destruct (valid_encoded_path r) eqn:V.
    + assert (PT : path_text p r = r) by (unfold path_text; now rewrite Nr, V, U, String.eqb_refl). rewrite PT. exists r. rewrite U. split; [|auto]. apply String.eqb_neq in N. now rewrite N.
    + assert (PT : path_text p r = if String.eqb p "*" then "*" else escape EPath p) by (unfold path_text; now rewrite V, andb_false_r). rewrite PT. destruct (String.eqb_spec p "*") as [Es|Ns].
      * destruct (Star Es) as (rp' & H1 & H2). exists rp'. split; [exact H1|]. split; [exact H2|]. right. left. auto.
      * destruct (Esc Ns) as (rp' & H1 & H2 & _). exists rp'. split; [exact H1|]. split; [exact H2|]. right. right. auto.
Qed.
Lemma escape_slash p : forall a b, cut_slash p = (a, b) -> cut_slash (escape EPath p) = (escape EPath a, escape EPath b).
Proof.
  induction p as [|c p IH]; intros a b E; [injection E as <- <-; reflexivity|]. cbn [cut_slash] in E. rewrite escape_cons. destruct (Ascii.eqb_spec c "/") as [->|N].
  - injection E as <- <-. reflexivity.
  - destruct (cut_slash p) as [a' b'] eqn:C. injection E as <- <-. specialize (IH _ _ eq_refl). rewrite escape_cons. destruct (should_escape EPath c).
    + destruct (hexes_upper c) as [U1 U2]. cbn [cut_slash]. change (Ascii.eqb "%" "/") with false. cbv iota. rewrite (Ascii.eqb_sym (upper_hex (nat_of_ascii c / 16)) "/"), (neq_of "/" _ hexes U1 eq_refl), (Ascii.eqb_sym (upper_hex (nat_of_ascii c mod 16)) "/"), (neq_of "/" _ hexes U2 eq_refl). now rewrite IH.
    + cbn [cut_slash]. apply Ascii.eqb_neq in N. now rewrite N, IH.
Qed.
Lemma escape_keeps_colon a : has_char ":" (escape EPath a) = has_char ":" a.
Proof.
  induction a as [|c a IH]; [reflexivity|]. rewrite escape_cons. destruct (should_escape EPath c) eqn:E.
  - destruct (hexes_upper c) as [U1 U2]. cbn [has_char]. rewrite (neq_of ":" "%" hexes eq_refl eq_refl), (neq_of ":" _ hexes U1 eq_refl), (neq_of ":" _ hexes U2 eq_refl), IH. cbn [orb].
    destruct (Ascii.eqb_spec ":" c) as [<-|]; [discriminate E | reflexivity].
  - cbn [has_char]. now rewrite IH.
Qed.
Lemma escape_first c p : should_escape EPath c = false -> c <> "%"%char -> has_prefix (str1 c) (escape EPath p) = has_prefix (str1 c) p.
Proof.
  intros E N. destruct p as [|d p]; [reflexivity|]. rewrite escape_cons. cbn [has_prefix str1]. destruct (should_escape EPath d) eqn:D; cbn [has_prefix]; [|reflexivity].
  apply Ascii.eqb_neq in N. rewrite N. destruct (Ascii.eqb_spec c d) as [->|]; [congruence | reflexivity].
Qed.
Lemma escape_slashes p : has_prefix "//" (escape EPath p) = has_prefix "//" p.
Proof.
  destruct p as [|c p]; [reflexivity|]. rewrite escape_cons. destruct (Ascii.eqb_spec "/" c) as [<-|N].
  - change (should_escape EPath "/") with false. cbv iota. cbn [has_prefix]. exact (escape_first "/" p eq_refl ltac:(discriminate)).
  - apply Ascii.eqb_neq in N. destruct (should_escape EPath c); cbn [has_prefix]; [|now rewrite N]. rewrite N. reflexivity.
Qed.
Lemma path_chars r p rp : set_path r = Some (p, rp) -> has_char "?" r = false -> has_char "#" r = false -> has_ctl r = false ->
  has_char "?" (path_text p rp) = false /\ has_char "#" (path_text p rp) = false /\ has_ctl (path_text p rp) = false.
Proof.
  intros E Q H C. destruct (path_text_spec _ _ _ E) as (_ & rp' & _ & _ & [[-> _]|[[-> _]|(-> & _)]]); [auto | repeat split|].
  split; [exact (escape_no EPath "?" p eq_refl eq_refl)|]. split; [exact (escape_no EPath "#" p eq_refl eq_refl) | apply escape_no_ctl].
Qed.
Lemma unescape_slash r p : unescape EPath r = Some p -> has_prefix "/" r = true -> has_prefix "/" p = true.
Proof.
  intros E H. destruct r as [|c r]; [discriminate H|]. cbn [has_prefix] in H. rewrite andb_true_r in H. apply Ascii.eqb_eq in H. subst c. rewrite unescape_char in E by discriminate.
  destruct (unescape EPath r); [|discriminate E]. now injection E as <-.
Qed.
Lemma path_slash r p rp : set_path r = Some (p, rp) -> r = "" \/ has_prefix "/" r = true -> path_text p rp = "" \/ has_prefix "/" (path_text p rp) = true.
Proof.
  intros E [->|H]; [injection E as <- <-; now left|]. right. destruct (path_text_spec _ _ _ E) as (U & rp' & _ & _ & [[-> _]|[[_ ->]|(-> & _)]]); [exact H | |]; pose proof (unescape_slash r _ U H) as S; [discriminate S|].
  exact (eq_trans (escape_first "/" p eq_refl ltac:(discriminate)) S).
Qed.

(** ** Printing *)
Definition mk (sch : string) (us : userinfo) (h p rp : string) (fq : bool) (q : string) : url :=
  {| u_scheme := sch; u_opaque := ""; u_user := us; u_host := h; u_path := p; u_rawpath := rp; u_forcequery := fq; u_query := q; u_fragment := "" |}.
Lemma not_slash t : t = "" \/ has_prefix "/" t = true -> nonempty t && negb (has_prefix "/" t) = false.
Proof. intros [->| ->]; [reflexivity | apply andb_false_r]. Qed.
Lemma print_eq sch us h p rp fq q : url_string (mk sch us h p rp fq q) =
  let pre := if nonempty sch then sch +++ ":" else "" in
  let auth := if nonempty sch || nonempty h || has_user us then (if nonempty h || nonempty p || has_user us then "//" else "") +++ auth_text us h else "" in
  let path := path_text p rp in
  let sl := if nonempty path && negb (has_prefix "/" path) && nonempty h then "/" else "" in
  let dot := if String.eqb (pre +++ auth +++ sl) "" && has_char ":" (fst (cut_slash path)) then "./" else "" in
  pre +++ (auth +++ sl +++ dot +++ path) +++ qtext fq q.
Proof.
  change (url_string (mk sch us h p rp fq q)) with
    (let pre := if nonempty sch then sch +++ ":" else "" in
     let auth := if nonempty sch || nonempty h || has_user us then (if nonempty h || nonempty p || has_user us then "//" else "") +++ auth_text us h else "" in
     let path := path_text p rp in
     let sl := if nonempty path && negb (has_prefix "/" path) && nonempty h then "/" else "" in
     let dot := if String.eqb (pre +++ auth +++ sl) "" && has_char ":" (fst (cut_slash path)) then "./" else "" in
     pre +++ (auth +++ sl +++ dot +++ path) +++ qtext fq q +++ ""). cbv zeta. now rewrite app_nil_r_s.
Qed.
Lemma or_swap a b c : a || b || c = (a || c) || b.
Proof. destruct a, b, c; reflexivity. Qed.
Lemma print_scheme sch us h p rp fq q : scheme_text sch = true -> path_text p rp = "" \/ has_prefix "/" (path_text p rp) = true ->
  url_string (mk sch us h p rp fq q) = sch +++ String ":" ((if has_auth us h || nonempty p then "//" else "") +++ auth_text us h +++ path_text p rp +++ qtext fq q).
Proof.
  intros S T. rewrite print_eq. cbv zeta. rewrite (not_slash _ T). assert (nonempty sch = true) as -> by (destruct sch; [discriminate S | reflexivity]). rewrite (or_swap (nonempty h)). fold (has_auth us h). cbn [orb andb].
  assert (N : String.eqb ((sch +++ ":") +++ ((if has_auth us h || nonempty p then "//" else "") +++ auth_text us h) +++ "") "" = false) by (destruct sch; [discriminate S | reflexivity]).
  rewrite N. cbn [andb String.append]. rewrite !app_assoc_s. reflexivity.
Qed.
Lemma print_host us h p rp fq q : has_auth us h = true -> path_text p rp = "" \/ has_prefix "/" (path_text p rp) = true ->
  url_string (mk "" us h p rp fq q) = "//" +++ auth_text us h +++ path_text p rp +++ qtext fq q.
Proof.
  intros A T. rewrite print_eq. cbv zeta. rewrite (not_slash _ T), (or_swap (nonempty h) (nonempty p)). change (nonempty "") with false. cbn [orb]. fold (has_auth us h). rewrite A. cbn [orb andb].
  cbn [String.append]. rewrite !app_assoc_s. reflexivity.
Qed.
Lemma print_path p rp fq q : url_string (mk "" None "" p rp fq q) = (if has_char ":" (fst (cut_slash (path_text p rp))) then "./" else "") +++ path_text p rp +++ qtext fq q.
Proof. rewrite print_eq. cbv zeta. change (nonempty "") with false. rewrite andb_false_r. cbn [orb has_user String.append String.eqb andb]. rewrite app_assoc_s. reflexivity. Qed.

(** ** Parsing what was printed *)
Lemma same_mk sch us h p rp rp' fq q : same_url (mk sch us h p rp fq q) (mk sch us h p rp' fq q).
Proof. repeat split. Qed.
Lemma auth_slash us h : has_char "/" (auth_text us h) = false.
Proof. exact (auth_no "/" us h eq_refl eq_refl eq_refl eq_refl eq_refl). Qed.
Lemma cut_host us h t : t = "" \/ has_prefix "/" t = true -> cut_slash (auth_text us h +++ t) = (auth_text us h, t).
Proof.
  intro T. assert (G : forall e, has_char "/" e = false -> cut_slash (e +++ t) = (e, t)).
  { induction e as [|c e IH]; intro N.
    - cbn [String.append]. destruct T as [->|H]; [reflexivity|]. destruct t as [|c t]; [discriminate H|]. cbn [has_prefix] in H. rewrite andb_true_r in H. apply Ascii.eqb_eq in H. subst c. reflexivity.
    - cbn [has_char] in N. apply orb_false_iff in N as [N1 N2]. cbn [String.append cut_slash]. rewrite Ascii.eqb_sym, N1. now rewrite (IH N2). }
  apply G, auth_slash.
Qed.
Lemma not_three us h t : has_auth us h = true -> has_prefix "///" ("//" +++ auth_text us h +++ t) = false.
Proof.
  intro N. pose proof (auth_slash us h) as S. pose proof (auth_nonempty us h N) as N'. destruct (auth_text us h) as [|c e]; [congruence|]. cbn [has_char] in S. apply orb_false_iff in S as [S _].
  change ("//" +++ String c e +++ t) with (String "/" (String "/" (String c (e +++ t)))). cbn [has_prefix]. rewrite S. reflexivity.
Qed.
(** With an authority. *)
Lemma hier_host sch us h p rp rp' fq q : (sch <> "" \/ has_auth us h = true) -> parse_authority (auth_text us h) = Some (us, h) -> path_text p rp = "" \/ has_prefix "/" (path_text p rp) = true ->
  set_path (path_text p rp) = Some (p, rp') -> hier sch ("//" +++ auth_text us h +++ path_text p rp) fq q = Some (mk sch us h p rp' fq q).
Proof.
  intros N Hh T Hp. unfold hier.
  assert ((negb (String.eqb sch "") || negb (has_prefix "///" ("//" +++ auth_text us h +++ path_text p rp))) && has_prefix "//" ("//" +++ auth_text us h +++ path_text p rp) = true) as ->.
  { rewrite has_prefix_app, andb_true_r. destruct N as [N|N]; [apply String.eqb_neq in N; now rewrite N | rewrite (not_three us h _ N); apply orb_true_r]. }
  change (skipn_s 2 ("//" +++ auth_text us h +++ path_text p rp)) with (auth_text us h +++ path_text p rp). now rewrite (cut_host us h _ T), Hh, Hp.
Qed.
Lemma slash_slash x : has_prefix "/" ("//" +++ x) = true.
Proof. reflexivity. Qed.
Lemma no_scheme_slash x : no_scheme (String "/" x).
Proof. intros [|c a] b E; [discriminate E|]. left. injection E as <- _. reflexivity. Qed.
Lemma app_colon (c : ascii) x y : (x +++ String c y) = (x +++ str1 c) +++ y.
Proof. rewrite app_assoc_s. reflexivity. Qed.
Lemma has_ctl_qtext fq q : has_ctl (qtext fq q) = (fq || nonempty q) && has_ctl q.
Proof. unfold qtext. now destruct (fq || nonempty q). Qed.
Definition back (u : url) : Prop := exists u', parse_nofrag (url_string u) = Some u' /\ same_url u u' /\ url_string u' = url_string u /\ u_fragment u' = "" /\ has_char "#" (url_string u) = false.

Lemma back_host sch us h p rp fq q r a : (sch = "" /\ has_auth us h = true \/ scheme_text sch = true /\ to_lower sch = sch) -> parse_authority a = Some (us, h) -> zone_ascii h -> set_path r = Some (p, rp) -> r = "" \/ has_prefix "/" r = true ->
  has_char "?" r = false -> has_char "#" r = false -> has_ctl r = false -> has_ctl (qtext fq q) = false -> has_char "#" (qtext fq q) = false -> (fq = true -> q = "") -> back (mk sch us h p rp fq q).
Proof.
  intros Sc Hh Hz Hp Hr Cq Ch Cc Qc Qh Qf. pose proof (parse_authority_back a us h Hh Hz) as Hb. pose proof (path_slash r p rp Hp Hr) as T. destruct (path_chars r p rp Hp Cq Ch Cc) as (Tq & Th & Tc).
  destruct (path_text_spec r p rp Hp) as (_ & rp' & Hs & Ht & _). pose proof (auth_no "?" us h eq_refl eq_refl eq_refl eq_refl eq_refl) as Eq. pose proof (auth_no "#" us h eq_refl eq_refl eq_refl eq_refl eq_refl) as Eh. pose proof (auth_no_ctl us h) as Ec.
  destruct Sc as [[-> N]|[Sc L]].
  - exists (mk "" us h p rp' fq q). rewrite !print_host, Ht by (rewrite ?Ht; assumption). split; [|split; [apply same_mk | split; [reflexivity | split; [reflexivity|]]]].
    + rewrite parse_nofrag_eq. assert (has_ctl ("//" +++ auth_text us h +++ path_text p rp +++ qtext fq q) = false) as -> by (rewrite !has_ctl_app, Ec, Tc, Qc; reflexivity). cbv iota.
      assert (String.eqb ("//" +++ auth_text us h +++ path_text p rp +++ qtext fq q) "*" = false) as -> by reflexivity. cbv iota.
      assert (getscheme ("//" +++ auth_text us h +++ path_text p rp +++ qtext fq q) = Some ("", "//" +++ auth_text us h +++ path_text p rp +++ qtext fq q)) as -> by (apply getscheme_from_none, no_scheme_slash).
      assert (cutq ("//" +++ auth_text us h +++ path_text p rp +++ qtext fq q) = ("//" +++ auth_text us h +++ path_text p rp, fq, q)) as ->.
      { rewrite <- (app_assoc_s (auth_text us h)), <- (app_assoc_s "//"). apply cutq_back; [|exact Qf]. rewrite !has_char_app, Eq, Tq. reflexivity. }
      cbv iota beta. rewrite slash_slash. cbn [negb andb]. apply hier_host; auto.
    + rewrite !has_char_app, Eh, Th, Qh. reflexivity.
  - destruct (has_auth us h || nonempty p) eqn:NE.
    + exists (mk sch us h p rp' fq q). rewrite !print_scheme, NE, Ht by (rewrite ?Ht; assumption). split; [|split; [apply same_mk | split; [reflexivity | split; [reflexivity|]]]].
      * rewrite parse_nofrag_eq.
        assert (has_ctl (sch +++ String ":" ("//" +++ auth_text us h +++ path_text p rp +++ qtext fq q)) = false) as ->.
        { rewrite app_colon, !has_ctl_app, (scheme_no_ctl sch Sc), Ec, Tc, Qc. reflexivity. } cbv iota.
        assert (String.eqb (sch +++ String ":" ("//" +++ auth_text us h +++ path_text p rp +++ qtext fq q)) "*" = false) as ->.
        { destruct sch as [|c sch]; [discriminate Sc|]. apply String.eqb_neq. intro E. injection E as -> E. destruct sch; discriminate E. } cbv iota.
        rewrite (getscheme_back sch _ Sc).
        assert (cutq ("//" +++ auth_text us h +++ path_text p rp +++ qtext fq q) = ("//" +++ auth_text us h +++ path_text p rp, fq, q)) as ->.
        { rewrite <- (app_assoc_s (auth_text us h)), <- (app_assoc_s "//"). apply cutq_back; [|exact Qf]. rewrite !has_char_app, Eq, Tq. reflexivity. }
        cbv iota beta. rewrite slash_slash, L. cbn [negb andb]. apply hier_host; auto. left. destruct sch; [discriminate Sc | discriminate].
      * rewrite app_colon, !has_char_app, Eh, Th, Qh, (scheme_no "#" sch eq_refl Sc). reflexivity.
    + apply orb_false_iff in NE as [Nh Np]. apply orb_false_iff in Nh as [Nh Nu]. assert (h = "") as -> by (destruct h; [reflexivity | discriminate Nh]). assert (us = None) as -> by (destruct us; [discriminate Nu | reflexivity]). assert (p = "") as -> by (destruct p; [reflexivity | discriminate Np]).
      assert (T0 : path_text "" rp = "").
      { destruct (path_text_spec r "" rp Hp) as (U & _ & _ & _ & [[_ _]|[[_ X]|(-> & _)]]); [|discriminate X | reflexivity]. destruct T as [T|T]; [exact T|].
        unfold set_path in Hs. destruct (unescape EPath (path_text "" rp)) as [z|] eqn:Z; [|discriminate Hs]. injection Hs as -> _. pose proof (unescape_slash _ _ Z T) as X. discriminate X. }
      exists (opaque sch "" fq q). assert (Pr : url_string (mk sch None "" "" rp fq q) = sch +++ String ":" (qtext fq q)) by (rewrite print_scheme by assumption; now rewrite T0).
      rewrite Pr. split; [|split; [repeat split | split; [|split; [reflexivity|]]]].
      * rewrite parse_nofrag_eq. assert (has_ctl (sch +++ String ":" (qtext fq q)) = false) as -> by (rewrite app_colon, !has_ctl_app, (scheme_no_ctl sch Sc), Qc; reflexivity). cbv iota.
        assert (String.eqb (sch +++ String ":" (qtext fq q)) "*" = false) as ->.
        { destruct sch as [|c sch]; [discriminate Sc|]. apply String.eqb_neq. intro E. injection E as -> E. destruct sch; discriminate E. } cbv iota.
        rewrite (getscheme_back sch _ Sc). change (qtext fq q) with ("" +++ qtext fq q). rewrite (cutq_back "" fq q eq_refl Qf). rewrite L. cbn [has_prefix negb andb].
        assert (String.eqb sch "" = false) as -> by (destruct sch; [discriminate Sc | reflexivity]). reflexivity.
      * change (opaque sch "" fq q) with (mk sch None "" "" "" fq q). rewrite print_scheme; [reflexivity | exact Sc | now left].
      * rewrite app_colon, !has_char_app, Qh, (scheme_no "#" sch eq_refl Sc). reflexivity.
Qed.
Lemma back_opaque sch rest fq q : scheme_text sch = true -> to_lower sch = sch -> has_prefix "/" rest = false -> has_char "?" rest = false -> has_char "#" rest = false -> has_ctl rest = false ->
  has_ctl (qtext fq q) = false -> has_char "#" (qtext fq q) = false -> (fq = true -> q = "") -> back (opaque sch rest fq q).
Proof.
  intros Sc L N Cq Ch Cc Qc Qh Qf. exists (opaque sch rest fq q).
  assert (Pr : url_string (opaque sch rest fq q) = sch +++ String ":" (rest +++ qtext fq q)).
  { destruct rest as [|c rest].
    - change (opaque sch "" fq q) with (mk sch None "" "" "" fq q). rewrite print_scheme; [reflexivity | exact Sc | now left].
    - assert (nonempty sch = true) as NS by (destruct sch; [discriminate Sc | reflexivity]).
      change (url_string (opaque sch (String c rest) fq q)) with ((if nonempty sch then sch +++ ":" else "") +++ String c rest +++ qtext fq q +++ ""). rewrite NS, app_nil_r_s, app_assoc_s. reflexivity. }
  rewrite Pr. split; [|split; [repeat split | split; [exact eq_refl | split; [reflexivity|]]]].
  - rewrite parse_nofrag_eq. assert (has_ctl (sch +++ String ":" (rest +++ qtext fq q)) = false) as -> by (rewrite app_colon, !has_ctl_app, (scheme_no_ctl sch Sc), Cc, Qc; reflexivity). cbv iota.
    assert (String.eqb (sch +++ String ":" (rest +++ qtext fq q)) "*" = false) as ->.
    { destruct sch as [|c sch]; [discriminate Sc|]. apply String.eqb_neq. intro E. injection E as -> E. destruct sch; discriminate E. } cbv iota.
    rewrite (getscheme_back sch _ Sc), (cutq_back rest fq q Cq Qf), L, N. cbn [negb andb].
    assert (String.eqb sch "" = false) as -> by (destruct sch; [discriminate Sc | reflexivity]). reflexivity.
  - rewrite app_colon, !has_char_app, Ch, Qh, (scheme_no "#" sch eq_refl Sc). reflexivity.
Qed.
Lemma slash_cut r : has_prefix "/" r = true -> fst (cut_slash r) = "".
Proof. destruct r as [|c r]; [reflexivity|]. cbn [has_prefix cut_slash]. rewrite andb_true_r, Ascii.eqb_sym. intros ->. reflexivity. Qed.
Lemma cut_no_scheme t fq q : has_char ":" (fst (cut_slash t)) = false -> no_scheme (t +++ qtext fq q).
Proof.
  intros H a b E. destruct (has_char "/" a) eqn:Sa; [now left | right]. revert a E Sa. induction t as [|c t IH]; intros a E Sa.
  - cbn [String.append] in E. unfold qtext in E. destruct (fq || nonempty q); [|destruct a; discriminate E]. destruct a as [|d a]; [discriminate E|]. injection E as <- _. reflexivity.
  - cbn [cut_slash] in H. destruct (Ascii.eqb_spec c "/") as [->|N].
    + destruct a as [|d a]; [discriminate E|]. injection E as <- _. discriminate Sa.
    + destruct (cut_slash t) as [x y] eqn:C. cbn [fst has_char] in H. apply orb_false_iff in H as [H1 H2]. destruct a as [|d a]; [injection E as -> _; discriminate H1|]. cbn [String.append] in E. injection E as <- E.
      cbn [has_char] in Sa |- *. apply orb_false_iff in Sa as [_ Sa]. rewrite (IH H2 a E Sa). apply orb_true_r.
Qed.
Lemma qtext_star t fq q : has_char "?" t = false -> String.eqb (t +++ qtext fq q) "*" = true -> t = "*" /\ qtext fq q = "".
Proof.
  intros N E. apply String.eqb_eq in E. unfold qtext in *. destruct (fq || nonempty q); [|rewrite app_nil_r_s in E; auto].
  destruct t as [|c [|d t]]; [discriminate E | injection E as -> E; discriminate E | injection E as -> E; destruct t; discriminate E].
Qed.
Lemma plain_cut p : plain_path p -> has_prefix "//" p = false /\ has_char ":" (fst (cut_slash p)) = false.
Proof.
  intros [A B]. split.
  - destruct (has_prefix "//" p) eqn:E; [|reflexivity]. apply has_prefix_inv in E as (t & ->). now elim (A t).
  - destruct (has_char ":" (fst (cut_slash p))) eqn:E; [|reflexivity]. destruct (cut_slash p) as [x y] eqn:C. cbn [fst] in E. destruct (cut_slash_app _ _ _ C) as (-> & _ & N).
    destruct (cut_char ":" x) as [[a b]|] eqn:X; [|apply cut_char_none in X; congruence]. apply cut_char_some in X as [-> _].
    specialize (B a (b +++ y)). rewrite has_char_app in N. apply orb_false_iff in N as [N _]. rewrite B in N; [discriminate N|]. rewrite app_assoc_s. reflexivity.
Qed.
Lemma back_path s r p rp fq q : parse_nofrag s = Some (mk "" None "" p rp fq q) -> s = r +++ qtext fq q -> set_path r = Some (p, rp) -> has_prefix "/" r = true \/ has_char ":" (fst (cut_slash r)) = false ->
  has_char "?" r = false -> has_char "#" r = false -> has_ctl r = false -> has_ctl (qtext fq q) = false -> has_char "#" (qtext fq q) = false -> (fq = true -> q = "") ->
  valid_encoded_path r = true \/ plain_path p -> back (mk "" None "" p rp fq q).
Proof.
  intros Ps Es Hp Hc Cq Ch Cc Qc Qh Qf V. destruct (path_chars r p rp Hp Cq Ch Cc) as (Tq & Th & Tc). destruct (path_text_spec r p rp Hp) as (_ & rp' & Hs & Ht & [[E1 _]|[[E1 E2]|(E1 & N & V')]]).
  - exists (mk "" None "" p rp fq q). assert (Pr : url_string (mk "" None "" p rp fq q) = s).
    { rewrite print_path, E1. assert (has_char ":" (fst (cut_slash r)) = false) as ->; [|now rewrite Es]. destruct Hc as [Hc|Hc]; [now rewrite (slash_cut r Hc) | exact Hc]. }
    rewrite Pr. split; [exact Ps|]. split; [apply same_mk|]. split; [reflexivity|]. split; [reflexivity|]. now rewrite Es, has_char_app, Ch, Qh.
  - subst p. rewrite E1 in *. assert (Pr : url_string (mk "" None "" "*" rp fq q) = "*" +++ qtext fq q) by (rewrite print_path, E1; reflexivity).
    destruct (String.eqb ("*" +++ qtext fq q) "*") eqn:Q.
    + assert (fq = false /\ q = "") as [-> ->].
      { destruct (qtext_star "*" fq q eq_refl Q) as [_ X]. unfold qtext in X. destruct fq; [discriminate X|]. destruct q; [auto | discriminate X]. }
      exists star. rewrite Pr. repeat split.
    + exists (mk "" None "" "*" rp' fq q). rewrite Pr. split; [|split; [apply same_mk | split; [|split; [reflexivity|]]]].
      * rewrite parse_nofrag_eq. assert (has_ctl ("*" +++ qtext fq q) = false) as -> by (rewrite has_ctl_app, Qc; reflexivity). rewrite Q. cbv iota.
        assert (getscheme ("*" +++ qtext fq q) = Some ("", "*" +++ qtext fq q)) as -> by (apply getscheme_from_none, cut_no_scheme; reflexivity).
        rewrite (cutq_back "*" fq q eq_refl Qf). cbn [to_lower String.eqb negb andb has_prefix]. change (Ascii.eqb "/" "*") with false. cbn [andb negb]. change (has_char ":" (fst (cut_slash "*"))) with false. cbv iota.
        unfold hier. change (has_prefix "//" "*") with false. rewrite andb_false_r. now rewrite Hs.
      * rewrite print_path, Ht. reflexivity.
      * rewrite has_char_app, Qh. reflexivity.
  - destruct V as [V|V]; [congruence|]. destruct (plain_cut p V) as [P1 P2]. destruct (cut_slash p) as [x y] eqn:C. cbn [fst] in P2.
    assert (K : has_char ":" (fst (cut_slash (escape EPath p))) = false) by (rewrite (escape_slash p x y C); cbn [fst]; now rewrite escape_keeps_colon).
    exists (mk "" None "" p rp' fq q). assert (Pr : forall z, path_text p z = escape EPath p -> url_string (mk "" None "" p z fq q) = escape EPath p +++ qtext fq q) by (intros z Z; rewrite print_path, Z, K; reflexivity).
    rewrite (Pr rp E1). rewrite E1 in *. split; [|split; [apply same_mk | split; [|split; [reflexivity|]]]].
    + rewrite parse_nofrag_eq. assert (has_ctl (escape EPath p +++ qtext fq q) = false) as -> by (rewrite has_ctl_app, escape_no_ctl, Qc; reflexivity). cbv iota.
      destruct (String.eqb (escape EPath p +++ qtext fq q) "*") eqn:Q.
      { destruct (qtext_star _ fq q Tq Q) as [X _]. pose proof (unescape_escape EPath p Logic.I) as Y. rewrite X in Y. injection Y as Y. now elim N. }
      assert (getscheme (escape EPath p +++ qtext fq q) = Some ("", escape EPath p +++ qtext fq q)) as -> by (apply getscheme_from_none, cut_no_scheme, K).
      rewrite (cutq_back _ fq q Tq Qf). change (String.eqb (to_lower "") "") with true. cbn [negb]. rewrite andb_false_r, K, andb_false_r. unfold hier. rewrite escape_slashes, P1, andb_false_r. now rewrite Hs.
    + apply Pr. exact Ht.
    + now rewrite has_char_app, Th, Qh.
Qed.
Lemma url_chars_valid r : str_all url_char r = true -> has_char "?" r = false -> valid_encoded_path r = true.
Proof.
  induction r as [|c r IH]; [reflexivity|]. cbn [str_all has_char valid_encoded_path]. intros H N. apply andb_true_iff in H as [Hc H]. apply orb_false_iff in N as [Nc N]. rewrite (IH H N), andb_true_r.
  revert Hc Nc. clear. destruct c as [[] [] [] [] [] [] [] []]; intros Hc Nc; try discriminate Hc; try discriminate Nc; reflexivity.
Qed.
Lemma app_false3 (f : string -> bool) a b : (forall x y, f (x +++ y) = f x || f y) -> f (a +++ b) = false -> f a = false /\ f b = false.
Proof. intros H E. rewrite H in E. now apply orb_false_iff in E. Qed.
Lemma parse_host_nil a : parse_host a = Some "" -> a = "".
Proof.
  intro E. unfold parse_host in E. destruct (has_prefix "[" a) eqn:B.
  - destruct (cut_last "]" a) as [[x port]|] eqn:C; [|discriminate E]. destruct (valid_port port); [|discriminate E]. destruct (cut_zone x) as [[h z]|].
    + destruct (unescape EHost h) as [h1|]; [|discriminate E]. destruct (unescape EZone z) as [h2|]; [|discriminate E]. destruct (unescape EHost (String "]" port)) as [h3|] eqn:U; [|discriminate E].
      apply unescape_of in U. inversion U; subst. injection E as E. destruct h1; [|discriminate E]. destruct h2; discriminate E.
    + apply unescape_of in E. inversion E; reflexivity.
  - assert (U : unescape EHost a = Some "") by (destruct (after_last_colon a) as [z|]; [destruct (all_digits z); [exact E | discriminate E] | exact E]). apply unescape_of in U. inversion U; reflexivity.
Qed.
Lemma host_nonempty a : a <> "" -> parse_host a <> Some "".
Proof.
  intros N E. pose proof (parse_host_nil a E) as X. congruence.
Qed.
Lemma authority_empty a : a <> "" -> parse_authority a <> Some (None, "").
Proof.
  intros N E. unfold parse_authority in E. destruct (cut_last "@" a) as [[ui b]|].
  - destruct (parse_host b); [|discriminate E]. destruct (valid_userinfo ui); [|discriminate E].
    destruct (cut_char ":" ui) as [[x y]|]; [destruct (unescape EUser x); [|discriminate E]; destruct (unescape EUser y); discriminate E | destruct (unescape EUser ui); discriminate E].
  - destruct (parse_host a) as [h|] eqn:P; [|discriminate E]. injection E as ->. exact (host_nonempty a N P).
Qed.
Theorem nofrag_back s u : parse_nofrag s = Some u -> has_char "#" s = false ->
  str_all url_char s = true \/ u_scheme u <> "" \/ u_user u <> None \/ u_host u <> "" \/ plain_path (u_path u) -> zone_ascii (u_host u) -> back u.
Proof.
  intros P Hs Cond Za. pose proof P as P0. rewrite parse_nofrag_eq in P. destruct (has_ctl s) eqn:Ctl; [discriminate P|]. destruct (String.eqb s "*"); [injection P as <-; exists star; repeat split|].
  destruct (getscheme s) as [[sch0 rest0]|] eqn:G; [|discriminate P]. destruct (cutq rest0) as [[rest fq] q] eqn:Q. destruct (cutq_spec _ _ _ _ Q) as (Er & Nq & Qf).
  assert (Parts : has_char "#" rest = false /\ has_ctl rest = false /\ has_ctl (qtext fq q) = false /\ has_char "#" (qtext fq q) = false /\ (str_all url_char s = true -> str_all url_char rest = true) /\
    (sch0 = "" /\ s = rest +++ qtext fq q \/ scheme_text (to_lower sch0) = true /\ to_lower (to_lower sch0) = to_lower sch0)).
  { assert (X : exists pre, s = pre +++ (rest +++ qtext fq q) /\ (sch0 = "" /\ s = rest +++ qtext fq q \/ scheme_text (to_lower sch0) = true /\ to_lower (to_lower sch0) = to_lower sch0)).
    { destruct (getscheme_spec _ _ _ G) as [[-> ->]|[A B]].
      - exists "". rewrite <- Er. auto.
      - exists (sch0 +++ ":"). split; [rewrite B, <- Er, app_assoc_s; reflexivity|]. right. rewrite lower_scheme, lower_lower. auto. }
    destruct X as (pre & E & X). clear Cond P P0. rewrite E in Hs, Ctl |- *. rewrite !has_char_app in Hs. rewrite !has_ctl_app in Ctl. apply orb_false_iff in Hs as [_ Hs]. apply orb_false_iff in Hs as [Hs1 Hs2].
    apply orb_false_iff in Ctl as [_ Ctl]. apply orb_false_iff in Ctl as [C1 C2]. rewrite !str_all_app. refine (conj Hs1 (conj C1 (conj C2 (conj Hs2 (conj _ _))))); [|now rewrite <- E].
    intro Z. apply andb_true_iff in Z as [_ Z]. now apply andb_true_iff in Z. }
  destruct Parts as (R1 & R2 & R3 & R4 & R5 & R6). destruct (negb (has_prefix "/" rest) && negb (String.eqb (to_lower sch0) "")) eqn:O.
  - injection P as <-. apply andb_true_iff in O as [O1 O2]. apply negb_true_iff in O1. destruct R6 as [[-> _]|[A B]]; [discriminate O2|]. now apply back_opaque.
  - destruct (negb (has_prefix "/" rest) && has_char ":" (fst (cut_slash rest))) eqn:K; [discriminate P|]. unfold hier in P.
    destruct ((negb (String.eqb (to_lower sch0) "") || negb (has_prefix "///" rest)) && has_prefix "//" rest) eqn:Au.
    + destruct (cut_slash (skipn_s 2 rest)) as [a r] eqn:C. destruct (parse_authority a) as [[us h]|] eqn:Hh; [|discriminate P]. destruct (set_path r) as [[p rp]|] eqn:Hp; [|discriminate P]. injection P as <-.
      apply andb_true_iff in Au as [Au Pre]. apply has_prefix_inv in Pre as (t & ->). change (skipn_s 2 ("//" +++ t)) with t in C. destruct (cut_slash_app _ _ _ C) as (-> & Hr & _).
      rewrite !has_char_app in Nq, R1. rewrite !has_ctl_app in R2. apply orb_false_iff in Nq as [_ Nq]. apply orb_false_iff in Nq as [_ Nq]. apply orb_false_iff in R1 as [_ R1]. apply orb_false_iff in R1 as [_ R1]. apply orb_false_iff in R2 as [_ R2]. apply orb_false_iff in R2 as [_ R2].
      destruct R6 as [[-> Es]|R6]; [|apply (back_host _ us h p rp fq q r a (or_intror R6)); assumption]. cbn [to_lower] in *. destruct (has_auth us h) eqn:Nh; [apply (back_host "" us h p rp fq q r a); auto|].
      apply orb_false_iff in Nh as [Nh Nu]. assert (h = "") as -> by (destruct h; [reflexivity | discriminate Nh]). assert (us = None) as -> by (destruct us; [discriminate Nu | reflexivity]).
      (* "//" and no host *)
      assert (a = "") as ->.
      { destruct a as [|c a]; [reflexivity|]. exfalso. exact (authority_empty (String c a) ltac:(discriminate) Hh). }
      assert (r = "") as ->.
      { destruct Hr as [Hr|Hr]; [exact Hr|]. exfalso. apply has_prefix_inv in Hr as (t & ->). discriminate Au. }
      injection Hp as <- <-. change (back (mk "" None "" "" "" fq q)). exists (mk "" None "" "" "" fq q). assert (Pr : url_string (mk "" None "" "" "" fq q) = qtext fq q) by (rewrite print_path; reflexivity).
      rewrite Pr. split; [|split; [apply same_mk | split; [reflexivity | split; [reflexivity | exact R4]]]].
      rewrite parse_nofrag_eq, R3. change (qtext fq q) with ("" +++ qtext fq q). destruct (String.eqb ("" +++ qtext fq q) "*") eqn:Z; [destruct (qtext_star "" fq q eq_refl Z) as [Z1 _]; discriminate Z1|].
      assert (getscheme ("" +++ qtext fq q) = Some ("", "" +++ qtext fq q)) as -> by (apply getscheme_from_none, cut_no_scheme; reflexivity). rewrite (cutq_back "" fq q eq_refl Qf). reflexivity.
    + destruct (set_path rest) as [[p rp]|] eqn:Hp; [|discriminate P]. injection P as <-. destruct R6 as [[-> Es]|R6].
      * cbn [to_lower] in *. apply (back_path s rest p rp fq q); auto.
        -- apply andb_false_iff in K as [K|K]; [left; now apply negb_false_iff in K | now right].
        -- destruct Cond as [Cd|[Cd|[Cd|[Cd|Cd]]]]; [left; apply url_chars_valid; auto | now elim Cd | now elim Cd | now elim Cd | now right].
      * apply (back_host _ None "" p rp fq q rest ""); auto. destruct (has_prefix "/" rest); [now right|]. cbn [negb andb] in O. destruct R6 as [R6 _]. destruct (to_lower sch0); [discriminate R6 | discriminate O].
Qed.

(** ** Pointers *)
Lemma parse_no_fragment s u : parse_nofrag s = Some u -> u_fragment u = "".
Proof.
  rewrite parse_nofrag_eq. destruct (has_ctl s); [discriminate|]. destruct (String.eqb s "*"); [now intros [= <-]|]. destruct (getscheme s) as [[a b]|]; [|discriminate]. destruct (cutq b) as [[rest fq] q].
  destruct (negb (has_prefix "/" rest) && negb (String.eqb (to_lower a) "")); [now intros [= <-]|]. destruct (negb (has_prefix "/" rest) && has_char ":" (fst (cut_slash rest))); [discriminate|].
  unfold hier. destruct ((negb (String.eqb (to_lower a) "") || negb (has_prefix "///" rest)) && has_prefix "//" rest).
  - destruct (cut_slash (skipn_s 2 rest)) as [x r]. destruct (parse_authority x) as [[us h]|]; [|discriminate]. destruct (set_path r) as [[p rp]|]; [|discriminate]. now intros [= <-].
  - destruct (set_path rest) as [[p rp]|]; [|discriminate]. now intros [= <-].
Qed.
Lemma with_no_fragment u : u_fragment u = "" -> with_fragment "" u = u.
Proof. destruct u. cbn. now intros ->. Qed.
Lemma string_fragment f u : u_fragment u = "" -> url_string (with_fragment f u) = url_string u +++ (if nonempty f then "#" +++ escape EFragment f else "").
Proof.
  intro E. unfold url_string. rewrite E. cbn [with_fragment u_scheme u_opaque u_user u_host u_path u_rawpath u_forcequery u_query u_fragment]. change (escaped_path (with_fragment f u)) with (escaped_path u).
  change (nonempty "") with false. cbv iota. rewrite app_nil_r_s, !app_assoc_s. reflexivity.
Qed.
Lemma usual_url p : usual_pointer p -> exists f u, p_url p = with_fragment f u /\ u_fragment u = "" /\ back u.
Proof.
  intros (text & frag & p0 & P & E & N & Fr & Cond & Za). rewrite E in Cond, Za |- *. clear E. unfold ptr_parse in P. destruct (String.eqb (text +++ frag) "" || String.eqb (text +++ frag) "#") eqn:Z.
  - injection P as <-. exists "", url_zero. split; [reflexivity|]. split; [reflexivity|]. exists url_zero. repeat split.
  - destruct (url_parse (text +++ frag)) as [u|] eqn:U; [|discriminate P]. destruct (new_fragment (u_fragment u)) as [f| | |]; try discriminate P. injection P as <-. cbn [p_url] in Cond, Za |- *.
    unfold url_parse in U. destruct Fr as [->|[f0 ->]].
    + rewrite app_nil_r_s in U. rewrite (proj2 (cut_char_none "#" text) N) in U. exists "", u. pose proof (parse_no_fragment _ _ U) as F0. split; [symmetry; exact (with_no_fragment u F0)|]. split; [exact F0 | exact (nofrag_back text u U N Cond Za)].
    + rewrite (cut_char_app "#" text f0 N) in U. destruct (parse_nofrag text) as [u0|] eqn:U0; [|discriminate U]. destruct (unescape EFragment f0) as [f'|]; [|discriminate U]. injection U as <-.
      exists f', u0. split; [reflexivity|]. split; [exact (parse_no_fragment _ _ U0) | exact (nofrag_back text u0 U0 N Cond Za)].
Qed.
Lemma same_with f g u u' : same_url u u' -> same_url (with_fragment f u) (with_fragment g u').
Proof. exact (fun H => H). Qed.
Lemma ptr_text p f u : p_url p = with_fragment f u -> u_fragment u = "" -> ptr_string p = url_string u +++ String "#" (frag_string (p_frag p)).
Proof. intros E F0. unfold ptr_string. rewrite E. change (with_fragment "" (with_fragment f u)) with (with_fragment "" u). now rewrite (with_no_fragment u F0). Qed.
Theorem clone_usual p : usual_pointer p -> exists p', ptr_clone p = Ok p' /\ same_pointer p p' /\ u_fragment (p_url p') = u_fragment (p_url p) /\ ptr_string p' = ptr_string p.
Proof.
  intro U. destruct (usual_url p U) as (f & u & E & F0 & u' & P & Sm & St & F1 & N). unfold ptr_clone. rewrite E, (string_fragment f u F0).
  assert (url_parse (url_string u +++ (if nonempty f then "#" +++ escape EFragment f else "")) = Some (with_fragment f u')) as ->.
  { unfold url_parse. destruct f as [|c f].
    - change (nonempty "") with false. cbv iota. rewrite app_nil_r_s, (proj2 (cut_char_none "#" _) N), P. f_equal. symmetry. exact (with_no_fragment u' F1).
    - change (nonempty (String c f)) with true. cbv iota. change ("#" +++ escape EFragment (String c f)) with (String "#" (escape EFragment (String c f))).
      rewrite (cut_char_app "#" _ _ N), P. now rewrite unescape_escape_frag. }
  eexists. split; [reflexivity|]. split; [split; [cbn [p_url]; rewrite E; exact Sm | reflexivity]|]. split; [reflexivity|]. rewrite (ptr_text p f u E F0), (ptr_text {| p_url := with_fragment f u'; p_frag := p_frag p |} f u' eq_refl F1). cbn [p_frag]. now rewrite St.
Qed.
Theorem text_usual p : usual_pointer p -> Forall (fun t => has_char "%" t = false) (p_frag p) -> exists p', ptr_parse (ptr_string p) = Ok p' /\ same_pointer p p' /\ ptr_string p' = ptr_string p.
Proof.
  intros U Hf. destruct (usual_url p U) as (f & u & E & F0 & u' & P & Sm & St & F1 & N). rewrite (ptr_text p f u E F0). unfold ptr_parse.
  destruct (String.eqb (url_string u +++ String "#" (frag_string (p_frag p))) "" || String.eqb (url_string u +++ String "#" (frag_string (p_frag p))) "#") eqn:Z.
  - assert (url_string u = "" /\ frag_string (p_frag p) = "") as [Z1 Z2].
    { apply orb_true_iff in Z as [Z|Z]; apply String.eqb_eq in Z; [destruct (url_string u); discriminate Z|]. destruct (url_string u) as [|c s]; [now injection Z as ->|]. injection Z as _ Z. destruct s; discriminate Z. }
    exists ptr_zero. split; [reflexivity|]. assert (Fz : p_frag p = []) by (apply frag_string_inj; exact Z2). split.
    + split; [|symmetry; exact Fz]. rewrite E. rewrite Z1 in P. injection P as <-. exact Sm.
    + now rewrite Z1, Z2.
  - unfold url_parse. rewrite (cut_char_app "#" _ _ N), P, (unescape_noperc _ (frag_string_no_perc _ Hf)). cbn [with_fragment u_fragment]. unfold new_fragment. rewrite frag_roundtrip. cbn [bind].
    eexists. split; [reflexivity|]. split; [split; [cbn [p_url]; rewrite E; exact Sm | reflexivity]|]. unfold ptr_string. cbn [p_url p_frag].
    match goal with |- url_string ?x +++ _ = _ => change x with (with_fragment "" u') end. now rewrite (with_no_fragment u' F1), St.
Qed.
Lemma same_sym u u' : same_url u u' -> same_url u' u.
Proof. intros (A & B & C & D & E & F & G). repeat split; congruence. Qed.
Lemma same_trans u v w : same_url u v -> same_url v w -> same_url u w.
Proof. intros (A & B & C & D & E & F & G) (A' & B' & C' & D' & E' & F' & G'). repeat split; congruence. Qed.
Theorem identify_usual p q : usual_pointer p -> usual_pointer q -> ptr_string p = ptr_string q -> same_pointer p q.
Proof.
  intros Up Uq H. destruct (usual_url p Up) as (f & u & E & F0 & u' & P & Sm & St & F1 & N). destruct (usual_url q Uq) as (g & v & E' & F0' & v' & P' & Sm' & St' & F1' & N').
  rewrite (ptr_text p f u E F0), (ptr_text q g v E' F0') in H. apply app_hash_inj in H as [H1 H2]; [|exact N | exact N']. split.
  - rewrite E, E'. rewrite H1, P' in P. injection P as ->. exact (same_trans u u' v Sm (same_sym v u' Sm')).
  - symmetry. now apply frag_string_inj.
Qed.
