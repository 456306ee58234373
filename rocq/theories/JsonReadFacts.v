(** Reading back documents written with any white space between the tokens. *)
From Coq Require Import String Ascii List Bool Arith ZArith Permutation Sorted Lia.
From Verif Require Import GoStr GoStrFacts Json JsonFacts Gabs Container Spec_Clone JsonText JsonTextFacts.
Import ListNotations.
Local Open Scope string_scope.
Local Open Scope nat_scope.
Local Open Scope list_scope.

(** ** White space and numbers *)
Definition ws (w : string) : Prop := all is_ws w = true.
Lemma skip_ws_app w s : ws w -> skip_ws (w +++ s) = skip_ws s.
Proof. unfold ws. induction w as [|c w IH]; intro H; [reflexivity|]. cbn [all] in H. apply andb_true_iff in H as (Hc & Hw). cbn [append skip_ws]. rewrite Hc. now apply IH. Qed.
Lemma skip_ws_cons c s : is_ws c = false -> skip_ws (String c s) = String c s.
Proof. intro H. cbn [skip_ws]. now rewrite H. Qed.

Lemma digits_chars s : exists p, s = p +++ digits s /\ all num_char p = true.
Proof.
  induction s as [|c s (p & E & H)]; [now exists ""|]. cbn [digits]. destruct (is_digit c) eqn:D; [|now exists ""].
  exists (String c p). split; [cbn [append]; now rewrite E at 1|]. cbn [all]. rewrite H. unfold num_char. now rewrite D.
Qed.
Lemma digits1_chars s r : digits1 s = Some r -> exists c p, s = String c (p +++ r) /\ is_digit c = true /\ all num_char p = true.
Proof.
  unfold digits1. destruct s as [|c s]; [discriminate|]. destruct (is_digit c) eqn:D; [|discriminate]. intro H. injection H as <-.
  destruct (digits_chars s) as (p & E & H). exists c, p. rewrite <- E. auto.
Qed.
Lemma num_int_chars s r : num_int s = Some r -> exists c p, s = String c (p +++ r) /\ is_digit c = true /\ all num_char p = true.
Proof.
  unfold num_int. destruct s as [|c s]; [discriminate|]. destruct (Ascii.eqb_spec c "0") as [->|]; [|apply digits1_chars].
  intro H. injection H as <-. now exists "0"%char, "".
Qed.
Lemma num_frac_chars s r : num_frac s = Some r -> exists p, s = p +++ r /\ all num_char p = true.
Proof.
  unfold num_frac. destruct s as [|c s]; [intro H; injection H as <-; now exists ""|]. destruct (Ascii.eqb_spec c ".") as [->|].
  - intro H. apply digits1_chars in H as (d & p & -> & D & P). exists (String "." (String d p)). split; [reflexivity|]. cbn [all]. rewrite P. unfold num_char. rewrite D. reflexivity.
  - intro H. injection H as <-. now exists "".
Qed.
Lemma num_exp_chars s r : num_exp s = Some r -> exists p, s = p +++ r /\ all num_char p = true.
Proof.
  unfold num_exp. destruct s as [|c s]; [intro H; injection H as <-; now exists ""|]. destruct (Ascii.eqb c "e" || Ascii.eqb c "E") eqn:Ec.
  - assert (Nc : num_char c = true) by (apply orb_true_iff in Ec as [E|E]; apply Ascii.eqb_eq in E; subst; reflexivity).
    destruct s as [|d s]; [discriminate|]. destruct (Ascii.eqb d "+" || Ascii.eqb d "-") eqn:Ed.
    + assert (Nd : num_char d = true) by (apply orb_true_iff in Ed as [E|E]; apply Ascii.eqb_eq in E; subst; reflexivity).
      intro H. apply digits1_chars in H as (x & p & -> & D & P). exists (String c (String d (String x p))). split; [reflexivity|]. cbn [all]. rewrite P, Nc, Nd. unfold num_char. now rewrite D.
    + intro H. apply digits1_chars in H as (x & p & E & D & P). exists (String c (String x p)). split; [cbn [append]; now rewrite E|]. cbn [all]. rewrite P, Nc. unfold num_char. now rewrite D.
  - intro H. injection H as <-. now exists "".
Qed.
Definition num_start (c : ascii) : bool := is_digit c || Ascii.eqb c "-".
Lemma number_chars t : is_number t = true -> all num_char t = true /\ exists c r, t = String c r /\ num_start c = true.
Proof.
  unfold is_number. intro H.
  destruct (match t with String c r => if Ascii.eqb c "-" then num_int r else num_int t | EmptyString => None end) as [s1|] eqn:E1; [|discriminate].
  destruct (num_frac s1) as [s2|] eqn:E2; [|discriminate]. destruct (num_exp s2) as [s3|] eqn:E3; [|discriminate]. apply String.eqb_eq in H. subst s3.
  apply num_frac_chars in E2 as (p2 & -> & P2). apply num_exp_chars in E3 as (p3 & -> & P3). rewrite app_nil_r_s in *.
  destruct t as [|c r]; [discriminate|]. destruct (Ascii.eqb_spec c "-") as [->|Nc].
  - apply num_int_chars in E1 as (d & p & -> & D & P). split; [|now exists "-"%char, (String d (p +++ p2 +++ p3))].
    cbn [all]. rewrite !all_app, P, P2, P3. unfold num_char at 2. now rewrite D.
  - apply num_int_chars in E1 as (d & p & E & D & P). rewrite E. split; [|exists d, (p +++ p2 +++ p3); split; [reflexivity | unfold num_start; now rewrite D]].
    cbn [all]. rewrite !all_app, P, P2, P3. unfold num_char at 1. now rewrite D.
Qed.
Definition nonnum (s : string) : Prop := match s with String c _ => num_char c = false | EmptyString => True end.
Lemma span_app t rest : all num_char t = true -> nonnum rest -> span_num (t +++ rest) = (t, rest).
Proof.
  intros H R. induction t as [|c t IH].
  - cbn [append]. destruct rest as [|c r]; [reflexivity|]. cbn in R. cbn [span_num]. now rewrite R.
  - cbn [all] in H. apply andb_true_iff in H as (Hc & Ht). cbn [append span_num]. rewrite Hc, (IH Ht). reflexivity.
Qed.

(** ** Layouts *)
Section Layout.
  Context (rd : string -> option num).
  (** What may stand between tokens. *)
  Context (W : string -> Prop).

  (** [t], with its closing quote, is the rest of a literal for s. *)
  Definition strlit (s t : string) : Prop := forall r, read_str (t +++ r) = Some (s, r).

  Inductive lay : json -> string -> Prop :=
  | lay_null : lay JNull "null"
  | lay_true : lay (JBool true) "true"
  | lay_false : lay (JBool false) "false"
  | lay_num n t : is_number t = true -> rd t = Some n -> lay (JNum n) t
  | lay_str s t : strlit s t -> lay (JStr s) (String DQ t)
  | lay_arr0 w : W w -> lay (JArr []) (String "[" (w +++ "]"))
  | lay_arr l t : lays l t -> lay (JArr l) (String "[" t)
  | lay_obj0 w : W w -> lay (JObj []) (String "{" (w +++ "}"))
  | lay_obj l t : laym l t -> lay (JObj (map_of l)) (String "{" t)
  with lays : list json -> string -> Prop :=
  | lays_one w1 w2 x t : W w1 -> W w2 -> lay x t -> lays [x] (w1 +++ t +++ w2 +++ "]")
  | lays_cons w1 w2 x t l t' : W w1 -> W w2 -> lay x t -> lays l t' -> lays (x :: l) (w1 +++ t +++ w2 +++ String "," t')
  with laym : list (string * json) -> string -> Prop :=
  | laym_one w1 w2 w3 w4 k q x t : W w1 -> W w2 -> W w3 -> W w4 -> strlit k q -> lay x t ->
      laym [(k, x)] (w1 +++ String DQ (q +++ w2 +++ String ":" (w3 +++ t +++ w4 +++ "}")))
  | laym_cons w1 w2 w3 w4 k q x t l t' : W w1 -> W w2 -> W w3 -> W w4 -> strlit k q -> lay x t -> laym l t' ->
      laym ((k, x) :: l) (w1 +++ String DQ (q +++ w2 +++ String ":" (w3 +++ t +++ w4 +++ String "," t'))).
  Scheme lay_mind := Minimality for lay Sort Prop
    with lays_mind := Minimality for lays Sort Prop
    with laym_mind := Minimality for laym Sort Prop.
  Combined Scheme lay_all from lay_mind, lays_mind, laym_mind.

  Definition starts (c : ascii) : bool := num_start c || Ascii.eqb c DQ || Ascii.eqb c "{" || Ascii.eqb c "[" || Ascii.eqb c "n" || Ascii.eqb c "t" || Ascii.eqb c "f".
  Lemma lay_start j t : lay j t -> exists c r, t = String c r /\ starts c = true.
  Proof.
    destruct 1; try (eexists; eexists; split; [reflexivity | reflexivity]).
    destruct (number_chars _ H) as (_ & c & r & -> & S). exists c, r. split; [reflexivity|]. unfold starts. now rewrite S.
  Qed.
  Lemma starts_facts c : starts c = true -> is_ws c = false /\ Ascii.eqb c "]" = false /\ Ascii.eqb c "}" = false.
  Proof.
    intro H. assert (K : forall c, (if starts c then negb (is_ws c) && negb (Ascii.eqb c "]") && negb (Ascii.eqb c "}") else true) = true) by bytes.
    specialize (K c). rewrite H in K. apply andb_true_iff in K as (K & K3). apply andb_true_iff in K as (K1 & K2). now apply negb_true_iff in K1, K2, K3.
  Qed.

  Hypothesis HW : forall w, W w -> ws w.

  Lemma read_value_ws f w s : ws w -> read_value rd f (w +++ s) = read_value rd f s.
  Proof. intro H. destruct f as [|f]; [reflexivity|]. cbn [read_value]. now rewrite (skip_ws_app w s H). Qed.
  Lemma ws_nonnum w c r : ws w -> num_char c = false -> nonnum (w +++ String c r).
  Proof.
    intros H Hc. destruct w as [|d w]; [exact Hc|]. cbn. unfold ws in H. cbn [all] in H. apply andb_true_iff in H as (Hd & _).
    assert (K : forall c, (if is_ws c then negb (num_char c) else true) = true) by bytes. specialize (K d). rewrite Hd in K. now apply negb_true_iff.
  Qed.
  Lemma len_app a b : String.length (a +++ b) = String.length a + String.length b.
  Proof. induction a as [|c a IH]; cbn; [reflexivity|]. now rewrite IH. Qed.

  Theorem read_layout :
    (forall j t, lay j t -> forall f rest, String.length t <= f -> nonnum rest -> read_value rd f (t +++ rest) = Some (j, rest)) /\
    (forall l t, lays l t -> forall n f rest, String.length t <= n -> String.length t <= f -> read_elems n (read_value rd f) (t +++ rest) = Some (l, rest)) /\
    (forall l t, laym l t -> forall n f rest, String.length t <= n -> String.length t <= f -> read_members n (read_value rd f) (t +++ rest) = Some (l, rest)).
  Proof.
    apply lay_all.
    - intros f rest L R. destruct f; [cbn in L; lia | reflexivity].
    - intros f rest L R. destruct f; [cbn in L; lia | reflexivity].
    - intros f rest L R. destruct f; [cbn in L; lia | reflexivity].
    - intros n t Hn Hr f rest L R. destruct (number_chars t Hn) as (Ht & c & r & -> & S). destruct f as [|f]; [cbn in L; lia|].
      assert (Sc : starts c = true) by (unfold starts; now rewrite S). destruct (starts_facts c Sc) as (Wc & _).
      assert (Oc : forall d, num_start d = false -> Ascii.eqb c d = false) by (intros d Hd; destruct (Ascii.eqb_spec c d); [congruence | reflexivity]).
      cbn [append read_value]. rewrite (skip_ws_cons c _ Wc).
      rewrite (Oc DQ eq_refl), (Oc "{"%char eq_refl), (Oc "["%char eq_refl).
      assert (P : forall d p s, num_start d = false -> has_prefix (String d p) (String c s) = false).
      { intros d p s Hd. cbn [has_prefix]. rewrite Ascii.eqb_sym, (Oc d Hd). reflexivity. }
      rewrite (P "n"%char), (P "t"%char), (P "f"%char) by reflexivity.
      change (String c (r +++ rest)) with (String c r +++ rest). rewrite (span_app _ _ Ht R), Hn, Hr. reflexivity.
    - intros s t Hs f rest L R. destruct f as [|f]; [cbn in L; lia|]. cbn [append read_value]. rewrite skip_ws_cons by reflexivity.
      change (Ascii.eqb DQ DQ) with true. cbn iota. now rewrite Hs.
    - intros w Hw f rest L R. destruct f as [|f]; [cbn in L; lia|]. cbn [append read_value]. rewrite skip_ws_cons by reflexivity.
      change (Ascii.eqb "[" DQ) with false. change (Ascii.eqb "[" "{") with false. change (Ascii.eqb "[" "[") with true. cbn iota.
      rewrite app_assoc_s, (skip_ws_app w _ (HW w Hw)). reflexivity.
    - intros l t Hl IH f rest L R. destruct f as [|f]; [cbn in L; lia|]. cbn [append read_value]. rewrite skip_ws_cons by reflexivity.
      change (Ascii.eqb "[" DQ) with false. change (Ascii.eqb "[" "{") with false. change (Ascii.eqb "[" "[") with true. cbn iota.
      assert (S : exists c r, skip_ws (t +++ rest) = String c r /\ starts c = true).
      { inversion Hl; subst; rewrite app_assoc_s, skip_ws_app by auto; destruct (lay_start _ _ H1) as (c & r & -> & Sc); rewrite app_assoc_s; cbn [append];
        rewrite (skip_ws_cons c _ (proj1 (starts_facts c Sc))); eexists; eexists; (split; [reflexivity | exact Sc]). }
      destruct S as (c & r & -> & Sc). rewrite (proj1 (proj2 (starts_facts c Sc))). rewrite IH by (cbn in L; lia). reflexivity.
    - intros w Hw f rest L R. destruct f as [|f]; [cbn in L; lia|]. cbn [append read_value]. rewrite skip_ws_cons by reflexivity.
      change (Ascii.eqb "{" DQ) with false. change (Ascii.eqb "{" "{") with true. cbn iota.
      rewrite app_assoc_s, (skip_ws_app w _ (HW w Hw)). reflexivity.
    - intros l t Hl IH f rest L R. destruct f as [|f]; [cbn in L; lia|]. cbn [append read_value]. rewrite skip_ws_cons by reflexivity.
      change (Ascii.eqb "{" DQ) with false. change (Ascii.eqb "{" "{") with true. cbn iota.
      assert (S : exists r, skip_ws (t +++ rest) = String DQ r).
      { inversion Hl; subst; rewrite app_assoc_s, skip_ws_app by auto; cbn [append]; rewrite skip_ws_cons by reflexivity; eexists; reflexivity. }
      destruct S as (r & ->). change (Ascii.eqb DQ "}") with false. cbn iota. rewrite IH by (cbn in L; lia). reflexivity.
    - intros w1 w2 x t H1 H2 Hx IH n f rest Ln Lf. rewrite !len_app in *. cbn [String.length] in *. destruct n as [|n]; [lia|]. cbn [read_elems].
      rewrite app_assoc_s, (read_value_ws f w1 _ (HW _ H1)), app_assoc_s, IH; [|lia | rewrite app_assoc_s; apply ws_nonnum; [auto | reflexivity]].
      rewrite app_assoc_s, (skip_ws_app w2 _ (HW _ H2)). reflexivity.
    - intros w1 w2 x t l t' H1 H2 Hx IH Hl IHl n f rest Ln Lf. rewrite !len_app in *. cbn [String.length] in *. destruct n as [|n]; [lia|]. cbn [read_elems].
      rewrite app_assoc_s, (read_value_ws f w1 _ (HW _ H1)), app_assoc_s, IH; [|lia | rewrite app_assoc_s; apply ws_nonnum; [auto | reflexivity]].
      rewrite app_assoc_s, (skip_ws_app w2 _ (HW _ H2)). cbn [append]. rewrite skip_ws_cons by reflexivity.
      change (Ascii.eqb "," ",") with true. cbn iota. rewrite IHl by lia. reflexivity.
    - intros w1 w2 w3 w4 k q x t H1 H2 H3 H4 Hq Hx IH n f rest Ln Lf. rewrite !len_app in *. cbn [String.length] in *. rewrite !len_app in *. cbn [String.length] in *. rewrite !len_app in *. cbn [String.length] in *. destruct n as [|n]; [lia|]. cbn [read_members].
      rewrite app_assoc_s, (skip_ws_app w1 _ (HW _ H1)). cbn [append]. rewrite skip_ws_cons by reflexivity. change (negb (Ascii.eqb DQ DQ)) with false. cbn iota.
      rewrite app_assoc_s, Hq, app_assoc_s, (skip_ws_app w2 _ (HW _ H2)). cbn [append]. rewrite skip_ws_cons by reflexivity. change (negb (Ascii.eqb ":" ":")) with false. cbn iota.
      rewrite app_assoc_s, (read_value_ws f w3 _ (HW _ H3)), app_assoc_s, IH; [|lia | rewrite app_assoc_s; apply ws_nonnum; [auto | reflexivity]].
      rewrite app_assoc_s, (skip_ws_app w4 _ (HW _ H4)). reflexivity.
    - intros w1 w2 w3 w4 k q x t l t' H1 H2 H3 H4 Hq Hx IH Hl IHl n f rest Ln Lf. rewrite !len_app in *. cbn [String.length] in *. rewrite !len_app in *. cbn [String.length] in *. rewrite !len_app in *. cbn [String.length] in *. destruct n as [|n]; [lia|]. cbn [read_members].
      rewrite app_assoc_s, (skip_ws_app w1 _ (HW _ H1)). cbn [append]. rewrite skip_ws_cons by reflexivity. change (negb (Ascii.eqb DQ DQ)) with false. cbn iota.
      rewrite app_assoc_s, Hq, app_assoc_s, (skip_ws_app w2 _ (HW _ H2)). cbn [append]. rewrite skip_ws_cons by reflexivity. change (negb (Ascii.eqb ":" ":")) with false. cbn iota.
      rewrite app_assoc_s, (read_value_ws f w3 _ (HW _ H3)), app_assoc_s, IH; [|lia | rewrite app_assoc_s; apply ws_nonnum; [auto | reflexivity]].
      rewrite app_assoc_s, (skip_ws_app w4 _ (HW _ H4)). cbn [append]. rewrite skip_ws_cons by reflexivity.
      change (Ascii.eqb "," ",") with true. cbn iota. rewrite IHl by lia. reflexivity.
  Qed.
  Theorem read_json_layout j t : lay j t -> read_json rd t = Some j.
  Proof.
    intro H. unfold read_json. rewrite <- (app_nil_r_s t) at 2. rewrite (proj1 read_layout j t H (S (String.length t)) ""); [reflexivity | lia | exact I].
  Qed.
End Layout.
