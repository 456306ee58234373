(** Proofs about Any, AnyOrExpressions, Callback and pointers as JSON. *)
From Coq Require Import String Ascii List Bool Arith ZArith Lia.
From Verif Require Import GoStr GoStrFacts Json JsonFacts Url Pointer JsonText JsonTextFacts JsonReadFacts JsonGrammar AnyJson.
Import ListNotations.
Local Open Scope string_scope.
Local Open Scope nat_scope.
Local Open Scope list_scope.

(** ** Squeezing *)
Lemma squeeze_plain a r esc : (forall b c r', r = String b (String c r') -> line_sep a b c = None) ->
  squeeze true esc (String a r) = html1 a +++ squeeze (esc || negb (Ascii.eqb a DQ)) (negb esc && Ascii.eqb a BS) r.
Proof. intro H. destruct r as [|b [|c r]]; [reflexivity | reflexivity|]. cbn [squeeze]. rewrite (H b c r eq_refl). reflexivity. Qed.
Lemma squeeze_asc a r esc : asc a = true -> squeeze true esc (String a r) = html1 a +++ squeeze (esc || negb (Ascii.eqb a DQ)) (negb esc && Ascii.eqb a BS) r.
Proof. intro H. apply squeeze_plain. intros. apply line_sep_asc. now left. Qed.
Lemma squeeze_sep a b c e r : line_sep a b c = Some e -> squeeze true false (String a (String b (String c r))) = e +++ squeeze true false r.
Proof. intro H. cbn [squeeze]. now rewrite H. Qed.
Lemma squeeze_hex h1 h2 h3 h4 n r : hex4 h1 h2 h3 h4 = Some n ->
  squeeze true false (String BS (String "u" (String h1 (String h2 (String h3 (String h4 r)))))) =
  String BS (String "u" (String h1 (String h2 (String h3 (String h4 (squeeze true false r)))))).
Proof.
  intro H. assert (K : forall h, (match hexv h with Some _ => asc h && negb (Ascii.eqb h DQ) && negb (Ascii.eqb h BS) && negb (is_html h) | None => true end) = true) by bytes.
  unfold hex4 in H. assert (Q : forall h k s, hexv h = Some k -> squeeze true false (String h s) = String h (squeeze true false s)).
  { intros h k s E. specialize (K h). rewrite E in K. apply andb_prop in K as (K & K4). apply andb_prop in K as (K & K3). apply andb_prop in K as (K1 & K2).
    apply negb_true_iff in K2, K3, K4. rewrite (squeeze_asc h s false K1), K2, K3. cbn [negb andb orb]. unfold html1. now rewrite K4. }
  rewrite (squeeze_asc BS _ false eq_refl). change (html1 BS) with (str1 BS). change (Ascii.eqb BS BS) with true. change (Ascii.eqb BS DQ) with false. cbn [negb andb orb str1 append].
  rewrite (squeeze_asc "u" _ true eq_refl). change (html1 "u") with (str1 "u"). cbn [negb andb orb str1 append].
  destruct (hexv h1) eqn:E1, (hexv h2) eqn:E2, (hexv h3) eqn:E3, (hexv h4) eqn:E4; try discriminate.
  now rewrite (Q _ _ _ E1), (Q _ _ _ E2), (Q _ _ _ E3), (Q _ _ _ E4).
Qed.
Lemma squeeze_esc d y r : unesc1 d = Some y -> squeeze true false (String BS (String d r)) = String BS (String d (squeeze true false r)).
Proof.
  intro H. assert (K : forall d, (match unesc1 d with Some _ => asc d && negb (is_html d) | None => true end) = true) by bytes. specialize (K d). rewrite H in K.
  apply andb_prop in K as (K1 & K2). apply negb_true_iff in K2.
  rewrite (squeeze_asc BS _ false eq_refl). change (html1 BS) with (str1 BS). change (Ascii.eqb BS BS) with true. change (Ascii.eqb BS DQ) with false. cbn [negb andb orb str1 append].
  rewrite (squeeze_asc d _ true K1). cbn [negb andb orb]. unfold html1. rewrite K2. reflexivity.
Qed.

Definition kept (t : string) : Prop := forall rest, squeeze true false (t +++ rest) = t +++ squeeze false false rest.

Lemma html_hex a : is_html a = true -> exists h3 h4, html1 a = String BS (String "u" (String "0" (String "0" (String h3 (str1 h4))))) /\
  hex4 "0" "0" h3 h4 = Some (nat_of_ascii a) /\ utf8 (nat_of_ascii a) = Some (str1 a).
Proof.
  unfold is_html. intro H. apply orb_prop in H as [H|H]; [apply orb_prop in H as [H|H]|]; apply Ascii.eqb_eq in H; subst a; vm_compute; eexists; eexists; repeat split.
Qed.

(** Bytes outside ASCII at the start of the squeezed text were there before. *)
Definition pre1 (t t' : string) : Prop := forall b r', t' = String b r' -> asc b = false -> exists r, t = String b r.
Definition pre2 (t t' : string) : Prop := forall b c r', t' = String b (String c r') -> asc b = false -> asc c = false -> exists r, t = String b (String c r).

Lemma bytes_two G x t rest b c r' : strbytes G x t -> t +++ rest = String b (String c r') -> asc b = false -> asc c = false -> exists r, t = String b (String c r).
Proof.
  intros H Q Hb Hc. destruct H as [|a x t E1 E2 E3 H|d y x t E1 E2 Gd H|h1 h2 h3 h4 k u x t E1 E2 H|h1 h2 h3 h4 k g1 g2 g3 g4 j x t E1 E2 E3 E4 E5 Gu H|h1 h2 h3 h4 k x t E1 E2 E3 Gu H].
  - cbn [append str1] in Q. injection Q as <- Q. discriminate Hb.
  - cbn [append] in Q. injection Q as <- Q. destruct H as [|a' x t F1 F2 F3 H|d y x t F1 F2 Gd H|h1 h2 h3 h4 k u x t F1 F2 H|h1 h2 h3 h4 k g1 g2 g3 g4 j x t F1 F2 F3 F4 F5 Gu H|h1 h2 h3 h4 k x t F1 F2 F3 Gu H]; cbn [append str1] in Q; injection Q as <- Q; try discriminate Hc. eauto.
  - cbn [append] in Q. injection Q as <- Q. discriminate Hb.
  - cbn [append] in Q. injection Q as <- Q. discriminate Hb.
  - cbn [append] in Q. injection Q as <- Q. discriminate Hb.
  - cbn [append] in Q. injection Q as <- Q. discriminate Hb.
Qed.

Lemma squeeze_str G n : forall x t, String.length t <= n -> strbytes G x t ->
  exists t', strbytes G x t' /\ kept t' /\ pre1 t t' /\ pre2 t t' /\ (low_next t = None -> low_next t' = None) /\
    forall rest, squeeze true false (t +++ rest) = t' +++ squeeze false false rest.
Proof.
  induction n as [|n IH]; intros x t L H; [destruct H; cbn in L; lia|].
  destruct H as [|a x t E1 E2 E3 H|d y x t E1 E2 Gd H|h1 h2 h3 h4 k u x t E1 E2 H|h1 h2 h3 h4 k g1 g2 g3 g4 j x t E1 E2 E3 E4 E5 Gu H|h1 h2 h3 h4 k x t E1 E2 E3 Gu H].
  - assert (Kq : kept (str1 DQ)) by (intro rest; cbn [append str1]; now rewrite (squeeze_asc DQ rest false eq_refl)).
    exists (str1 DQ). split; [constructor|]. split; [exact Kq|].
    split; [intros b r' Q Hb; injection Q as <- Q; discriminate Hb|]. split; [intros b c r' Q; discriminate Q|]. split; [reflexivity | exact Kq].
  - cbn [String.length] in L. assert (Hn : forall r, (forall b c r', r = String b (String c r') -> line_sep a b c = None) -> squeeze true false (String a r) = html1 a +++ squeeze true false r).
    { intros r Hr. rewrite (squeeze_plain a r false Hr), E1, E2. reflexivity. }
    assert (D : (forall b c r', t = String b (String c r') -> line_sep a b c = None) \/
                exists b c t0 x0 e, t = String b (String c t0) /\ x = String b (String c x0) /\ strbytes G x0 t0 /\ line_sep a b c = Some e).
    { destruct H as [|b x t F1 F2 F3 H|d y x t F1 F2 Gd H|h1 h2 h3 h4 k u x t F1 F2 H|h1 h2 h3 h4 k g1 g2 g3 g4 j x t F1 F2 F3 F4 F5 Gu H|h1 h2 h3 h4 k x t F1 F2 F3 Gu H].
      - left. intros b c r' Q. discriminate Q.
      - destruct H as [|c x t G1 G2 G3 H|d y x t G1 G2 Gd H|h1 h2 h3 h4 k u x t G1 G2 H|h1 h2 h3 h4 k g1 g2 g3 g4 j x t G1 G2 G3 G4 G5 Gu H|h1 h2 h3 h4 k x t G1 G2 G3 Gu H].
        + left. intros b' c r' Q. injection Q as <- <- Q. apply line_sep_asc. right. now right.
        + destruct (line_sep a b c) as [e|] eqn:El; [|left; intros b' c' r' Q; injection Q as <- <- Q; exact El].
          right. exists b, c, t, x, e. now repeat split.
        + left. intros b' c r' Q. injection Q as <- <- Q. apply line_sep_asc. right. now right.
        + left. intros b' c r' Q. injection Q as <- <- Q. apply line_sep_asc. right. now right.
        + left. intros b' c r' Q. injection Q as <- <- Q. apply line_sep_asc. right. now right.
        + left. intros b' c r' Q. injection Q as <- <- Q. apply line_sep_asc. right. now right.
      - left. intros b c r' Q. injection Q as <- <- Q. apply line_sep_asc. right. now left.
      - left. intros b c r' Q. injection Q as <- <- Q. apply line_sep_asc. right. now left.
      - left. intros b c r' Q. injection Q as <- <- Q. apply line_sep_asc. right. now left.
      - left. intros b c r' Q. injection Q as <- <- Q. apply line_sep_asc. right. now left. }
    destruct D as [D|(b & c & t0 & x0 & e & -> & -> & H0 & El)].
    + assert (DD : forall t1, strbytes G x t1 -> pre2 t t1 -> forall rest b c r', t1 +++ rest = String b (String c r') -> line_sep a b c = None).
      { intros t1 S1 P2 rest b c r' Q. destruct (line_sep a b c) as [e|] eqn:El; [|reflexivity]. destruct (line_sep_nasc _ _ _ _ El) as (_ & Hb & Hc).
        destruct (bytes_two G x t1 rest b c r' S1 Q Hb Hc) as (r1 & ->). destruct (P2 b c r1 eq_refl Hb Hc) as (r2 & Et). rewrite <- El. exact (D b c r2 Et). }
      destruct (IH x t) as (t' & S' & K' & P1 & P2 & PL & R'); [lia | exact H|].
      assert (Dt : forall rest b c r', t +++ rest = String b (String c r') -> line_sep a b c = None) by (apply DD; [exact H | intros b c r' Q _ _; eauto]).
      assert (Dt' := DD t' S' P2).
      destruct (is_html a) eqn:Eh.
      * destruct (html_hex a Eh) as (h3 & h4 & Ea & Eh4 & Eu). exists (html1 a +++ t').
        split; [rewrite Ea; exact (sb_hex G "0" "0" h3 h4 (nat_of_ascii a) (str1 a) x t' Eh4 Eu S')|].
        split; [|split; [|split; [|split]]].
        -- intro rest. rewrite Ea. cbn [append str1]. rewrite (squeeze_hex _ _ _ _ _ _ Eh4). now rewrite K'.
        -- rewrite Ea. intros b r' Q Hb. cbn [append] in Q. injection Q as <- Q. discriminate Hb.
        -- rewrite Ea. intros b c r' Q Hb. cbn [append] in Q. injection Q as <- Q. discriminate Hb.
        -- intros _. rewrite Ea. cbn [append str1]. rewrite (low_next_u "0" "0" h3 h4 (nat_of_ascii a) t' Eh4). now rewrite (proj2 (utf8_high _ _ Eu)).
        -- intro rest. cbn [append]. rewrite Hn by apply Dt. rewrite R'. now rewrite app_assoc_s.
      * assert (Ea : html1 a = str1 a) by (unfold html1; now rewrite Eh). exists (String a t').
        split; [now apply sb_plain|]. split; [|split; [|split; [|split]]].
        -- intro rest. cbn [append]. rewrite Hn by apply Dt'. rewrite Ea, K'. reflexivity.
        -- intros b r' Q Hb. injection Q as <- Q. eauto.
        -- intros b c r' Q Hb Hc. injection Q as <- Q. destruct (P1 c r' Q Hc) as (r & ->). eauto.
        -- intros _. now apply low_next_c.
        -- intro rest. cbn [append]. rewrite Hn by apply Dt. rewrite R', Ea. reflexivity.
    + destruct (IH x0 t0) as (t' & S' & K' & P1 & P2 & PL & R'); [cbn [String.length] in L; lia | exact H0|].
      assert (Ke : exists h3 h4 k, e = String BS (String "u" (String "2" (String "0" (String h3 (str1 h4))))) /\ hex4 "2" "0" h3 h4 = Some k /\ utf8 k = Some (String a (String b (str1 c)))).
      { apply line_sep_inv in El as (-> & -> & [(-> & ->)|(-> & ->)]); eexists; eexists; eexists; (split; [reflexivity | split; vm_compute; reflexivity]). }
      destruct Ke as (h3 & h4 & k & Ee & Ek & Eu). exists (e +++ t').
      split; [rewrite Ee; exact (sb_hex G "2" "0" h3 h4 k _ x0 t' Ek Eu S')|]. split; [|split; [|split; [|split]]].
      * intro rest. rewrite Ee. cbn [append str1]. rewrite (squeeze_hex _ _ _ _ _ _ Ek). now rewrite K'.
      * rewrite Ee. intros b' r' Q Hb. cbn [append] in Q. injection Q as <- Q. discriminate Hb.
      * rewrite Ee. intros b' c' r' Q Hb. cbn [append] in Q. injection Q as <- Q. discriminate Hb.
      * intros _. rewrite Ee. cbn [append str1]. rewrite (low_next_u "2" "0" h3 h4 k t' Ek). now rewrite (proj2 (utf8_high _ _ Eu)).
      * intro rest. cbn [append]. rewrite (squeeze_sep _ _ _ _ _ El), R'. now rewrite app_assoc_s.
  - cbn [String.length] in L. destruct (IH x t) as (t' & S' & K' & P1 & P2 & PL & R'); [lia | exact H|]. exists (String BS (String d t')).
    split; [now apply (sb_esc G d y)|]. split; [|split; [|split; [|split]]].
    + intro rest. cbn [append]. now rewrite (squeeze_esc _ _ _ E2), K'.
    + intros b r' Q Hb. injection Q as <- Q. discriminate Hb.
    + intros b c r' Q Hb. injection Q as <- Q. discriminate Hb.
    + intros _. now apply low_next_d.
    + intro rest. cbn [append]. now rewrite (squeeze_esc _ _ _ E2), R'.
  - cbn [String.length] in L. destruct (IH x t) as (t' & S' & K' & P1 & P2 & PL & R'); [lia | exact H|].
    exists (String BS (String "u" (String h1 (String h2 (String h3 (String h4 t')))))).
    split; [now apply (sb_hex G h1 h2 h3 h4 k)|]. split; [|split; [|split; [|split]]].
    + intro rest. cbn [append]. now rewrite (squeeze_hex _ _ _ _ _ _ E1), K'.
    + intros b r' Q Hb. injection Q as <- Q. discriminate Hb.
    + intros b c r' Q Hb. injection Q as <- Q. discriminate Hb.
    + intro N. rewrite (low_next_u _ _ _ _ _ _ E1) in N. rewrite (low_next_u _ _ _ _ _ _ E1). exact N.
    + intro rest. cbn [append]. now rewrite (squeeze_hex _ _ _ _ _ _ E1), R'.
  - cbn [String.length] in L. destruct (IH x t) as (t' & S' & K' & P1 & P2 & PL & R'); [lia | exact H|].
    exists (String BS (String "u" (String h1 (String h2 (String h3 (String h4 (String BS (String "u" (String g1 (String g2 (String g3 (String g4 t')))))))))))).
    split; [now apply (sb_pair G h1 h2 h3 h4 k g1 g2 g3 g4 j)|]. split; [|split; [|split; [|split]]].
    + intro rest. cbn [append]. now rewrite (squeeze_hex _ _ _ _ _ _ E1), (squeeze_hex _ _ _ _ _ _ E4), K'.
    + intros b r' Q Hb. injection Q as <- Q. discriminate Hb.
    + intros b c r' Q Hb. injection Q as <- Q. discriminate Hb.
    + intro N. rewrite (low_next_u _ _ _ _ _ _ E1) in N. rewrite (low_next_u _ _ _ _ _ _ E1). exact N.
    + intro rest. cbn [append]. now rewrite (squeeze_hex _ _ _ _ _ _ E1), (squeeze_hex _ _ _ _ _ _ E4), R'.
  - cbn [String.length] in L. destruct (IH x t) as (t' & S' & K' & P1 & P2 & PL & R'); [lia | exact H|].
    exists (String BS (String "u" (String h1 (String h2 (String h3 (String h4 t')))))).
    split; [apply (sb_lone G h1 h2 h3 h4 k); auto|]. split; [|split; [|split; [|split]]].
    + intro rest. cbn [append]. now rewrite (squeeze_hex _ _ _ _ _ _ E1), K'.
    + intros b r' Q Hb. injection Q as <- Q. discriminate Hb.
    + intros b c r' Q Hb. injection Q as <- Q. discriminate Hb.
    + intro N. rewrite (low_next_u _ _ _ _ _ _ E1) in N. rewrite (low_next_u _ _ _ _ _ _ E1). exact N.
    + intro rest. cbn [append]. now rewrite (squeeze_hex _ _ _ _ _ _ E1), R'.
Qed.
Lemma squeeze_lit x t : strlit x t -> exists t', strlit x t' /\ kept t' /\ forall rest, squeeze true false (t +++ rest) = t' +++ squeeze false false rest.
Proof.
  intro H. apply strlit_bytes in H. destruct (squeeze_str anyesc _ x t (Nat.le_refl _) H) as (t' & S & K & _ & _ & _ & R). exists t'. split; [now apply (bytes_strlit anyesc) | now split].
Qed.

Definition outside (c : ascii) : bool := negb (is_ws c) && negb (Ascii.eqb c DQ).
Lemma sq_out c r : outside c = true -> squeeze false false (String c r) = String c (squeeze false false r).
Proof. unfold outside. intro H. apply andb_prop in H as (H1 & H2). apply negb_true_iff in H1, H2. cbn [squeeze]. now rewrite H1, H2. Qed.
Lemma sq_quote r : squeeze false false (String DQ r) = String DQ (squeeze true false r).
Proof. reflexivity. Qed.
Lemma sq_ws w s : ws w -> squeeze false false (w +++ s) = squeeze false false s.
Proof. unfold ws. induction w as [|c w IH]; intro H; [reflexivity|]. cbn [all] in H. apply andb_prop in H as (Hc & Hw). cbn [append squeeze]. rewrite Hc. now apply IH. Qed.
Lemma sq_app t s : all outside t = true -> squeeze false false (t +++ s) = t +++ squeeze false false s.
Proof. induction t as [|c t IH]; intro H; [reflexivity|]. cbn [all] in H. apply andb_prop in H as (Hc & Ht). cbn [append]. now rewrite (sq_out c _ Hc), IH. Qed.
Lemma num_outside t : all num_char t = true -> all outside t = true.
Proof.
  assert (K : forall c, (if num_char c then outside c else true) = true) by bytes.
  induction t as [|c t IH]; intro H; [reflexivity|]. cbn [all] in *. apply andb_prop in H as (Hc & Ht). specialize (K c). rewrite Hc in K. now rewrite K, IH.
Qed.
Definition keptv (t : string) : Prop := forall rest, squeeze false false (t +++ rest) = t +++ squeeze false false rest.
Definition nows (w : string) : Prop := w = "".

Section Lay.
  Context (rd : string -> option num).
  Local Notation lay := (lay rd ws).
  Local Notation lays := (lays rd ws).
  Local Notation laym := (laym rd ws).
  Definition squeezes (t t' : string) : Prop := keptv t' /\ forall rest, squeeze false false (t +++ rest) = t' +++ squeeze false false rest.

  Lemma squeezes_same t : all outside t = true -> squeezes t t.
  Proof. intro H. split; intro rest; now apply sq_app. Qed.

  Theorem squeeze_lay :
    (forall j t, lay j t -> exists t', JsonReadFacts.lay rd nows j t' /\ squeezes t t') /\
    (forall l t, lays l t -> exists t', JsonReadFacts.lays rd nows l t' /\ squeezes t t') /\
    (forall l t, laym l t -> exists t', JsonReadFacts.laym rd nows l t' /\ squeezes t t').
  Proof.
    apply lay_all.
    - exists "null". split; [constructor | now apply squeezes_same].
    - exists "true". split; [constructor | now apply squeezes_same].
    - exists "false". split; [constructor | now apply squeezes_same].
    - intros n t Hn Hr. exists t. split; [now constructor|]. apply squeezes_same, num_outside, (number_chars t Hn).
    - intros s t Hs. destruct (squeeze_lit s t Hs) as (t' & S & K & R). exists (String DQ t'). split; [now constructor|].
      split; intro rest; cbn [append]; rewrite sq_quote; [now rewrite K | now rewrite R].
    - intros w Hw. exists "[]". split; [exact (lay_arr0 rd nows "" eq_refl)|]. split; intro rest.
      + now apply (sq_app "[]").
      + cbn [append]. rewrite sq_out by reflexivity. rewrite app_assoc_s, (sq_ws w _ Hw). cbn [append]. now rewrite sq_out.
    - intros l t Hl (t' & Hl' & K & R). exists (String "[" t'). split; [now constructor|]. split; intro rest; cbn [append]; rewrite sq_out by reflexivity; [now rewrite K | now rewrite R].
    - intros w Hw. exists "{}". split; [exact (lay_obj0 rd nows "" eq_refl)|]. split; intro rest.
      + now apply (sq_app "{}").
      + cbn [append]. rewrite sq_out by reflexivity. rewrite app_assoc_s, (sq_ws w _ Hw). cbn [append]. now rewrite sq_out.
    - intros l t Hl (t' & Hl' & K & R). exists (String "{" t'). split; [now constructor|]. split; intro rest; cbn [append]; rewrite sq_out by reflexivity; [now rewrite K | now rewrite R].
    - intros w1 w2 x t H1 H2 Hx (t' & Hx' & K & R). exists ("" +++ t' +++ "" +++ "]"). split; [now apply lays_one|]. split; intro rest.
      + cbn [append]. rewrite ?app_assoc_s, K. cbn [append]. now rewrite sq_out.
      + rewrite ?app_assoc_s, (sq_ws w1 _ H1), R, (sq_ws w2 _ H2). cbn [append]. rewrite sq_out by reflexivity. now rewrite ?app_assoc_s.
    - intros w1 w2 x t l tl H1 H2 Hx (t' & Hx' & K & R) Hl (tl' & Hl' & Kl & Rl). exists ("" +++ t' +++ "" +++ String "," tl'). split; [now apply lays_cons|]. split; intro rest.
      + cbn [append]. rewrite ?app_assoc_s, K. cbn [append]. rewrite sq_out by reflexivity. now rewrite Kl.
      + rewrite ?app_assoc_s, (sq_ws w1 _ H1), R, (sq_ws w2 _ H2). cbn [append]. rewrite sq_out by reflexivity. rewrite Rl. now rewrite ?app_assoc_s.
    - intros w1 w2 w3 w4 k q x t H1 H2 H3 H4 Hq Hx (t' & Hx' & K & R). destruct (squeeze_lit k q Hq) as (q' & Sq & Kq & Rq).
      exists ("" +++ String DQ (q' +++ "" +++ String ":" ("" +++ t' +++ "" +++ "}"))). split; [now apply laym_one|]. split; intro rest.
      + cbn [append]. rewrite sq_quote, ?app_assoc_s, Kq. cbn [append]. rewrite sq_out by reflexivity. rewrite ?app_assoc_s, K. cbn [append]. now rewrite sq_out.
      + rewrite ?app_assoc_s, (sq_ws w1 _ H1). cbn [append]. rewrite sq_quote, ?app_assoc_s, Rq, (sq_ws w2 _ H2). cbn [append]. rewrite sq_out by reflexivity.
        rewrite ?app_assoc_s, (sq_ws w3 _ H3), R, (sq_ws w4 _ H4). cbn [append]. rewrite sq_out by reflexivity. rewrite ?app_assoc_s. cbn [append]. now rewrite ?app_assoc_s.
    - intros w1 w2 w3 w4 k q x t l tl H1 H2 H3 H4 Hq Hx (t' & Hx' & K & R) Hl (tl' & Hl' & Kl & Rl). destruct (squeeze_lit k q Hq) as (q' & Sq & Kq & Rq).
      exists ("" +++ String DQ (q' +++ "" +++ String ":" ("" +++ t' +++ "" +++ String "," tl'))). split; [now apply laym_cons|]. split; intro rest.
      + cbn [append]. rewrite sq_quote, ?app_assoc_s, Kq. cbn [append]. rewrite sq_out by reflexivity. rewrite ?app_assoc_s, K. cbn [append]. rewrite sq_out by reflexivity. now rewrite Kl.
      + rewrite ?app_assoc_s, (sq_ws w1 _ H1). cbn [append]. rewrite sq_quote, ?app_assoc_s, Rq, (sq_ws w2 _ H2). cbn [append]. rewrite sq_out by reflexivity.
        rewrite ?app_assoc_s, (sq_ws w3 _ H3), R, (sq_ws w4 _ H4). cbn [append]. rewrite sq_out by reflexivity. rewrite Rl. rewrite ?app_assoc_s. cbn [append]. now rewrite ?app_assoc_s.
  Qed.

  Lemma lay_mono (W V : string -> Prop) : (forall w, W w -> V w) ->
    (forall j t, JsonReadFacts.lay rd W j t -> JsonReadFacts.lay rd V j t) /\
    (forall l t, JsonReadFacts.lays rd W l t -> JsonReadFacts.lays rd V l t) /\
    (forall l t, JsonReadFacts.laym rd W l t -> JsonReadFacts.laym rd V l t).
  Proof. intro H. apply lay_all; intros; try (constructor; auto; fail). Qed.
  Lemma nows_lay j t : JsonReadFacts.lay rd nows j t -> lay j t.
  Proof. apply (lay_mono nows ws). intros w ->. reflexivity. Qed.

  (** Any reading of the numbers will do for validity. *)
  Lemma lay_valid W : let rd0 := fun _ : string => Some (NInt 0%Z) in
    (forall j t, JsonReadFacts.lay rd W j t -> exists j', JsonReadFacts.lay rd0 W j' t) /\
    (forall l t, JsonReadFacts.lays rd W l t -> exists l', JsonReadFacts.lays rd0 W l' t) /\
    (forall l t, JsonReadFacts.laym rd W l t -> exists l', JsonReadFacts.laym rd0 W l' t).
  Proof.
    intro rd0. apply lay_all.
    - eexists. constructor.
    - eexists. constructor.
    - eexists. constructor.
    - intros n t Hn Hr. eexists. now apply (lay_num rd0 W (NInt 0%Z)).
    - intros s t Hs. eexists. exact (lay_str rd0 W s t Hs).
    - intros w Hw. eexists. exact (lay_arr0 rd0 W w Hw).
    - intros l t _ (l' & H). eexists. exact (lay_arr rd0 W l' t H).
    - intros w Hw. eexists. exact (lay_obj0 rd0 W w Hw).
    - intros l t _ (l' & H). eexists. exact (lay_obj rd0 W l' t H).
    - intros w1 w2 x t H1 H2 _ (x' & H). eexists. apply lays_one; [exact H1 | exact H2 | exact H].
    - intros w1 w2 x t l tl H1 H2 _ (x' & H) _ (l' & Hl). eexists. apply lays_cons; [exact H1 | exact H2 | exact H | exact Hl].
    - intros w1 w2 w3 w4 k q x t H1 H2 H3 H4 Hq _ (x' & H). eexists. apply laym_one; [exact H1 | exact H2 | exact H3 | exact H4 | exact Hq | exact H].
    - intros w1 w2 w3 w4 k q x t l tl H1 H2 H3 H4 Hq _ (x' & H) _ (l' & Hl). eexists. apply laym_cons; [exact H1 | exact H2 | exact H3 | exact H4 | exact Hq | exact H | exact Hl].
  Qed.

  Lemma read_valid s j : read_json rd s = Some j -> valid_json s = true.
  Proof.
    intro H. apply read_json_iff in H as (w1 & t & w2 & H1 & H2 & -> & Ht). destruct (proj1 (lay_valid ws) j t Ht) as (j' & Ht').
    unfold valid_json. assert (E : read_json (fun _ => Some (NInt 0%Z)) (w1 +++ t +++ w2) = Some j') by (apply read_json_iff; exists w1, t, w2; now repeat split).
    now rewrite E.
  Qed.

  (** Compaction keeps the value, and does nothing the second time. *)
  Theorem compacted_reads s j : read_json rd s = Some j -> exists t, compacted s = Ok t /\ JsonReadFacts.lay rd nows j t /\ squeeze false false t = t /\ squeeze false false s = t.
  Proof.
    intro H. unfold compacted. rewrite (read_valid s j H). apply read_json_iff in H as (w1 & t & w2 & H1 & H2 & -> & Ht).
    destruct (proj1 squeeze_lay j t Ht) as (t' & Ht' & K & R). exists t'.
    assert (E : squeeze false false (w1 +++ t +++ w2) = t').
    { rewrite (sq_ws w1 _ H1), R. rewrite <- (app_nil_r_s w2), (sq_ws w2 _ H2). cbn [squeeze]. apply app_nil_r_s. }
    split; [now rewrite E|]. split; [exact Ht'|]. split; [|exact E]. specialize (K ""). cbn [squeeze] in K. now rewrite !app_nil_r_s in K.
  Qed.
  Lemma lay_nows_reads j t : JsonReadFacts.lay rd nows j t -> read_json rd t = Some j.
  Proof. intro H. apply read_json_iff. exists "", t, "". repeat split; [now rewrite app_nil_r_s | now apply nows_lay]. Qed.
End Lay.
