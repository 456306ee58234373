(** The JSON form of Any, AnyOrExpressions, pointers and Callback. *)
From Coq Require Import String Ascii List Bool Arith ZArith Lia.
From Verif Require Import GoStr GoStrFacts Json JsonFacts Url Pointer Spec_Ptr PtrFacts JsonText JsonTextFacts JsonReadFacts JsonGrammar AnyJson AnyJsonFacts.
Import ListNotations.
Local Open Scope string_scope.
Local Open Scope nat_scope.
Local Open Scope list_scope.

(** ** The text of a value *)
Lemma trim_all p w : all p w = true -> trim_right p w = "".
Proof. induction w as [|c w IH]; intro H; [reflexivity|]. cbn [all] in H. apply andb_prop in H as (Hc & Hw). cbn [trim_right]. now rewrite (IH Hw), Hc. Qed.
Lemma trim_end p a c w : p c = false -> all p w = true -> trim_right p (a +++ String c w) = a +++ str1 c.
Proof.
  intros Hc Hw. induction a as [|d a IH]; cbn [append trim_right].
  - now rewrite (trim_all p w Hw), Hc.
  - rewrite IH. destruct a; reflexivity.
Qed.
Definition ends (t : string) : Prop := exists a c, t = a +++ str1 c /\ is_ws c = false.
Lemma ends_app s t : ends t -> ends (s +++ t).
Proof. intros (a & c & -> & H). exists (s +++ a), c. now rewrite app_assoc_s. Qed.
Lemma ends_cons d t : ends t -> ends (String d t).
Proof. apply (ends_app (str1 d)). Qed.
Lemma ends_one c : is_ws c = false -> ends (str1 c).
Proof. intro H. exists "", c. now split. Qed.
Lemma bytes_ends G x t : strbytes G x t -> ends t.
Proof. induction 1; [now apply ends_one | now apply ends_cons | now apply ends_cons, ends_cons | now do 6 apply ends_cons | now do 12 apply ends_cons | now do 6 apply ends_cons]. Qed.
Lemma num_ends t : all num_char t = true -> t <> "" -> ends t.
Proof.
  assert (K : forall c, (if num_char c then negb (is_ws c) else true) = true) by bytes.
  induction t as [|c t IH]; intros H N; [contradiction|]. cbn [all] in H. apply andb_prop in H as (Hc & Ht). destruct t as [|d t].
  - apply ends_one. specialize (K c). rewrite Hc in K. now apply negb_true_iff.
  - apply ends_cons, IH; [exact Ht | discriminate].
Qed.
Lemma lay_ends rd W : (forall j t, lay rd W j t -> ends t) /\ (forall l t, lays rd W l t -> ends t) /\ (forall l t, laym rd W l t -> ends t).
Proof.
  apply lay_all; intros.
  - now do 3 apply ends_cons; apply ends_one.
  - now do 3 apply ends_cons; apply ends_one.
  - now do 4 apply ends_cons; apply ends_one.
  - destruct (number_chars t H) as (A & c & r & -> & _). now apply num_ends.
  - apply ends_cons. apply (bytes_ends anyesc s). now apply strlit_bytes.
  - apply ends_cons, ends_app. now apply ends_one.
  - now apply ends_cons.
  - apply ends_cons, ends_app. now apply ends_one.
  - now apply ends_cons.
  - do 3 apply ends_app. now apply ends_one.
  - do 3 apply ends_app. now apply ends_cons.
  - apply ends_app, ends_cons. do 2 apply ends_app. apply ends_cons. do 3 apply ends_app. now apply ends_one.
  - apply ends_app, ends_cons. do 2 apply ends_app. apply ends_cons. do 3 apply ends_app. now apply ends_cons.
Qed.
Lemma value_text_lay rd W w1 t w2 j : ws w1 -> ws w2 -> lay rd W j t -> value_text (w1 +++ t +++ w2) = t.
Proof.
  intros H1 H2 Ht. unfold value_text. rewrite (skip_ws_app w1 _ H1). destruct (lay_start _ _ _ _ Ht) as (c & r & E & S).
  rewrite E. cbn [append]. rewrite (skip_ws_cons c _ (proj1 (starts_facts c S))). change (String c (r +++ w2)) with (String c r +++ w2). rewrite <- E.
  destruct (proj1 (lay_ends rd W) j t Ht) as (a & d & -> & N). rewrite app_assoc_s. cbn [append str1]. now apply trim_end.
Qed.
Lemma value_text_self rd W t j : lay rd W j t -> value_text t = t.
Proof. intro H. rewrite <- (value_text_lay rd W "" t "" j eq_refl eq_refl H) at 2. cbn [append]. now rewrite app_nil_r_s. Qed.
Lemma valid_self rd t j : lay rd nows j t -> valid_json t = true.
Proof. intro H. apply (read_valid rd t j). now apply lay_nows_reads. Qed.
Lemma lay_quote rd W j t c r : lay rd W j t -> t = String c r -> (Ascii.eqb c DQ = true <-> exists s, j = JStr s).
Proof.
  intros H E. destruct H; try (injection E as <- <-; split; [discriminate | intros (s & Q); discriminate Q]).
  - destruct (number_chars t H) as (_ & c' & r' & E' & S). rewrite E in E'. injection E' as <- <-. split; [|intros (s & Q); discriminate Q].
    intro Q. apply Ascii.eqb_eq in Q as ->. discriminate S.
  - injection E as <- <-. split; [eauto | reflexivity].
Qed.

Lemma lay_dq rd W j r : lay rd W j (String DQ r) -> exists s, j = JStr s /\ strlit s r.
Proof.
  intro H. remember (String DQ r) as t eqn:E. destruct H; try discriminate E.
  - destruct (number_chars t H) as (_ & c & r' & -> & S). injection E as -> ->. discriminate S.
  - injection E as ->. eauto.
Qed.

(** ** AnyOrExpressions *)
Section Union.
  Context (rd : string -> option num).

  (** A valid text marshals to a compact text of the same value. *)
  Lemma marshal_any_text s j : read_json rd s = Some j ->
    exists t, marshal_any (Some s) = Ok t /\ lay rd nows j t /\ marshal_any (Some t) = Ok t /\ unmarshal_any t = Ok (Some t).
  Proof.
    intro H. destruct (compacted_reads rd s j H) as (t & E & Ht & K & _). exists t. split; [exact E|]. split; [exact Ht|].
    unfold marshal_any, compacted, unmarshal_any. rewrite (valid_self rd t j Ht), K, (value_text_self rd nows t j Ht). now split.
  Qed.

  Lemma union_any s j : read_json rd s = Some j ->
    exists t, marshal_union {| u_expr := ""; u_any := Some s |} = Ok t /\ lay rd nows j t /\
      unmarshal_union union_zero t = (match j with JStr x => Ok {| u_expr := x; u_any := None |} | _ => Ok {| u_expr := ""; u_any := Some t |} end).
  Proof.
    intro H. destruct (marshal_any_text s j H) as (t & E & Ht & K & _). exists t. split; [|split; [exact Ht|]].
    - unfold marshal_union. cbn [u_expr u_any negb String.eqb]. rewrite E. exact K.
    - unfold unmarshal_union. rewrite (valid_self rd t j Ht). cbn [negb]. rewrite (value_text_self rd nows t j Ht).
      destruct (lay_start _ _ _ _ Ht) as (c & r & Et & _). rewrite Et. pose proof (lay_quote rd nows j t c r Ht Et) as Q.
      destruct (Ascii.eqb c DQ) eqn:Ec.
      + apply Ascii.eqb_eq in Ec as ->. rewrite Et in Ht. destruct (lay_dq _ _ _ _ Ht) as (x & -> & Hs). specialize (Hs ""). rewrite app_nil_r_s in Hs. rewrite Hs. reflexivity.
      + rewrite <- Et. unfold unmarshal_any. rewrite (valid_self rd t j Ht), (value_text_self rd nows t j Ht). cbn [bind].
        destruct j; try reflexivity. exfalso. enough (false = true) by discriminate. apply Q. eauto.
  Qed.
End Union.

Definition rd0 (_ : string) : option num := Some (NInt 0%Z).
Lemma jquote_lit s : strlit s (escape_by jesc1 s +++ str1 DQ).
Proof. intro r. rewrite app_assoc_s. cbn [append str1]. apply read_jquote. Qed.
Lemma jquote_lay rd s : lay rd ws (JStr s) (jquote s).
Proof. apply lay_str, jquote_lit. Qed.
Lemma union_expr e a : e <> "" -> exists t, marshal_union {| u_expr := e; u_any := a |} = Ok t /\ unmarshal_union union_zero t = Ok {| u_expr := e; u_any := None |}.
Proof.
  intro N. unfold marshal_union. cbn [u_expr u_any]. apply String.eqb_neq in N. rewrite N. cbn [negb bind].
  assert (H : read_json rd0 (jquote e) = Some (JStr e)).
  { apply read_json_iff. exists "", (jquote e), "". repeat split; [now rewrite app_nil_r_s | apply jquote_lay]. }
  destruct (compacted_reads rd0 _ _ H) as (t & E & Ht & K & _). exists t. split; [exact E|].
  unfold unmarshal_union. rewrite (valid_self rd0 t _ Ht). cbn [negb]. rewrite (value_text_self rd0 nows t _ Ht).
  destruct (lay_start _ _ _ _ Ht) as (c & u & Et & _). assert (c = DQ) as -> by (apply Ascii.eqb_eq; apply (lay_quote rd0 nows _ t c u Ht Et); eauto).
  rewrite Et in Ht |- *. destruct (lay_dq _ _ _ _ Ht) as (x & Ex & Hs). injection Ex as <-. change (Ascii.eqb DQ DQ) with true. cbn iota. specialize (Hs ""). rewrite app_nil_r_s in Hs. now rewrite Hs.
Qed.
Lemma union_fails e a : marshal_union {| u_expr := e; u_any := a |} = Err <-> e = "" /\ exists s, a = Some s /\ valid_json s = false.
Proof.
  split.
  - intro H. destruct (String.eqb e "") eqn:Ee.
    + apply String.eqb_eq in Ee as ->. split; [reflexivity|]. destruct a as [s|]; [|discriminate H]. exists s. split; [reflexivity|].
      destruct (valid_json s) eqn:V; [|reflexivity]. unfold valid_json in V. destruct (read_json (fun _ => Some (NInt 0%Z)) s) as [j|] eqn:R; [|discriminate].
      destruct (union_any _ s j R) as (t & E & _). rewrite E in H. discriminate.
    + apply String.eqb_neq in Ee. destruct (union_expr e a Ee) as (t & E & _). rewrite E in H. discriminate.
  - intros (-> & s & -> & V). unfold marshal_union. cbn [u_expr u_any String.eqb negb marshal_any]. unfold compacted at 1. now rewrite V.
Qed.

(** ** Pointers *)
Definition noslash (d : ascii) : Prop := Ascii.eqb d "/" = false /\ Ascii.eqb d "u" = false.
Lemma unquote_bytes x t : strbytes noslash x t -> unquote_body t = Some x.
Proof.
  assert (K : forall d, (match unesc1 d with Some y => Ascii.eqb d "/" || match gunesc1 d with Some z => Ascii.eqb y z | None => false end | None => true end) = true) by bytes.
  induction 1 as [|c x t E1 E2 E3 H IH|d y x t E1 E2 (E3 & _) H IH|h1 h2 h3 h4 n u x t E1 E2 H IH|h1 h2 h3 h4 n g1 g2 g3 g4 k x t E1 E2 E3 E4 E5 (_ & Gu) H IH|h1 h2 h3 h4 n x t E1 E2 E3 (_ & Gu) H IH];
    [| | | | discriminate Gu | discriminate Gu].
  - reflexivity.
  - cbn [unquote_body]. rewrite E1, E2, IH. destruct (Ascii.eqb c (chr 10)) eqn:E; [|reflexivity]. apply Ascii.eqb_eq in E as ->. discriminate E3.
  - cbn [unquote_body]. change (Ascii.eqb BS DQ) with false. change (Ascii.eqb BS (chr 10)) with false. change (Ascii.eqb BS BS) with true. cbn iota. rewrite E1.
    specialize (K d). rewrite E2 in K. rewrite E3 in K. cbn [orb] in K. destruct (gunesc1 d) as [z|]; [|discriminate]. apply Ascii.eqb_eq in K as <-. now rewrite IH.
  - cbn [unquote_body]. change (Ascii.eqb BS DQ) with false. change (Ascii.eqb BS (chr 10)) with false. change (Ascii.eqb BS BS) with true. cbn iota. change (Ascii.eqb "u" "u") with true. cbn iota.
    rewrite E1, E2, IH. reflexivity.
Qed.

(** One character written as one literal piece. *)
Definition slit (p : string) (a : ascii) : bool :=
  match p with
  | String c EmptyString => Ascii.eqb c a && negb (Ascii.eqb c DQ) && negb (Ascii.eqb c BS) && negb (nat_of_ascii c <? 32)
  | String b (String d EmptyString) => Ascii.eqb b BS && negb (Ascii.eqb d "u") && negb (Ascii.eqb d "/") && match unesc1 d with Some y => Ascii.eqb y a | None => false end
  | String b (String u (String h1 (String h2 (String h3 (String h4 EmptyString))))) =>
      Ascii.eqb b BS && Ascii.eqb u "u" && match hex4 h1 h2 h3 h4 with Some n => match utf8 n with Some s => String.eqb s (str1 a) | None => false end | None => false end
  | _ => false
  end.
Lemma slit_bytes p a x t : slit p a = true -> strbytes noslash x t -> strbytes noslash (String a x) (p +++ t).
Proof.
  intros H S. destruct p as [|c [|d [|h1 [|h2 [|h3 [|h4 [|]]]]]]]; cbn [slit] in H; try discriminate.
  - apply andb_prop in H as (H & H4). apply andb_prop in H as (H & H3). apply andb_prop in H as (H1 & H2). apply Ascii.eqb_eq in H1 as ->. apply negb_true_iff in H2, H3, H4.
    cbn [append]. now apply sb_plain.
  - apply andb_prop in H as (H & H4). apply andb_prop in H as (H & H3). apply andb_prop in H as (H1 & H2). apply Ascii.eqb_eq in H1 as ->. apply negb_true_iff in H2, H3.
    destruct (unesc1 d) as [y|] eqn:E; [|discriminate]. apply Ascii.eqb_eq in H4 as ->. cbn [append]. apply sb_esc; [exact H2 | exact E | now split | exact S].
  - apply andb_prop in H as (H & H3). apply andb_prop in H as (H1 & H2). apply Ascii.eqb_eq in H1, H2. subst.
    destruct (hex4 h1 h2 h3 h4) as [n|] eqn:E; [|discriminate]. destruct (utf8 n) as [s|] eqn:Eu; [|discriminate]. apply String.eqb_eq in H3 as ->.
    cbn [append]. exact (sb_hex noslash h1 h2 h3 h4 n (str1 a) x t E Eu S).
Qed.
Lemma jesc_slit a : slit (jesc1 a) a = true.
Proof. revert a. bytes. Qed.
Lemma gquote_slit a : quotable a = true -> slit (gquote1 a) a = true.
Proof. intro H. assert (K : forall a, (if quotable a then slit (gquote1 a) a else true) = true) by bytes. specialize (K a). now rewrite H in K. Qed.

Lemma jquote_bytes s : strbytes noslash s (escape_by jesc1 s +++ str1 DQ).
Proof.
  induction s as [|a s H IH|a b c s e H IH] using esc_ind.
  - apply sb_end.
  - rewrite (esc_cons _ _ _ H), app_assoc_s. apply slit_bytes; [apply jesc_slit | exact IH].
  - rewrite (esc_sep _ _ _ _ _ _ H), app_assoc_s.
    assert (Ke : exists h3 h4 k, e = String BS (String "u" (String "2" (String "0" (String h3 (str1 h4))))) /\ hex4 "2" "0" h3 h4 = Some k /\ utf8 k = Some (String a (String b (str1 c)))).
    { apply line_sep_inv in H as (-> & -> & [(-> & ->)|(-> & ->)]); eexists; eexists; eexists; (split; [reflexivity | split; vm_compute; reflexivity]). }
    destruct Ke as (h3 & h4 & k & -> & Ek & Eu). exact (sb_hex noslash "2" "0" h3 h4 k _ s _ Ek Eu IH).
Qed.
Lemma gquote_bytes s : all quotable s = true -> strbytes noslash s (gquote_body s +++ str1 DQ).
Proof.
  induction s as [|a s IH]; intro H; [apply sb_end|]. cbn [all] in H. apply andb_prop in H as (Ha & Hs). cbn [gquote_body]. rewrite app_assoc_s.
  apply slit_bytes; [now apply gquote_slit | now apply IH].
Qed.
(** The text json.Marshal writes for a string is read back by strconv.Unquote. *)
Theorem unquote_jquote s : unquote (jquote s) = Some s.
Proof. unfold jquote, unquote. change (Ascii.eqb DQ DQ) with true. cbn iota. apply unquote_bytes, jquote_bytes. Qed.

Lemma ptr_marshal_text p t : ptr_marshal p = Ok t -> exists b, t = String DQ b /\ strbytes noslash (ptr_string p) b /\ squeeze false false t = t.
Proof.
  unfold ptr_marshal. intro H. unfold compacted in H. destruct (valid_json (gquote (ptr_string p))) eqn:V; [|discriminate].
  assert (E : t = squeeze false false (gquote (ptr_string p))) by congruence. subst t. clear H.
  unfold gquote in *. set (s := ptr_string p) in *.
  assert (Q : all quotable s = true).
  { unfold valid_json in V. destruct (read_json (fun _ => Some (NInt 0%Z)) (String DQ (gquote_body s +++ str1 DQ))) as [j|] eqn:R; [|discriminate].
    unfold read_json in R. cbn [read_value] in R. rewrite skip_ws_cons in R by reflexivity. change (Ascii.eqb DQ DQ) with true in R. cbn iota in R.
    pose proof (read_gquote s "") as G. change (String DQ "") with (str1 DQ) in G. rewrite G in R. clear G. destruct (all quotable s); [reflexivity | discriminate]. }
  rewrite sq_quote. destruct (squeeze_str noslash _ s _ (Nat.le_refl _) (gquote_bytes s Q)) as (t' & S & K & _ & _ & _ & R).
  specialize (R ""). rewrite app_nil_r_s in R. change (squeeze false false "") with "" in R. rewrite app_nil_r_s in R. rewrite R. exists t'. split; [reflexivity|]. split; [exact S|].
  rewrite sq_quote. specialize (K ""). change (squeeze false false "") with "" in K. rewrite !app_nil_r_s in K. now rewrite K.
Qed.
Theorem ptr_round p t : ptr_marshal p = Ok t -> ptr_unmarshal t = ptr_parse (ptr_string p).
Proof.
  intro H. destruct (ptr_marshal_text p t H) as (b & -> & S & _). unfold ptr_unmarshal, unquote. change (Ascii.eqb DQ DQ) with true. cbn iota.
  now rewrite (unquote_bytes _ _ S).
Qed.

(** ** Objects with the bytes of their values *)
Lemma firstn_whole a b : firstn_s (String.length (a +++ b) - String.length b) (a +++ b) = a.
Proof.
  rewrite len_app, Nat.add_sub. induction a as [|c a IH]; cbn [String.length append firstn_s]; [now destruct b|]. now rewrite IH.
Qed.
Section Raw.
  Context (W : string -> Prop) (HW : forall w, W w -> ws w).
  Inductive rawm : list (string * string) -> string -> Prop :=
  | rawm_one w1 w2 w3 w4 k q j v : W w1 -> W w2 -> W w3 -> W w4 -> strlit k q -> lay rd0 W j v ->
      rawm [(k, v)] (w1 +++ String DQ (q +++ w2 +++ String ":" (w3 +++ v +++ w4 +++ "}")))
  | rawm_cons w1 w2 w3 w4 k q j v l t : W w1 -> W w2 -> W w3 -> W w4 -> strlit k q -> lay rd0 W j v -> rawm l t ->
      rawm ((k, v) :: l) (w1 +++ String DQ (q +++ w2 +++ String ":" (w3 +++ v +++ w4 +++ String "," t))).
  Lemma rawm_start l t : rawm l t -> forall rest, exists r, skip_ws (t +++ rest) = String DQ r.
  Proof. destruct 1; intro rest; rewrite app_assoc_s, (skip_ws_app w1 _ (HW _ H)); cbn [append]; rewrite skip_ws_cons by reflexivity; eauto. Qed.

  Lemma value_part w3 v w4 j c rest : W w3 -> W w4 -> lay rd0 W j v -> num_char c = false ->
    let s3 := w3 +++ v +++ w4 +++ String c rest in
    exists r, read_value (fun _ => Some (NInt 0%Z)) (S (String.length s3)) s3 = Some (j, r) /\
      value_text (firstn_s (String.length s3 - String.length r) s3) = v /\ (is_ws c = false -> skip_ws r = String c rest).
  Proof.
    intros H3 H4 Hv Hc s3. exists (w4 +++ String c rest). split; [|split].
    - unfold s3. rewrite (read_value_ws _ _ w3 _ (HW _ H3)). apply (proj1 (read_layout rd0 W HW) j v Hv).
      + rewrite !len_app. lia.
      + apply ws_nonnum; [now apply HW | exact Hc].
    - unfold s3. rewrite <- (app_assoc_s w3 v). rewrite firstn_whole. rewrite <- (app_nil_r_s v) at 1. apply (value_text_lay rd0 W w3 v "" j (HW _ H3) eq_refl Hv).
    - intro N. rewrite (skip_ws_app w4 _ (HW _ H4)). now apply skip_ws_cons.
  Qed.

  Lemma raw_reads l t : rawm l t -> forall n rest, String.length t <= n -> raw_members n (t +++ rest) = Some (l, rest).
  Proof.
    induction 1 as [w1 w2 w3 w4 k q j v H1 H2 H3 H4 Hq Hv|w1 w2 w3 w4 k q j v l t H1 H2 H3 H4 Hq Hv Hl IH]; intros n rest L;
      rewrite ?len_app in L; cbn [String.length] in L; rewrite ?len_app in L; cbn [String.length] in L; rewrite ?len_app in L; cbn [String.length] in L;
      (destruct n as [|n]; [lia|]); cbn [raw_members];
      rewrite app_assoc_s, (skip_ws_app w1 _ (HW _ H1)); cbn [append]; rewrite skip_ws_cons by reflexivity; change (negb (Ascii.eqb DQ DQ)) with false; cbn iota;
      rewrite app_assoc_s, Hq, app_assoc_s, (skip_ws_app w2 _ (HW _ H2)); cbn [append]; rewrite skip_ws_cons by reflexivity; change (negb (Ascii.eqb ":" ":")) with false; cbn iota;
      rewrite !app_assoc_s; cbn [append].
    - destruct (value_part w3 v w4 j "}" rest H3 H4 Hv eq_refl) as (r & E1 & E2 & E3). rewrite E1, E2, (E3 eq_refl). reflexivity.
    - destruct (value_part w3 v w4 j "," (t +++ rest) H3 H4 Hv eq_refl) as (r & E1 & E2 & E3). rewrite E1, E2, (E3 eq_refl).
      change (Ascii.eqb "," ",") with true. cbn iota. rewrite IH by lia. reflexivity.
  Qed.
  Lemma raw_object_reads l t : rawm l t -> raw_object (String "{" t) = Some l.
  Proof.
    intro H. unfold raw_object. rewrite skip_ws_cons by reflexivity. change (negb (Ascii.eqb "{" "{")) with false. cbn iota.
    destruct (rawm_start l t H "") as (r & E). rewrite app_nil_r_s in E. rewrite E. change (Ascii.eqb DQ "}") with false. cbn iota.
    pose proof (raw_reads l t H (String.length t) "" (Nat.le_refl _)) as R. rewrite app_nil_r_s in R. now rewrite R.
  Qed.
  Lemma rawm_lay l t : rawm l t -> exists m, laym rd0 W m t.
  Proof.
    induction 1 as [w1 w2 w3 w4 k q j v H1 H2 H3 H4 Hq Hv|w1 w2 w3 w4 k q j v l t H1 H2 H3 H4 Hq Hv Hl (m & IH)].
    - eexists. apply laym_one; [exact H1 | exact H2 | exact H3 | exact H4 | exact Hq | exact Hv].
    - eexists. apply laym_cons; [exact H1 | exact H2 | exact H3 | exact H4 | exact Hq | exact Hv | exact IH].
  Qed.
End Raw.
Lemma nows_ws w : nows w -> ws w.
Proof. intros ->. reflexivity. Qed.

(** A compact text of a value. *)
Definition compact_text (t : string) : Prop := compacted t = Ok t.
Lemma compact_lay t : compact_text t -> exists j, lay rd0 nows j t /\ squeezes t t.
Proof.
  unfold compact_text. intro H. assert (V : valid_json t = true) by (unfold compacted in H; destruct (valid_json t); [reflexivity | discriminate]).
  unfold valid_json in V. destruct (read_json (fun _ => Some (NInt 0%Z)) t) as [j|] eqn:R; [|discriminate]. exists j.
  destruct (compacted_reads rd0 t j R) as (t' & E & Ht & K & _). assert (t' = t) by congruence. subst t'. split; [exact Ht|].
  destruct (proj1 (squeeze_lay rd0) j t (nows_lay _ _ _ Ht)) as (u & _ & Ku & Ru). assert (u = t).
  { specialize (Ru ""). change (squeeze false false "") with "" in Ru. rewrite !app_nil_r_s in Ru. congruence. }
  subst u. now split.
Qed.

(** Members that stay as they are. *)
Lemma rawm_squeeze l : l <> [] -> Forall (fun kv => compact_text (snd kv)) l ->
  exists t', rawm nows l t' /\ forall rest, squeeze false false (join "," (map (fun kv => jquote (fst kv) +++ ":" +++ snd kv) l) +++ String "}" rest) = t' +++ squeeze false false rest.
Proof.
  induction l as [|(k, v) l IH]; intros N F; [contradiction|]. inversion F as [|? ? Hv Hl]; subst. cbn [fst snd] in Hv.
  destruct (compact_lay v Hv) as (j & Lv & Kv & _). destruct (squeeze_lit k _ (jquote_lit k)) as (q & Sq & _ & Rq).
  destruct l as [|kv l].
  - exists ("" +++ String DQ (q +++ "" +++ String ":" ("" +++ v +++ "" +++ "}"))). split; [exact (rawm_one nows "" "" "" "" k q j v eq_refl eq_refl eq_refl eq_refl Sq Lv)|].
    intro rest. cbn [map fst snd]. match goal with |- context [join "," [?x]] => change (join "," [x]) with x end. unfold jquote. cbn [append]. rewrite sq_quote, !app_assoc_s, <- (app_assoc_s (escape_by jesc1 k)), Rq. cbn [append]. rewrite sq_out by reflexivity.
    rewrite Kv, sq_out by reflexivity. rewrite ?app_assoc_s. cbn [append]. now rewrite ?app_assoc_s.
  - destruct (IH ltac:(discriminate) Hl) as (t' & Ht & Rt). exists ("" +++ String DQ (q +++ "" +++ String ":" ("" +++ v +++ "" +++ String "," t'))).
    split; [exact (rawm_cons nows "" "" "" "" k q j v _ t' eq_refl eq_refl eq_refl eq_refl Sq Lv Ht)|].
    intro rest. set (f := fun kv : string * string => jquote (fst kv) +++ ":" +++ snd kv) in *.
    change (join "," (map f ((k, v) :: kv :: l))) with ((jquote k +++ ":" +++ v) +++ "," +++ join "," (map f (kv :: l))).
    unfold jquote. cbn [append]. rewrite sq_quote, !app_assoc_s, <- (app_assoc_s (escape_by jesc1 k)), Rq. cbn [append]. rewrite sq_out by reflexivity.
    rewrite ?app_assoc_s, Kv. cbn [append]. rewrite sq_out by reflexivity. rewrite Rt, ?app_assoc_s. cbn [append]. now rewrite ?app_assoc_s.
Qed.

Lemma object_text l : Forall (fun kv => compact_text (snd kv)) l ->
  exists t, compacted (bracket "{" (map (fun kv => jquote (fst kv) +++ ":" +++ snd kv) l) "}") = Ok t /\ valid_json t = true /\ value_text t = t /\ t <> "null" /\ raw_object t = Some l.
Proof.
  intro F. destruct l as [|kv l].
  - exists "{}". repeat split; [discriminate].
  - destruct (rawm_squeeze (kv :: l) ltac:(discriminate) F) as (t & Ht & Rt). set (g := fun kv : string * string => jquote (fst kv) +++ ":" +++ snd kv) in *.
    set (js := join "," (map g (kv :: l))) in *.
    assert (B : bracket "{" (map g (kv :: l)) "}" = String "{" (js +++ String "}" "")) by reflexivity.
    destruct (rawm_lay nows _ t Ht) as (m & Lm).
    assert (Lt : lay rd0 nows (JObj (map_of m)) (String "{" t)) by now constructor.
    exists (String "{" t). split; [|split; [|split; [|split]]].
    + rewrite B. unfold compacted.
      assert (V : valid_json (String "{" (js +++ String "}" "")) = true).
      { assert (X : exists m', laym rd0 ws m' (js +++ String "}" "")).
        { clear - F. unfold js, g. clear js g. revert kv F. induction l as [|kv' l IH]; intros (k, v) F; inversion F as [|? ? Hv Hl]; subst; cbn [fst snd] in *; destruct (compact_lay v Hv) as (j & Lv & _); apply nows_lay in Lv.
          - eexists. cbn [map fst snd]. match goal with |- context [join "," [?x]] => change (join "," [x]) with x end. unfold jquote. cbn [append]. rewrite !app_assoc_s, <- (app_assoc_s (escape_by jesc1 k)). cbn [append].
            exact (laym_one rd0 ws "" "" "" "" k _ j v eq_refl eq_refl eq_refl eq_refl (jquote_lit k) Lv).
          - destruct (IH kv' Hl) as (m' & Hm). eexists.
            set (f := fun kv : string * string => jquote (fst kv) +++ ":" +++ snd kv) in *.
            change (join "," (map f ((k, v) :: kv' :: l))) with ((jquote k +++ ":" +++ v) +++ "," +++ join "," (map f (kv' :: l))). unfold jquote. cbn [append]. rewrite !app_assoc_s, <- (app_assoc_s (escape_by jesc1 k)). cbn [append]. rewrite ?app_assoc_s, <- ?(app_assoc_s (escape_by jesc1 k)).
            exact (laym_cons rd0 ws "" "" "" "" k _ j v m' _ eq_refl eq_refl eq_refl eq_refl (jquote_lit k) Lv Hm). }
        destruct X as (m' & X). apply (read_valid rd0 _ (JObj (map_of m'))). apply read_json_iff. exists "", (String "{" (js +++ String "}" "")), "".
        repeat split; [now rewrite app_nil_r_s | now constructor]. }
      rewrite V, sq_out by reflexivity. rewrite Rt. cbn [squeeze]. now rewrite app_nil_r_s.
    + exact (valid_self rd0 _ _ Lt).
    + exact (value_text_self rd0 nows _ _ Lt).
    + discriminate.
    + exact (raw_object_reads nows nows_ws _ t Ht).
Qed.

(** ** Callback *)
Section Callback.
  Context {P : Type} (enc : P -> res string) (dec : string -> res P).
  Hypothesis Henc : forall p, exists t, enc p = Ok t /\ compacted t = Ok t /\ t <> "null" /\ dec t = Ok p.

  Lemma items_text (l : list (string * option P)) : exists ts, marshal_items_of enc l = Ok (map (fun kv => jquote (fst kv) +++ ":" +++ snd kv) ts) /\
    Forall (fun kv => compact_text (snd kv)) ts /\ map fst ts = map fst l /\
    forall m, decode_items dec ts m = Ok (fold_left (fun m kv => oset (fst kv) (snd kv) m) l m).
  Proof.
    induction l as [|(k, x) l (ts & E & F & K & D)]; [exists []; repeat split; constructor|]. cbn [marshal_items_of].
    destruct x as [p|].
    - destruct (Henc p) as (t & E1 & E2 & E3 & E4). exists ((k, t) :: ts). rewrite E1, E. cbn [bind map fst snd]. split; [reflexivity|].
      split; [now constructor|]. split; [now rewrite K|]. intro m. cbn [decode_items fold_left fst snd]. apply String.eqb_neq in E3. rewrite E3, E4. cbn [bind]. apply D.
    - exists ((k, "null") :: ts). rewrite E. cbn [bind map fst snd]. split; [reflexivity|]. split; [now constructor|]. split; [now rewrite K|].
      intro m. cbn [decode_items fold_left fst snd]. change (String.eqb "null" "null") with true. cbn iota. apply D.
  Qed.
  Lemma decode_ref_none l was : Forall (fun kv => equal_fold (fst kv) "$ref" = false) l -> decode_ref l was = Ok was.
  Proof. induction l as [|(k, raw) l IH]; intro F; [reflexivity|]. inversion F as [|? ? H1 H2]; subst. cbn [decode_ref]. cbn [fst] in H1. rewrite H1. now apply IH. Qed.

  Lemma sorted_rebuild {A} (l : list (string * A)) : sorted l -> fold_left (fun m kv => oset (fst kv) (snd kv) m) l [] = l.
  Proof.
    intro H. apply obj_ext; [|exact H|].
    - assert (G : forall l m, sorted m -> sorted (fold_left (fun m kv => oset (fst kv) (snd kv) m) l m : list (string * A))).
      { induction l0 as [|kv l0 IH]; intros m Hm; [exact Hm|]. cbn [fold_left]. apply IH. now apply sorted_oset. }
      now apply G.
    - intro k. assert (G : forall l m, sorted l -> oget k (fold_left (fun m kv => oset (fst kv) (snd kv) m) l m : list (string * A)) = match oget k l with Some v => Some v | None => oget k m end).
      { induction l0 as [|(k', v) l0 IH]; intros m Hl; [reflexivity|]. cbn [fold_left fst snd]. rewrite IH by (eapply sorted_tail; exact Hl). rewrite oget_oset. cbn [oget].
        destruct (String.eqb k k') eqn:E; [|destruct (oget k l0); reflexivity].
        apply String.eqb_eq in E as ->. enough (oget k' l0 = None) as -> by reflexivity. destruct (oget k' l0) eqn:Q; [|reflexivity]. exfalso.
        apply oget_in in Q. pose proof (sorted_lt _ _ _ Hl _ _ Q) as L. rewrite scmp_refl in L. discriminate. }
      rewrite G by exact H. cbn [oget]. now destruct (oget k l).
  Qed.

  Theorem callback_map l : sorted l -> Forall (fun kv => equal_fold (fst kv) "$ref" = false) l ->
    exists t, marshal_callback enc {| cb_ref := None; cb_map := Some l |} = Ok t /\ unmarshal_callback dec t = Ok {| cb_ref := None; cb_map := Some l |}.
  Proof.
    intros Hs Hk. destruct (items_text l) as (ts & E & F & K & D). unfold marshal_callback. cbn [cb_ref cb_map]. rewrite E. cbn [bind].
    destruct (object_text ts F) as (t & Et & V & T & N & R). exists t. split; [exact Et|]. unfold unmarshal_callback. rewrite V. cbn [negb]. rewrite T.
    apply String.eqb_neq in N. rewrite N, R. rewrite decode_ref_none.
    - cbn [bind]. rewrite D. cbn [bind]. now rewrite (sorted_rebuild l Hs).
    - assert (G : Forall (fun k => equal_fold k "$ref" = false) (map fst l)) by now apply Forall_map.
      rewrite <- K in G. now apply Forall_map in G.
  Qed.
  Theorem callback_nil : marshal_callback enc {| cb_ref := None; cb_map := None |} = Ok "null" /\ unmarshal_callback dec "null" = Ok {| cb_ref := None; cb_map := None |}.
  Proof. split; reflexivity. Qed.
End Callback.

Theorem callback_ref {P} (enc : P -> res string) (dec : string -> res P) p m t : marshal_callback enc {| cb_ref := Some p; cb_map := m |} = Ok t ->
  unmarshal_callback dec t = (do p' <- ptr_parse (ptr_string p) ; Ok {| cb_ref := Some p'; cb_map := None |}).
Proof.
  unfold marshal_callback. cbn [cb_ref]. intro H. destruct (ptr_marshal p) as [q| | |] eqn:Eq; cbn [bind] in H; try discriminate.
  destruct (ptr_marshal_text p q Eq) as (b & Eb & Sb & Kb).
  assert (Lq : lay rd0 nows (JStr (ptr_string p)) q) by (rewrite Eb; apply lay_str; now apply (bytes_strlit noslash)).
  assert (Cq : compact_text q) by (unfold compact_text, compacted; now rewrite (valid_self rd0 _ _ Lq), Kb).
  destruct (object_text [("$ref", q)]) as (t' & Et & V & T & N & R); [now repeat constructor|].
  assert (Q : bracket "{" (map (fun kv => jquote (fst kv) +++ ":" +++ snd kv) [("$ref", q)]) "}" = "{""$ref"":" +++ q +++ "}").
  { unfold bracket. cbn [map join fst snd]. change (jquote "$ref") with """$ref""". cbn [append]. now rewrite ?app_assoc_s. }
  rewrite Q in Et. assert (t' = t) by congruence. subst t'.
  unfold unmarshal_callback. rewrite V. cbn [negb]. rewrite T. apply String.eqb_neq in N. rewrite N, R. cbn [decode_ref].
  change (equal_fold "$ref" "$ref") with true. cbn iota. destruct (String.eqb q "null") eqn:Z; [apply String.eqb_eq in Z; rewrite Eb in Z; discriminate|].
  rewrite (ptr_round p q Eq). destruct (ptr_parse (ptr_string p)); reflexivity.
Qed.

(** Objects with any members, some of them twice. *)
Section Members.
  Context {P : Type} (dec : string -> res P).
  Definition reads_ref (kv : string * string) : Prop := equal_fold (fst kv) "$ref" = true -> snd kv = "null" \/ exists p, ptr_unmarshal (snd kv) = Ok p.
  Definition refs_of (l : list (string * string)) : list string := map snd (filter (fun kv => equal_fold (fst kv) "$ref") l).
  Definition ref_text (x : string) : option ptr := if String.eqb x "null" then None else match ptr_unmarshal x with Ok p => Some p | _ => None end.

  Lemma decode_ref_last l : Forall reads_ref l -> forall was, decode_ref l was = Ok (match rev (refs_of l) with [] => was | x :: _ => ref_text x end).
  Proof.
    induction l as [|(k, x) l IH]; intros F was; [reflexivity|]. inversion F as [|? ? H1 H2]; subst. cbn [decode_ref]. unfold refs_of. cbn [filter fst].
    unfold reads_ref in H1. cbn [fst snd] in H1. destruct (equal_fold k "$ref"); [|now rewrite (IH H2)].
    cbn [map snd rev]. change (map snd (filter _ l)) with (refs_of l).
    assert (G : forall w, match rev (refs_of l) with [] => w | y :: _ => ref_text y end = match rev (refs_of l) ++ [x] with [] => w | y :: _ => match rev (refs_of l) with [] => w | _ => ref_text y end end) by (intro w; now destruct (rev (refs_of l))).
    destruct (String.eqb x "null") eqn:E.
    - rewrite (IH H2). f_equal. destruct (rev (refs_of l)); [|reflexivity]. cbn [app]. unfold ref_text. now rewrite E.
    - destruct (H1 eq_refl) as [->|(p & Hp)]; [discriminate E|]. rewrite Hp. cbn [bind]. rewrite (IH H2). f_equal. destruct (rev (refs_of l)); [|reflexivity].
      cbn [app]. unfold ref_text. now rewrite E, Hp.
  Qed.

  Lemma decode_items_last l : Forall (fun kv => snd kv = "null" \/ exists p, dec (snd kv) = Ok p) l -> forall m0, sorted m0 ->
    exists m, decode_items dec l m0 = Ok m /\ sorted m /\
      forall k, oget k m = match find (fun kv => String.eqb (fst kv) k) (rev l) with
                           | None => oget k m0
                           | Some kv => if String.eqb (snd kv) "null" then Some None else match dec (snd kv) with Ok p => Some (Some p) | _ => None end
                           end.
  Proof.
    induction l as [|(k, x) l IH]; intros F m0 Hs; [exists m0; now repeat split|]. inversion F as [|? ? H1 H2]; subst. cbn [decode_items fst snd rev] in *.
    assert (G : forall v, (if String.eqb x "null" then Some None else match dec x with Ok p => Some (Some p) | _ => None end) = Some v ->
      exists m, decode_items dec l (oset k v m0) = Ok m /\ sorted m /\
      forall k', oget k' m = match find (fun kv => String.eqb (fst kv) k') (rev l ++ [(k, x)]) with
                           | None => oget k' m0
                           | Some kv => if String.eqb (snd kv) "null" then Some None else match dec (snd kv) with Ok p => Some (Some p) | _ => None end
                           end).
    { intros v Hv. destruct (IH H2 (oset k v m0) (sorted_oset k v m0 Hs)) as (m & E & Sm & Gm). exists m. split; [exact E|]. split; [exact Sm|].
      intro k'. rewrite Gm. assert (FA : forall a b : list (string * string), find (fun kv => String.eqb (fst kv) k') (a ++ b) =
        match find (fun kv => String.eqb (fst kv) k') a with Some y => Some y | None => find (fun kv => String.eqb (fst kv) k') b end).
      { induction a as [|y a IHa]; intro b; [reflexivity|]. cbn [app find]. destruct (String.eqb (fst y) k'); [reflexivity | apply IHa]. }
      rewrite FA. destruct (find _ (rev l)); [reflexivity|]. cbn [find fst snd]. rewrite oget_oset, String.eqb_sym. destruct (String.eqb k k'); [cbn [snd]; now rewrite Hv | reflexivity]. }
    destruct (String.eqb x "null") eqn:E; [now apply G|]. destruct H1 as [->|(p & Hp)]; [discriminate E|]. rewrite Hp. cbn [bind]. apply G. now rewrite Hp.
  Qed.

  Theorem callback_members l : Forall (fun kv => compacted (snd kv) = Ok (snd kv)) l -> Forall reads_ref l ->
    exists t, compacted (bracket "{" (map (fun kv => jquote (fst kv) +++ ":" +++ snd kv) l) "}") = Ok t /\
      match match rev (refs_of l) with [] => None | x :: _ => ref_text x end with
      | Some p => unmarshal_callback dec t = Ok {| cb_ref := Some p; cb_map := None |}
      | None => Forall (fun kv => snd kv = "null" \/ exists p, dec (snd kv) = Ok p) l ->
          exists m, unmarshal_callback dec t = Ok {| cb_ref := None; cb_map := Some m |} /\ sorted m /\
            forall k, oget k m = match find (fun kv => String.eqb (fst kv) k) (rev l) with
                                 | None => None
                                 | Some kv => if String.eqb (snd kv) "null" then Some None else match dec (snd kv) with Ok p => Some (Some p) | _ => None end
                                 end
      end.
  Proof.
    intros F R. destruct (object_text l F) as (t & Et & V & T & N & O). exists t. split; [exact Et|].
    apply String.eqb_neq in N. pose proof (decode_ref_last l R None) as D.
    assert (U : unmarshal_callback dec t = match match rev (refs_of l) with [] => None | x :: _ => ref_text x end with
      | Some p => Ok {| cb_ref := Some p; cb_map := None |} | None => do m <- decode_items dec l [] ; Ok {| cb_ref := None; cb_map := Some m |} end).
    { unfold unmarshal_callback. rewrite V. cbn [negb]. rewrite T, N, O, D. reflexivity. }
    rewrite U. destruct (match rev (refs_of l) with [] => None | x :: _ => ref_text x end); [reflexivity|].
    intro G. destruct (decode_items_last l G [] (Logic.I : sorted [])) as (m & Em & Sm & Gm). exists m. rewrite Em. split; [reflexivity|]. now split.
  Qed.
End Members.

(** ** Decoding and encoding again *)
Lemma compacts rd s j : read_json rd s = Some j ->
  exists t, compacted s = Ok t /\ read_json rd t = Some j /\ compacted t = Ok t /\ lay rd nows j t.
Proof.
  intro H. destruct (compacted_reads rd s j H) as (t & E & Ht & K & _). exists t. split; [exact E|]. split; [now apply lay_nows_reads|].
  split; [|exact Ht]. unfold compacted. now rewrite (valid_self rd t j Ht), K.
Qed.
Lemma union_decode_encode rd s j : read_json rd s = Some j ->
  exists m t, unmarshal_union union_zero s = Ok m /\ marshal_union m = Ok t /\
    read_json rd t = Some (match j with JStr "" => JNull | _ => j end).
Proof.
  intro H. pose proof H as H0. apply read_json_iff in H as (w1 & t & w2 & H1 & H2 & Es & Ht). pose proof (value_text_lay _ _ _ _ _ _ H1 H2 Ht) as V.
  assert (Rt : read_json rd t = Some j).
  { apply read_json_iff. exists "", t, "". repeat split; [now rewrite app_nil_r_s | exact Ht]. }
  pose proof (read_valid rd s j H0) as Vs. pose proof (read_valid rd t j Rt) as Vt. rewrite <- Es in V.
  assert (Vtt : value_text t = t). { pose proof (value_text_lay rd ws "" t "" j eq_refl eq_refl Ht) as X. cbn [append] in X. now rewrite app_nil_r_s in X. }
  destruct (lay_start _ _ _ _ Ht) as (c & r & Et & _). pose proof (lay_quote rd ws j t c r Ht Et) as Q.
  unfold unmarshal_union. rewrite Vs. cbn [negb]. rewrite V. destruct (Ascii.eqb c DQ) eqn:Ec.
  - apply Ascii.eqb_eq in Ec as ->. rewrite Et in Ht. destruct (lay_dq _ _ _ _ Ht) as (x & -> & Hs). specialize (Hs ""). rewrite app_nil_r_s in Hs.
    rewrite Et. change (Ascii.eqb DQ DQ) with true. cbn iota. rewrite Hs. exists {| u_expr := x; u_any := None |}.
    destruct x as [|a x]; [exists "null"; repeat split|].
    unfold marshal_union. cbn [u_expr u_any union_zero]. change (negb (String.eqb (String a x) "")) with true. cbn iota. cbn [bind].
    assert (J : read_json rd (jquote (String a x)) = Some (JStr (String a x))).
    { apply read_json_iff. exists "", (jquote (String a x)), "". repeat split; [now rewrite app_nil_r_s | apply jquote_lay]. }
    destruct (compacts rd _ _ J) as (u & Eu & Ru & _). exists u. repeat split; assumption.
  - assert (Nj : match j with JStr "" => JNull | _ => j end = j).
    { destruct j as [|b|n|x|l|m]; try reflexivity. exfalso. enough (false = true) by discriminate. apply Q. eauto. }
    rewrite Nj. rewrite Et, Ec, <- Et. unfold unmarshal_any. rewrite Vt, Vtt. cbn [bind]. exists {| u_expr := ""; u_any := Some t |}.
    unfold marshal_union. cbn [u_expr u_any String.eqb negb marshal_any].
    destruct (compacts rd t j Rt) as (u & Eu & Ru & Cu & _). exists u. rewrite Eu. cbn [bind]. repeat split; assumption.
Qed.

(** Reading into a union that already holds something. *)
Lemma union_into rd s j m : read_json rd s = Some j ->
  exists w1 t w2, s = w1 +++ t +++ w2 /\ ws w1 /\ ws w2 /\ read_json rd t = Some j /\ value_text s = t /\
    unmarshal_union m s = (match j with JStr x => Ok {| u_expr := x; u_any := u_any m |} | _ => Ok {| u_expr := u_expr m; u_any := Some t |} end).
Proof.
  intro H. pose proof H as H0. apply read_json_iff in H as (w1 & t & w2 & H1 & H2 & Es & Ht). pose proof (value_text_lay _ _ _ _ _ _ H1 H2 Ht) as V.
  assert (Rt : read_json rd t = Some j).
  { apply read_json_iff. exists "", t, "". repeat split; [now rewrite app_nil_r_s | exact Ht]. }
  pose proof (read_valid rd s j H0) as Vs. pose proof (read_valid rd t j Rt) as Vt. rewrite <- Es in V.
  assert (Vtt : value_text t = t). { pose proof (value_text_lay rd ws "" t "" j eq_refl eq_refl Ht) as X. cbn [append] in X. now rewrite app_nil_r_s in X. }
  exists w1, t, w2. split; [exact Es|]. split; [exact H1|]. split; [exact H2|]. split; [exact Rt|]. split; [exact V|].
  destruct (lay_start _ _ _ _ Ht) as (c & r & Et & _). pose proof (lay_quote rd ws j t c r Ht Et) as Q.
  unfold unmarshal_union. rewrite Vs. cbn [negb]. rewrite V. destruct (Ascii.eqb c DQ) eqn:Ec.
  - apply Ascii.eqb_eq in Ec as ->. rewrite Et in Ht. destruct (lay_dq _ _ _ _ Ht) as (x & -> & Hs). specialize (Hs ""). rewrite app_nil_r_s in Hs.
    rewrite Et. change (Ascii.eqb DQ DQ) with true. cbn iota. now rewrite Hs.
  - rewrite Et, Ec, <- Et. unfold unmarshal_any. rewrite Vt, Vtt. cbn [bind].
    destruct j as [|b|n|x|l|o]; try reflexivity. exfalso. enough (false = true) by discriminate. apply Q. eauto.
Qed.

Lemma ptr_marshalled p t : ptr_marshal p = Ok t ->
  read_json (fun _ => None) t = Some (JStr (ptr_string p)) /\ ptr_unmarshal t = ptr_parse (ptr_string p).
Proof.
  intro H. split; [|now apply ptr_round]. destruct (ptr_marshal_text p t H) as (b & -> & S & _). apply lay_nows_reads.
  apply lay_str. now apply (bytes_strlit noslash).
Qed.
Lemma go_marshalled pkg p t : import_path pkg -> go_pointer pkg p -> Forall (fun x => has_char "%" x = false) (p_frag p) ->
  ptr_marshal p = Ok t -> exists p', ptr_unmarshal t = Ok p' /\ p_frag p' = p_frag p /\ pkg_path p' = pkg /\ ptr_string p' = ptr_string p.
Proof.
  intros Hi Hg Hf H. destruct (go_roundtrip pkg p Hi Hg Hf) as (S1 & _ & _ & _ & p' & P1 & P2 & _ & P4 & P5).
  exists p'. rewrite (ptr_round p t H). split; [exact P1|]. split; [exact P2|]. split; [exact P4|].
  assert (Hf' : Forall (fun x => has_char "%" x = false) (p_frag p')) by now rewrite P2.
  destruct (go_roundtrip pkg p' Hi P5 Hf') as (S2 & _). now rewrite S1, S2, P2.
Qed.
