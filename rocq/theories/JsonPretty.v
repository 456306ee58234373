(** Indentation only inserts white space between tokens. *)
From Coq Require Import String Ascii List Bool Arith ZArith Permutation Sorted Lia.
From Verif Require Import GoStr GoStrFacts Json JsonFacts Gabs Container MergeFacts ContFacts Spec_Clone Spec_Go JsonText JsonTextFacts JsonReadFacts JsonGrammar JsonFormatFacts.
Import ListNotations.
Local Open Scope string_scope.
Local Open Scope nat_scope.
Local Open Scope list_scope.

Section Pretty.
  Context (ind : string).
  Hypothesis Hind : ws ind.
  Context (rd : string -> option num).
  Local Notation run := (indent_from ind).

  Lemma newline_ws d : ws (newline ind d).
  Proof.
    unfold newline, ws. cbn [all]. change (is_ws (chr 10)) with true. cbn [andb].
    assert (K : forall n, all is_ws (String.concat "" (repeat ind n)) = true); [|apply K].
    induction n as [|n IH]; [reflexivity|]. cbn [repeat String.concat]. destruct (repeat ind n) eqn:E; [exact Hind|]. rewrite all_app, Hind. exact IH.
  Qed.
  Lemma ws_app a b : ws a -> ws b -> ws (a +++ b).
  Proof. unfold ws. intros Ha Hb. now rewrite all_app, Ha. Qed.

  Lemma in_string c need d r : plain_char c = true -> run true false need d (String c r) = String c (run true false need d r).
  Proof.
    unfold plain_char. intro H. apply andb_true_iff in H as (H & _). apply andb_true_iff in H as (H1 & H2). apply negb_true_iff in H1, H2. cbn [indent_from]. now rewrite H1, H2.
  Qed.
  Lemma hex_plain h n : hexv h = Some n -> plain_char h = true.
  Proof.
    intro H. assert (K : forall c, (match hexv c with Some _ => plain_char c | None => true end) = true) by bytes. specialize (K h). now rewrite H in K.
  Qed.
  Lemma scan_str need d : forall u s r, read_str u = Some (s, r) -> exists q, u = q +++ r /\ forall rest, run true false need d (q +++ rest) = q +++ run false false need d rest.
  Proof.
    assert (K : forall n u s r, String.length u <= n -> read_str u = Some (s, r) -> exists q, u = q +++ r /\ forall rest, run true false need d (q +++ rest) = q +++ run false false need d rest).
    { induction n as [|n IH]; intros u s r L H; [destruct u; [discriminate | cbn in L; lia]|].
      destruct u as [|c u]; [discriminate|]. cbn [read_str] in H. destruct (Ascii.eqb_spec c DQ) as [->|Nq].
      - injection H as <- <-. exists (str1 DQ). split; reflexivity.
      - destruct (Ascii.eqb_spec c BS) as [->|Nb].
        + destruct u as [|e u]; [discriminate|].
          assert (E : forall t, run true false need d (String BS (String e t)) = String BS (String e (run true false need d t))) by reflexivity.
          destruct (Ascii.eqb_spec e "u") as [->|Nu].
          * destruct u as [|h1 [|h2 [|h3 [|h4 u]]]]; try discriminate. unfold hex4 in H.
            destruct (hexv h1) as [n1|] eqn:H1; [|discriminate]. destruct (hexv h2) as [n2|] eqn:H2; [|discriminate].
            destruct (hexv h3) as [n3|] eqn:H3; [|discriminate]. destruct (hexv h4) as [n4|] eqn:H4; [|discriminate].
            assert (NP : forall y, (exists x, before y (read_str u) = Some (x, r)) -> exists q, String BS (String "u" (String h1 (String h2 (String h3 (String h4 u))))) = q +++ r /\
              forall rest, run true false need d (q +++ rest) = q +++ run false false need d rest).
            { intros y (x & Hx). destruct (read_str u) as [[s' r']|] eqn:R; [|discriminate]. injection Hx as _ <-.
            destruct (IH u s' r') as (q & -> & Q); [cbn in L; lia | exact R|].
            exists (String BS (String "u" (String h1 (String h2 (String h3 (String h4 q)))))). split; [reflexivity|]. intro rest. cbn [append]. rewrite E.
            rewrite (in_string h1), (in_string h2), (in_string h3), (in_string h4) by (eapply hex_plain; eassumption). now rewrite Q. }
            destruct (utf8 _) as [x|]; [apply (NP x); eauto|].
            destruct (if high_half _ then low_next u else None) as [k|] eqn:El; [|apply (NP replacement); eauto].
            destruct (high_half _); [|discriminate El]. apply low_next_some in El as (g1 & g2 & g3 & g4 & u' & -> & Eg & _). unfold hex4 in Eg.
            destruct (hexv g1) as [m1|] eqn:G1; [|discriminate]. destruct (hexv g2) as [m2|] eqn:G2; [|discriminate].
            destruct (hexv g3) as [m3|] eqn:G3; [|discriminate]. destruct (hexv g4) as [m4|] eqn:G4; [|discriminate].
            destruct (read_str u') as [[s' r']|] eqn:R; [|discriminate]. injection H as _ <-. destruct (IH u' s' r') as (q & -> & Q); [cbn in L; lia | exact R|].
            exists (String BS (String "u" (String h1 (String h2 (String h3 (String h4 (String BS (String "u" (String g1 (String g2 (String g3 (String g4 q)))))))))))).
            split; [reflexivity|]. intro rest. cbn [append]. rewrite E.
            rewrite (in_string h1), (in_string h2), (in_string h3), (in_string h4) by (eapply hex_plain; eassumption). rewrite E.
            rewrite (in_string g1), (in_string g2), (in_string g3), (in_string g4) by (eapply hex_plain; eassumption). now rewrite Q.
          * destruct (unesc1 e); [|discriminate]. destruct (read_str u) as [[s' r']|] eqn:R; [|discriminate]. injection H as _ <-.
            destruct (IH u s' r') as (q & -> & Q); [cbn in L; lia | exact R|]. exists (String BS (String e q)). split; [reflexivity|]. intro rest. cbn [append]. now rewrite E, Q.
        + destruct (nat_of_ascii c <? 32) eqn:C; [discriminate|]. destruct (read_str u) as [[s' r']|] eqn:R; [|discriminate]. injection H as _ <-.
          destruct (IH u s' r') as (q & -> & Q); [cbn in L; lia | exact R|]. exists (String c q). split; [reflexivity|]. intro rest. cbn [append]. rewrite in_string; [now rewrite Q|].
          unfold plain_char. rewrite (proj2 (Ascii.eqb_neq c DQ) Nq), (proj2 (Ascii.eqb_neq c BS) Nb), C. reflexivity. }
    intros u s r. now apply (K (String.length u)).
  Qed.
  Lemma run_strlit need d s q rest : strlit s q -> run true false need d (q +++ rest) = q +++ run false false need d rest.
  Proof.
    intro H. specialize (H ""). rewrite app_nil_r_s in H. destruct (scan_str need d _ _ _ H) as (q' & E & Q). rewrite app_nil_r_s in E. subst q'. apply Q.
  Qed.

  Definition pre (need : bool) (d : nat) : string := if need then newline ind (S d) else "".
  Definition deep (need : bool) (d : nat) : nat := if need then S d else d.

  (** A byte of a number or a literal. *)
  Definition word_char (c : ascii) : bool := num_char c || is_lower c.
  Lemma word_facts c : word_char c = true -> is_ws c = false /\ Ascii.eqb c "}" = false /\ Ascii.eqb c "]" = false /\ Ascii.eqb c "{" = false /\ Ascii.eqb c "[" = false /\
    Ascii.eqb c "," = false /\ Ascii.eqb c ":" = false /\ Ascii.eqb c DQ = false.
  Proof.
    intro H. assert (K : forall c, (if word_char c then negb (is_ws c || Ascii.eqb c "}" || Ascii.eqb c "]" || Ascii.eqb c "{" || Ascii.eqb c "[" || Ascii.eqb c "," || Ascii.eqb c ":" || Ascii.eqb c DQ) else true) = true) by bytes.
    specialize (K c). rewrite H in K. apply negb_true_iff in K. rewrite !orb_false_iff in K. tauto.
  Qed.
  Lemma run_word_false t d rest : all word_char t = true -> run false false false d (t +++ rest) = t +++ run false false false d rest.
  Proof.
    induction t as [|c t IH]; intro H; [reflexivity|]. cbn [all] in H. apply andb_true_iff in H as (Hc & Ht).
    destruct (word_facts c Hc) as (F1 & F2 & F3 & F4 & F5 & F6 & F7 & F8). cbn [append indent_from]. rewrite F1, F2, F3, F4, F5, F6, F7, F8. cbn [orb andb negb append]. now rewrite (IH Ht).
  Qed.
  Lemma run_word t need d rest : all word_char t = true -> t <> "" -> run false false need d (t +++ rest) = pre need d +++ t +++ run false false false (deep need d) rest.
  Proof.
    destruct need; [|intros H _; now apply run_word_false]. destruct t as [|c t]; intros H N; [now elim N|]. cbn [all] in H. apply andb_true_iff in H as (Hc & Ht).
    destruct (word_facts c Hc) as (F1 & F2 & F3 & F4 & F5 & F6 & F7 & F8). cbn [append indent_from]. rewrite F1, F2, F3, F4, F5, F6, F7, F8. cbn [orb andb negb append pre deep].
    now rewrite (run_word_false t _ _ Ht).
  Qed.
  Lemma run_open c need d r : c = "{"%char \/ c = "["%char -> run false false need d (String c r) = pre need d +++ String c (run false false true (deep need d) r).
  Proof. intros [-> | ->]; destruct need; reflexivity. Qed.
  Lemma run_dq need d r : run false false need d (String DQ r) = pre need d +++ String DQ (run true false false (deep need d) r).
  Proof. destruct need; reflexivity. Qed.
  Lemma num_word t : all num_char t = true -> all word_char t = true.
  Proof. induction t as [|c t IH]; intro H; [reflexivity|]. cbn [all] in *. apply andb_true_iff in H as (Hc & Ht). unfold word_char at 1. now rewrite Hc, IH. Qed.

  Theorem indent_layout :
    (forall j t, lay rd tight j t -> forall need d rest, exists t', lay rd ws j t' /\ run false false need d (t +++ rest) = pre need d +++ t' +++ run false false false (deep need d) rest) /\
    (forall l t, lays rd tight l t -> forall need d rest w, ws w -> deep need d <> 0 -> exists t', lays rd ws l (w +++ t') /\ run false false need d (t +++ rest) = t' +++ run false false false (deep need d - 1) rest) /\
    (forall l t, laym rd tight l t -> forall need d rest w, ws w -> deep need d <> 0 -> exists t', laym rd ws l (w +++ t') /\ run false false need d (t +++ rest) = t' +++ run false false false (deep need d - 1) rest).
  Proof.
    assert (Wp : forall need d, ws (pre need d)) by (intros [] d; [apply newline_ws | reflexivity]).
    apply lay_all.
    - intros need d rest. exists "null". split; [constructor|]. now apply run_word.
    - intros need d rest. exists "true". split; [constructor|]. now apply run_word.
    - intros need d rest. exists "false". split; [constructor|]. now apply run_word.
    - intros n t Hn Hr need d rest. exists t. split; [now constructor|]. destruct (number_chars t Hn) as (Ht & c & r & E & _). apply run_word; [now apply num_word|]. now rewrite E.
    - intros s t Hs need d rest. exists (String DQ t). split; [now constructor|]. cbn [append]. rewrite run_dq, (run_strlit _ _ _ _ _ Hs). reflexivity.
    - intros w -> need d rest. exists "[]". split; [exact (lay_arr0 rd ws "" eq_refl)|]. cbn [append]. rewrite run_open by auto. reflexivity.
    - intros l t Hl IH need d rest. cbn [append]. rewrite run_open by auto. destruct (IH true (deep need d) rest "" eq_refl) as (t' & L & E); [discriminate|].
      rewrite E. exists (String "[" t'). split; [constructor; exact L|]. cbn [append deep]. rewrite Nat.sub_1_r. reflexivity.
    - intros w -> need d rest. exists "{}". split; [exact (lay_obj0 rd ws "" eq_refl)|]. cbn [append]. rewrite run_open by auto. reflexivity.
    - intros l t Hl IH need d rest. cbn [append]. rewrite run_open by auto. destruct (IH true (deep need d) rest "" eq_refl) as (t' & L & E); [discriminate|].
      rewrite E. exists (String "{" t'). split; [constructor; exact L|]. cbn [append deep]. rewrite Nat.sub_1_r. reflexivity.
    - intros w1 w2 x t -> -> Hx IH need d rest w Hw Hd. cbn [append]. rewrite app_assoc_s. cbn [append]. destruct (IH need d (String "]" rest)) as (t' & L & E). rewrite E.
      exists (pre need d +++ t' +++ newline ind (deep need d - 1) +++ "]"). split.
      + pose proof (lays_one rd ws (w +++ pre need d) (newline ind (deep need d - 1)) x t' (ws_app _ _ Hw (Wp need d)) (newline_ws _) L) as K. rewrite app_assoc_s in K. exact K.
      + change (run false false false (deep need d) (String "]" rest)) with (newline ind (deep need d - 1) +++ String "]" (run false false false (deep need d - 1) rest)).
        now rewrite !app_assoc_s.
    - intros w1 w2 x t l t0 -> -> Hx IH Hl IHl need d rest w Hw Hd. cbn [append]. rewrite app_assoc_s. cbn [append]. destruct (IH need d (String "," (t0 +++ rest))) as (t' & L & E). rewrite E.
      destruct (IHl false (deep need d) rest (newline ind (deep need d)) (newline_ws _) Hd) as (t1 & L1 & E1).
      change (run false false false (deep need d) (String "," (t0 +++ rest))) with (String "," (newline ind (deep need d) +++ run false false false (deep need d) (t0 +++ rest))). rewrite E1.
      exists (pre need d +++ t' +++ String "," (newline ind (deep need d) +++ t1)). split.
      + pose proof (lays_cons rd ws (w +++ pre need d) "" x t' _ _ (ws_app _ _ Hw (Wp need d)) eq_refl L L1) as K. rewrite app_assoc_s in K. exact K.
      + cbn [deep]. rewrite !app_assoc_s. cbn [append]. now rewrite !app_assoc_s.
    - intros w1 w2 w3 w4 k q x t -> -> -> -> Hq Hx IH need d rest w Hw Hd. cbn [append]. rewrite ?app_assoc_s. cbn [append]. rewrite ?app_assoc_s. cbn [append].
      rewrite run_dq, (run_strlit _ _ _ _ _ Hq).
      change (run false false false (deep need d) (String ":" ?X)) with (String ":" (String " " (run false false false (deep need d) X))).
      destruct (IH false (deep need d) (String "}" rest)) as (t' & L & E). rewrite E.
      exists (pre need d +++ String DQ (q +++ String ":" (" " +++ t' +++ newline ind (deep need d - 1) +++ "}"))). split.
      + pose proof (laym_one rd ws (w +++ pre need d) "" " " (newline ind (deep need d - 1)) k q x t' (ws_app _ _ Hw (Wp need d)) eq_refl eq_refl (newline_ws _) Hq L) as K. rewrite app_assoc_s in K. exact K.
      + change (run false false false (deep false (deep need d)) (String "}" rest)) with (newline ind (deep need d - 1) +++ String "}" (run false false false (deep need d - 1) rest)).
        cbn [pre append]. rewrite ?app_assoc_s. cbn [append]. rewrite ?app_assoc_s. cbn [append]. rewrite ?app_assoc_s. reflexivity.
    - intros w1 w2 w3 w4 k q x t l t0 -> -> -> -> Hq Hx IH Hl IHl need d rest w Hw Hd. cbn [append]. rewrite ?app_assoc_s. cbn [append]. rewrite ?app_assoc_s. cbn [append].
      rewrite run_dq, (run_strlit _ _ _ _ _ Hq).
      change (run false false false (deep need d) (String ":" ?X)) with (String ":" (String " " (run false false false (deep need d) X))).
      destruct (IH false (deep need d) (String "," (t0 +++ rest))) as (t' & L & E). rewrite E.
      destruct (IHl false (deep need d) rest (newline ind (deep need d)) (newline_ws _) Hd) as (t1 & L1 & E1).
      change (run false false false (deep false (deep need d)) (String "," (t0 +++ rest))) with (String "," (newline ind (deep need d) +++ run false false false (deep need d) (t0 +++ rest))). rewrite E1.
      exists (pre need d +++ String DQ (q +++ String ":" (" " +++ t' +++ String "," (newline ind (deep need d) +++ t1)))). split.
      + pose proof (laym_cons rd ws (w +++ pre need d) "" " " "" k q x t' _ _ (ws_app _ _ Hw (Wp need d)) eq_refl eq_refl eq_refl Hq L L1) as K. rewrite app_assoc_s in K. exact K.
      + cbn [pre append deep]. rewrite ?app_assoc_s. cbn [append]. rewrite ?app_assoc_s. cbn [append]. rewrite ?app_assoc_s. cbn [append]. rewrite ?app_assoc_s. reflexivity.
  Qed.
  Theorem indent_reads j t : lay rd tight j t -> read_json rd (indent_json ind t) = Some j.
  Proof.
    intro H. unfold indent_json. rewrite <- (app_nil_r_s t). destruct (proj1 indent_layout j t H false 0 "") as (t' & L & ->). cbn [pre append indent_from]. rewrite app_nil_r_s.
    now apply (read_json_layout rd ws (fun w h => h)).
  Qed.
End Pretty.
