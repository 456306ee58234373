(** Route patterns. *)
From Coq Require Import String Ascii List Bool Arith Lia.
From Verif Require Import GoStr GoStrFacts Json Regex Route Spec_Route RegexFacts.
Import ListNotations.
Local Open Scope string_scope.
Local Open Scope list_scope.
Local Open Scope nat_scope.

(** ** translation *)
Lemma var_at_other c r : Ascii.eqb "{" c = false -> Ascii.eqb "*" c = false -> var_at (String c r) = None.
Proof. intros H1 H2. unfold var_at. rewrite (Ascii.eqb_sym c "*"), H2, (Ascii.eqb_sym c "{"), H1. reflexivity. Qed.
Lemma translate_lit l : forall acc r, literal l -> translate_from 0 acc (l +++ r) = translate_from 0 (acc +++ l) r.
Proof.
  induction l as [|c l IH]; intros acc r [H1 H2]; [now rewrite app_nil_r_s|].
  cbn [has_char] in H1, H2. apply orb_false_iff in H1 as [A1 B1]. apply orb_false_iff in H2 as [A2 B2].
  cbn [String.append]. cbn [translate_from]. rewrite var_at_other by assumption. rewrite IH by (split; assumption).
  now rewrite app_assoc_s.
Qed.
Lemma translate_skip v : forall acc r, translate_from (String.length v) acc (v +++ r) = translate_from 0 acc r.
Proof. induction v as [|c v IH]; intros acc r; [reflexivity|]. cbn [String.length String.append translate_from]. apply IH. Qed.
Lemma name_end_spec n : forall r, all_alnum n = true -> name_end (n +++ String "}" r) = Some (String.length n + 1).
Proof.
  induction n as [|c n IH]; intros r H; [reflexivity|]. cbn [all_alnum] in H. apply andb_true_iff in H as [Hc Hn].
  cbn [String.append name_end String.length Nat.add]. rewrite Hc, (IH r Hn).
  destruct (Ascii.eqb_spec c "}") as [->|]; [discriminate Hc | reflexivity].
Qed.
Definition wild_re (w : wild) : string := match w with WVar _ => "([^/]+)" | WStar => "(.*)" end.
Lemma translate_wild w acc r : match w with WVar n => var_name n | WStar => True end ->
  translate_from 0 acc (wild_text w +++ r) = quote_meta acc +++ wild_re w +++ translate_from 0 "" r.
Proof.
  destruct w as [n|]; intro H.
  - destruct H as (a & b & t & -> & Ha & Hb & Ht). cbn [wild_text String.append translate_from].
    assert (E : var_at (String "{" (String a (String b ((t +++ "}") +++ r)))) = Some (String.length t + 4)).
    { cbn [var_at Ascii.eqb Bool.eqb]. rewrite Ha, Hb. cbn [andb].
      rewrite app_assoc_s. change (String b (t +++ "}" +++ r)) with (String b t +++ String "}" r).
      rewrite name_end_spec by (cbn [all_alnum]; now rewrite Hb). cbn [option_map String.length]. f_equal. lia. }
    rewrite E. cbn [Ascii.eqb Bool.eqb]. cbn [wild_re]. do 2 f_equal.
    replace (String.length t + 4 - 1) with (String.length (String a (String b (t +++ "}")))) by (cbn [String.length]; rewrite app_len; cbn [String.length]; lia).
    apply (translate_skip (String a (String b (t +++ "}")))).
  - reflexivity.
Qed.

Fixpoint regex_text (ps : list (string * wild)) (tail : string) : string :=
  match ps with
  | [] => tail
  | (l, w) :: ps' => quote_meta l +++ wild_re w +++ regex_text ps' tail
  end.
Lemma translate_pattern ps tail : ok_pieces ps -> (forall acc, translate_from 0 acc tail = acc +++ tail) ->
  translate (pattern_text ps tail) = regex_text ps tail.
Proof.
  intros H Ht. unfold translate. induction H as [|[l w] ps [Hl Hw] _ IH]; [apply Ht|].
  cbn [pattern_text fold_right fst snd regex_text] in *. rewrite translate_lit by exact Hl. cbn [String.append].
  rewrite translate_wild by exact Hw. do 2 f_equal. exact IH.
Qed.
Lemma translate_tail t : literal t -> forall acc, translate_from 0 acc t = acc +++ t.
Proof. intros H acc. rewrite <- (app_nil_r_s t) at 1. now rewrite translate_lit. Qed.

(** ** parsing *)
Fixpoint pushes (l : string) (p : pstate) : pstate :=
  match l with EmptyString => p | String c r => pushes r (push (RChar c) p) end.
Lemma ascii_dec_special c : is_special c = true -> is_alnum c = false /\ (nat_of_ascii c <? 128) = true.
Proof. destruct c as [[] [] [] [] [] [] [] []]; vm_compute; intro H; try discriminate H; auto. Qed.
Ltac not_special H := unfold is_special, special in H; cbn [has_char] in H;
  repeat (let A := fresh "A" in apply orb_false_iff in H as [A H]; rewrite Ascii.eqb_sym in A).
Lemma step_text_plain c r p : is_special c = false -> step_text c r p = Ok (push (RChar c) p).
Proof.
  intro H. unfold is_special, special in H. cbn [has_char] in H. rewrite !orb_false_iff in H.
  destruct H as (H1 & H2 & H3 & H4 & H5 & H6 & H7 & H8 & H9 & H10 & H11 & H12 & H13 & H14 & _).
  unfold step_text. rewrite H6, H7, H8, H4, H3, H5, H11, H2, H13, H14, H1, H9. reflexivity.
Qed.
Lemma parse_quoted l : forall r p, ps_mode p = MText -> parse_run (quote_meta l +++ r) p = parse_run r (pushes l p).
Proof.
  induction l as [|c l IH]; intros r p Hm; [reflexivity|]. cbn [quote_meta pushes]. destruct (is_special c) eqn:Hs.
  - cbn [String.append parse_run]. unfold step at 1. rewrite Hm.
    assert (step_text "\" (String c (quote_meta l +++ r)) p = Ok (set_mode MEscape p)) as -> by reflexivity. cbn [bind].
    unfold step at 1. cbn [ps_mode set_mode]. destruct (ascii_dec_special c Hs) as [-> ->]. cbn [orb negb bind].
    change (push (RChar c) (set_mode MEscape p)) with (push (RChar c) p). apply IH. reflexivity.
  - cbn [String.append parse_run]. unfold step at 1. rewrite Hm, (step_text_plain c _ p Hs). cbn [bind]. apply IH. reflexivity.
Qed.
Definition re_var : re := RCat (RPlus (RSet true [("/"%char, "/"%char)])) REps.
Definition re_star : re := RCat (RStar RAny) REps.
Definition re_wild (w : wild) : re := match w with WVar _ => re_var | WStar => re_star end.
Lemma parse_wild w r p : ps_mode p = MText -> parse_run (wild_re w +++ r) p = parse_run r (push (re_wild w) p).
Proof.
  intro H. destruct p as [[al ca] o rp m]. cbn in H. subst m. destruct w; reflexivity.
Qed.

(** The list of regular expressions (earliest first) of the pieces. *)
Fixpoint chars (l : string) : list re := match l with EmptyString => [] | String c r => RChar c :: chars r end.
Fixpoint pieces_re (ps : list (string * wild)) : list re :=
  match ps with [] => [] | (l, w) :: ps' => chars l ++ re_wild w :: pieces_re ps' end.
Definition push_list (l : list re) (p : pstate) : pstate := fold_left (fun p r => push r p) l p.
Lemma pushes_list l : forall p, pushes l p = push_list (chars l) p.
Proof. induction l as [|c l IH]; intro p; [reflexivity|]. cbn. apply IH. Qed.
Lemma push_list_mode l : forall p, ps_mode p = MText -> ps_mode (push_list l p) = MText.
Proof. induction l as [|r l IH]; intros p H; [exact H|]. cbn. apply IH. reflexivity. Qed.
Lemma push_list_app a b p : push_list (a ++ b) p = push_list b (push_list a p).
Proof. apply fold_left_app. Qed.
Lemma parse_pieces ps : forall t p, ps_mode p = MText -> parse_run (regex_text ps t) p = parse_run t (push_list (pieces_re ps) p).
Proof.
  induction ps as [|[l w] ps IH]; intros t p H; [reflexivity|]. cbn [regex_text pieces_re].
  rewrite parse_quoted by exact H. rewrite pushes_list, parse_wild by now apply push_list_mode. rewrite IH by reflexivity.
  f_equal. rewrite push_list_app. reflexivity.
Qed.
Lemma push_list_eq l : forall p, push_list l p =
  match l with [] => p | _ => {| ps_cur := {| fr_alts := fr_alts (ps_cur p); fr_cat := rev l ++ fr_cat (ps_cur p) |}; ps_outer := ps_outer p; ps_rep := RepNone; ps_mode := MText |} end.
Proof.
  induction l as [|r l IH]; intro p; [reflexivity|]. cbn [push_list fold_left]. fold (push_list l (push r p)). rewrite IH.
  destruct l as [|r' l]; [reflexivity|]. cbn [push ps_cur fr_alts fr_cat ps_outer]. f_equal. f_equal.
  change (rev (r :: r' :: l)) with (rev (r' :: l) ++ [r]). now rewrite <- app_assoc.
Qed.

(** A frame pushed under the outermost group. *)
Fixpoint under (base : list re) (fs : list frame) : list frame :=
  match fs with
  | [] => []
  | [f] => [{| fr_alts := fr_alts f; fr_cat := fr_cat f ++ base |}]
  | f :: r => f :: under base r
  end.
Definition frames (p : pstate) : list frame := ps_cur p :: ps_outer p.
Definition over (base : list re) (p : pstate) : pstate :=
  match under base (frames p) with
  | c :: o => {| ps_cur := c; ps_outer := o; ps_rep := ps_rep p; ps_mode := ps_mode p |}
  | [] => p
  end.
Lemma over_nil base c rp m : over base {| ps_cur := c; ps_outer := []; ps_rep := rp; ps_mode := m |} =
  {| ps_cur := {| fr_alts := fr_alts c; fr_cat := fr_cat c ++ base |}; ps_outer := []; ps_rep := rp; ps_mode := m |}.
Proof. reflexivity. Qed.
Lemma over_cons base c f o rp m : over base {| ps_cur := c; ps_outer := f :: o; ps_rep := rp; ps_mode := m |} =
  {| ps_cur := c; ps_outer := under base (f :: o); ps_rep := rp; ps_mode := m |}.
Proof. reflexivity. Qed.

Ltac ps := cbn [ps_cur ps_outer ps_rep ps_mode fr_alts fr_cat push set_mode frames app].
Lemma push_over base r p : push r (over base p) = over base (push r p).
Proof. destruct p as [[al ca] [|f o] rp m]; [reflexivity|]. rewrite over_cons. reflexivity. Qed.
Lemma set_mode_over base m p : set_mode m (over base p) = over base (set_mode m p).
Proof. destruct p as [[al ca] [|f o] rp m']; [reflexivity|]. rewrite over_cons. reflexivity. Qed.
Lemma repeat_over base op mk p p' : repeat_op op mk p = Ok p' -> repeat_op op mk (over base p) = Ok (over base p').
Proof.
  destruct p as [[al ca] o rp m]. unfold repeat_op. destruct o as [|f o].
  - rewrite over_nil. ps. destruct rp; [|destruct (Ascii.eqb op "?"); [|discriminate]; now intros [= <-] | discriminate].
    destruct ca as [|r l]; [discriminate|]. now intros [= <-].
  - rewrite over_cons. ps. destruct rp; [|destruct (Ascii.eqb op "?"); [|discriminate]; now intros [= <-] | discriminate].
    destruct ca as [|r l]; [discriminate|]. now intros [= <-].
Qed.
Lemma step_over base c rest p p' : Ascii.eqb "|" c = false -> step c rest p = Ok p' -> step c rest (over base p) = Ok (over base p').
Proof.
  intros Hb H. assert (Hm : ps_mode (over base p) = ps_mode p) by (destruct p as [[al ca] [|f o] rp m]; reflexivity).
  unfold step in *. rewrite Hm. destruct (ps_mode p) eqn:Em.
  - unfold step_text in *. rewrite (Ascii.eqb_sym c "|"), Hb in *.
    destruct (Ascii.eqb c "(").
    { destruct p as [[al ca] o rp m]. assert (E : forall x, Ok {| ps_cur := {| fr_alts := None; fr_cat := [] |}; ps_outer := {| fr_alts := al; fr_cat := ca |} :: o; ps_rep := RepNone; ps_mode := MText |} = Ok x ->
        Ok {| ps_cur := {| fr_alts := None; fr_cat := [] |}; ps_outer := ps_cur (over base {| ps_cur := {| fr_alts := al; fr_cat := ca |}; ps_outer := o; ps_rep := rp; ps_mode := m |}) :: ps_outer (over base {| ps_cur := {| fr_alts := al; fr_cat := ca |}; ps_outer := o; ps_rep := rp; ps_mode := m |}); ps_rep := RepNone; ps_mode := MText |} = Ok (over base x)).
      { intros x [= <-]. destruct o; reflexivity. }
      destruct rest as [|d rest]; [now apply E|]. destruct (Ascii.eqb_spec d "?") as [->|Nd]; [discriminate H|].
      assert (G : forall A (a b : A), match d with "?"%char => a | _ => b end = b).
      { intros. destruct d as [[] [] [] [] [] [] [] []]; try reflexivity. congruence. }
      rewrite G in *. now apply E. }
    destruct (Ascii.eqb c ")").
    { destruct p as [[al ca] o rp m]. destruct o as [|f o]; [discriminate|]. injection H as <-. rewrite over_cons. ps.
      destruct o as [|g o]; reflexivity. }
    destruct (Ascii.eqb c "*"); [now apply repeat_over|]. destruct (Ascii.eqb c "+"); [now apply repeat_over|]. destruct (Ascii.eqb c "?"); [now apply repeat_over|].
    destruct (Ascii.eqb c "{"); [destruct (counted rest); [discriminate|]; injection H as <-; now rewrite push_over|].
    destruct (Ascii.eqb c "."); [injection H as <-; now rewrite push_over|]. destruct (Ascii.eqb c "^"); [injection H as <-; now rewrite push_over|].
    destruct (Ascii.eqb c "$"); [injection H as <-; now rewrite push_over|]. destruct (Ascii.eqb c "\"); [injection H as <-; now rewrite set_mode_over|].
    destruct (Ascii.eqb c "["); [injection H as <-; now rewrite set_mode_over|]. injection H as <-; now rewrite push_over.
  - destruct (is_alnum c || negb (nat_of_ascii c <? 128)); [discriminate|]. injection H as <-. now rewrite push_over.
  - unfold step_class in *.
    repeat match type of H with
           | (if ?b then _ else _) = Ok _ => destruct b
           | match ?l with Some _ => _ | None => _ end = Ok _ => destruct l
           | OutOfFuel = Ok _ => discriminate H
           | Err = Ok _ => discriminate H
           | Ok _ = Ok _ => injection H as <-; now rewrite ?push_over, ?set_mode_over
           end.
Qed.
Lemma run_over base s : forall p p', has_char "|" s = false -> parse_run s p = Ok p' -> parse_run s (over base p) = Ok (over base p').
Proof.
  induction s as [|c s IH]; intros p p' Hb H; [now injection H as <-|]. cbn [has_char] in Hb. apply orb_false_iff in Hb as [Hc Hs].
  cbn [parse_run] in *. destruct (step c s p) as [p1| | |] eqn:E; try discriminate. cbn [bind] in H.
  rewrite (step_over base _ _ _ _ Hc E). cbn [bind]. now apply IH.
Qed.

(** Nothing looks ahead to a final '$'. *)
Lemma skip_digits_dollar s : skip_digits (s +++ "$") = skip_digits s +++ "$".
Proof. induction s as [|c s IH]; [reflexivity|]. cbn [String.append skip_digits]. destruct (is_digit c); [exact IH | reflexivity]. Qed.
Lemma counted_dollar s : counted (s +++ "$") = counted s.
Proof.
  destruct s as [|c s]; [reflexivity|]. cbn [String.append counted]. f_equal.
  change (String c (s +++ "$")) with (String c s +++ "$"). rewrite skip_digits_dollar.
  destruct (skip_digits (String c s)) as [|d r]; [reflexivity|]. cbn [String.append].
  destruct (Ascii.eqb_spec d "}") as [->|N1]; [reflexivity|]. destruct (Ascii.eqb_spec d ",") as [->|N2].
  - rewrite skip_digits_dollar. destruct (skip_digits r) as [|e r']; [reflexivity|]. cbn [String.append]. reflexivity.
  - destruct d as [[] [] [] [] [] [] [] []]; try reflexivity; congruence.
Qed.
Lemma step_dollar c r p : step c (r +++ "$") p = step c r p.
Proof.
  unfold step. destruct (ps_mode p); [|reflexivity|].
  - unfold step_text. rewrite counted_dollar. destruct (Ascii.eqb c "("); [|reflexivity]. destruct r; reflexivity.
  - unfold step_class. replace (has_prefix ":" (r +++ "$")) with (has_prefix ":" r) by (destruct r; reflexivity). reflexivity.
Qed.
Lemma run_dollar s : forall p, parse_run (s +++ "$") p = do p' <- parse_run s p ; step "$" "" p'.
Proof.
  induction s as [|c s IH]; intro p.
  - cbn [String.append parse_run bind]. destruct (step "$" "" p); reflexivity.
  - cbn [String.append parse_run]. rewrite step_dollar. destruct (step c s p); [|reflexivity..]. cbn [bind]. apply IH.
Qed.

(** Without '|' there are no alternatives anywhere. *)
Definition no_alts (p : pstate) : Prop := Forall (fun f => fr_alts f = None) (frames p).
Lemma push_no_alts r p : no_alts p -> no_alts (push r p).
Proof. unfold no_alts. destruct p as [[al ca] o rp m]. ps. intro H. inversion H; subst. constructor; auto. Qed.
Lemma set_mode_no_alts m p : no_alts p -> no_alts (set_mode m p).
Proof. unfold no_alts. now destruct p as [[al ca] o rp m']. Qed.
Lemma repeat_no_alts op mk p p' : no_alts p -> repeat_op op mk p = Ok p' -> no_alts p'.
Proof.
  unfold no_alts, repeat_op. destruct p as [[al ca] o rp m]. ps. intros H. inversion H; subst. cbn in *. subst.
  destruct rp; [|destruct (Ascii.eqb op "?"); [|discriminate]|discriminate].
  - destruct ca as [|r l]; [discriminate|]. intros [= <-]. constructor; auto.
  - intros [= <-]. constructor; auto.
Qed.
Lemma step_no_alts c rest p p' : Ascii.eqb "|" c = false -> no_alts p -> step c rest p = Ok p' -> no_alts p'.
Proof.
  intros Hb Hn H. unfold step in *. destruct (ps_mode p) eqn:Em.
  - unfold step_text in *. rewrite (Ascii.eqb_sym c "|"), Hb in *.
    destruct (Ascii.eqb c "(").
    { assert (E : no_alts {| ps_cur := {| fr_alts := None; fr_cat := [] |}; ps_outer := ps_cur p :: ps_outer p; ps_rep := RepNone; ps_mode := MText |}).
      { unfold no_alts. ps. constructor; auto. }
      destruct rest as [|d rest]; [now injection H as <-|]. destruct (Ascii.eqb_spec d "?") as [->|Nd]; [discriminate H|].
      assert (G : forall A (a b : A), match d with "?"%char => a | _ => b end = b).
      { intros. destruct d as [[] [] [] [] [] [] [] []]; try reflexivity. congruence. }
      rewrite G in *. now injection H as <-. }
    destruct (Ascii.eqb c ")").
    { destruct p as [[al ca] o rp m]. destruct o as [|f o]; [discriminate|]. injection H as <-. unfold no_alts in *. cbn [frames ps_cur ps_outer] in *.
      inversion Hn as [|? ? _ Hn']; subst. inversion Hn'; subst. constructor; auto. }
    repeat (match type of H with (if Ascii.eqb c ?x then repeat_op _ _ _ else _) = _ => destruct (Ascii.eqb c x); [eapply repeat_no_alts; eassumption|] end).
    repeat match type of H with
           | (if ?b then _ else _) = Ok _ => destruct b
           | OutOfFuel = Ok _ => discriminate H
           | Ok _ = Ok _ => injection H as <-; auto using push_no_alts, set_mode_no_alts
           end.
  - destruct (is_alnum c || negb (nat_of_ascii c <? 128)); [discriminate|]. injection H as <-. now apply push_no_alts.
  - unfold step_class in *.
    repeat match type of H with
           | (if ?b then _ else _) = Ok _ => destruct b
           | match ?l with Some _ => _ | None => _ end = Ok _ => destruct l
           | OutOfFuel = Ok _ => discriminate H
           | Err = Ok _ => discriminate H
           | Ok _ = Ok _ => injection H as <-; auto using push_no_alts, set_mode_no_alts
           end.
Qed.
Lemma run_no_alts s : forall p p', has_char "|" s = false -> no_alts p -> parse_run s p = Ok p' -> no_alts p'.
Proof.
  induction s as [|c s IH]; intros p p' Hb Hn H; [now injection H as <-|]. cbn [has_char] in Hb. apply orb_false_iff in Hb as [Hc Hs].
  cbn [parse_run] in *. destruct (step c s p) as [p1| | |] eqn:E; try discriminate. cbn [bind] in H. eauto using step_no_alts.
Qed.

(** ** sequences of regular expressions *)
Inductive mts : list re -> string -> string -> string -> Prop :=
| mts_nil b a : mts [] b "" a
| mts_cons r rs w1 w2 b a : mt r b w1 (w2 +++ a) -> mts rs (b +++ w1) w2 a -> mts (r :: rs) b (w1 +++ w2) a.
Lemma mts_cons_inv r rs b w a : mts (r :: rs) b w a -> exists w1 w2, w = w1 +++ w2 /\ mt r b w1 (w2 +++ a) /\ mts rs (b +++ w1) w2 a.
Proof. intro H. inversion H; subst. eauto 6. Qed.
Lemma mts_nil_inv b w a : mts [] b w a -> w = "".
Proof. intro H. now inversion H. Qed.
Lemma mt_cat_inv r1 r2 b w a : mt (RCat r1 r2) b w a -> exists w1 w2, w = w1 +++ w2 /\ mt r1 b w1 (w2 +++ a) /\ mt r2 (b +++ w1) w2 a.
Proof. intro H. inversion H; subst. eauto 6. Qed.
Lemma mt_plus_inv r b w a : mt (RPlus r) b w a -> exists w1 w2, w = w1 +++ w2 /\ mt r b w1 (w2 +++ a) /\ mt (RStar r) (b +++ w1) w2 a.
Proof. intro H. inversion H; subst. eauto 6. Qed.
Lemma mt_eps_inv b w a : mt REps b w a -> w = "".
Proof. intro H. now inversion H. Qed.
Lemma mt_char_inv c b w a : mt (RChar c) b w a -> w = str1 c.
Proof. intro H. now inversion H. Qed.
Lemma mt_any_inv b w a : mt RAny b w a -> exists c, w = str1 c /\ c <> newline.
Proof. intro H. inversion H; subst. eauto. Qed.
Lemma mt_set_inv n i b w a : mt (RSet n i) b w a -> exists c, w = str1 c /\ in_items c i = negb n.
Proof. intro H. inversion H; subst. eauto. Qed.
Lemma mt_begin_inv b w a : mt RBegin b w a -> b = "" /\ w = "".
Proof. intro H. now inversion H. Qed.
Lemma mt_end_inv b w a : mt REnd b w a -> a = "" /\ w = "".
Proof. intro H. now inversion H. Qed.
Definition seq (l : list re) : re := fold_right RCat REps l.
Lemma cat_of_seq l : cat_of l = seq (rev l).
Proof. unfold cat_of, seq. rewrite <- (rev_involutive l) at 1. rewrite <- fold_left_rev_right, rev_involutive. reflexivity. Qed.
Lemma mt_seq l : forall b w a, mt (seq l) b w a <-> mts l b w a.
Proof.
  induction l as [|r l IH]; intros b w a; cbn [seq fold_right].
  - split; intro H; [apply mt_eps_inv in H | apply mts_nil_inv in H]; subst; constructor.
  - split; intro H; [apply mt_cat_inv in H | apply mts_cons_inv in H]; destruct H as (w1 & w2 & -> & H1 & H2); constructor; auto; now apply IH.
Qed.
Lemma mts_app l1 l2 : forall b w a, mts (l1 ++ l2) b w a <-> exists w1 w2, w = w1 +++ w2 /\ mts l1 b w1 (w2 +++ a) /\ mts l2 (b +++ w1) w2 a.
Proof.
  induction l1 as [|r l1 IH]; intros b w a; cbn [app].
  - split.
    + intro H. exists "", w. rewrite app_nil_r_s. repeat split; auto. constructor.
    + intros (w1 & w2 & -> & H1 & H2). apply mts_nil_inv in H1 as ->. now rewrite app_nil_r_s in H2.
  - split.
    + intro H. apply mts_cons_inv in H as (w1 & w2 & -> & H1 & H2). apply IH in H2 as (u1 & u2 & -> & H3 & H4). exists (w1 +++ u1), u2.
      rewrite !app_assoc_s in *. repeat split; auto. constructor; assumption.
    + intros (w1 & w2 & -> & H1 & H2). apply mts_cons_inv in H1 as (u1 & u2 & -> & H3 & H4). rewrite app_assoc_s. constructor.
      * now rewrite app_assoc_s in *.
      * apply IH. exists u2, w2. rewrite !app_assoc_s in *. auto.
Qed.
Lemma mts_chars l : forall b w a, mts (chars l) b w a <-> w = l.
Proof.
  induction l as [|c l IH]; intros b w a; cbn [chars].
  - split; [apply mts_nil_inv | intros ->; constructor].
  - split.
    + intro H. apply mts_cons_inv in H as (w1 & w2 & -> & H1 & H2). apply mt_char_inv in H1 as ->. apply IH in H2 as ->. reflexivity.
    + intros ->. apply (mts_cons (RChar c) (chars l) (str1 c) l); [constructor | now apply IH].
Qed.

Lemma set_slash c : in_items c [("/"%char, "/"%char)] = Ascii.eqb "/" c.
Proof. destruct c as [[] [] [] [] [] [] [] []]; reflexivity. Qed.
Lemma star_inv r b w a : mt (RStar r) b w a -> (forall b a, ~ mt r b "" a) ->
  w = "" \/ exists w1 w2, w = w1 +++ w2 /\ mt r b w1 (w2 +++ a) /\ mt (RStar r) (b +++ w1) w2 a.
Proof. intros H Hn. inversion H; subst; eauto 8. Qed.
Lemma star_set v : forall b a, has_char "/" v = false <-> mt (RStar (RSet true [("/"%char, "/"%char)])) b v a.
Proof.
  induction v as [|c v IH]; intros b a.
  - split; [constructor | reflexivity].
  - cbn [has_char]. rewrite orb_false_iff. split.
    + intros [Hc Hv]. apply (mt_star1 _ (str1 c) v); [constructor; now rewrite set_slash, Hc | now apply IH].
    + intro H. apply star_inv in H as [E|(w1 & w2 & E & H1 & H2)]; [discriminate| |intros b' a' H'; apply mt_set_inv in H' as (d & E & _); discriminate].
      apply mt_set_inv in H1 as (d & -> & H1). cbn [str1 String.append] in E. injection E as <- <-.
      rewrite set_slash in H1. split; [exact H1|]. eapply IH. exact H2.
Qed.
Lemma var_mt v b a : mt re_var b v a <-> v <> "" /\ has_char "/" v = false.
Proof.
  split.
  - intro H. apply mt_cat_inv in H as (w1 & w2 & -> & H1 & H2). apply mt_eps_inv in H2 as ->. rewrite app_nil_r_s in *.
    apply mt_plus_inv in H1 as (u1 & u2 & -> & H3 & H4). apply mt_set_inv in H3 as (c & -> & H3). cbn [str1 String.append].
    split; [discriminate|]. cbn [has_char]. rewrite set_slash in H3. cbn [negb] in H3. rewrite H3. cbn [orb]. eapply star_set. exact H4.
  - intros [Hn Hv]. destruct v as [|c v]; [congruence|]. cbn [has_char] in Hv. apply orb_false_iff in Hv as [Hc Hv].
    rewrite <- (app_nil_r_s (String c v)). constructor; [|constructor].
    apply (mt_plus _ (str1 c) v); [constructor; now rewrite set_slash, Hc | now apply star_set].
Qed.
Lemma star_any v : forall b a, has_char newline v = false <-> mt (RStar RAny) b v a.
Proof.
  induction v as [|c v IH]; intros b a.
  - split; [constructor | reflexivity].
  - cbn [has_char]. rewrite orb_false_iff. split.
    + intros [Hc Hv]. apply (mt_star1 _ (str1 c) v); [constructor; intros ->; now rewrite Ascii.eqb_refl in Hc | now apply IH].
    + intro H. apply star_inv in H as [E|(w1 & w2 & E & H1 & H2)]; [discriminate| |intros b' a' H'; apply mt_any_inv in H' as (d & E & _); discriminate].
      apply mt_any_inv in H1 as (d & -> & H1). cbn [str1 String.append] in E. injection E as <- <-.
      split; [destruct (Ascii.eqb_spec newline c); congruence|]. eapply IH. exact H2.
Qed.
Lemma wild_star_mt v b a : mt re_star b v a <-> has_char newline v = false.
Proof.
  split.
  - intro H. apply mt_cat_inv in H as (w1 & w2 & -> & H1 & H2). apply mt_eps_inv in H2 as ->. rewrite app_nil_r_s in *. eapply star_any. exact H1.
  - intro Hv. rewrite <- (app_nil_r_s v). constructor; [now apply star_any | constructor].
Qed.

Lemma fits_mts ps T : forall b w, fits T b ps w <-> exists w1 w2, w = w1 +++ w2 /\ mts (pieces_re ps) b w1 w2 /\ T (b +++ w1) w2.
Proof.
  induction ps as [|[l x] ps IH]; intros b w; cbn [pieces_re].
  - split.
    + intro H. exists "", w. rewrite app_nil_r_s. inversion H; subst. repeat split; auto. constructor.
    + intros (w1 & w2 & -> & H1 & H2). apply mts_nil_inv in H1 as ->. rewrite app_nil_r_s in H2. now constructor.
  - split.
    + intro H. assert (exists v u, w = l +++ v +++ u /\ mt (re_wild x) (b +++ l) v "" /\ (forall a, mt (re_wild x) (b +++ l) v a) /\ fits T (b +++ l +++ v) ps u) as (v & u & -> & _ & Hv & Hf).
      { inversion H; subst; do 2 eexists; (split; [reflexivity|]); repeat split; auto; cbn [re_wild]; intros; (now apply var_mt) || (now apply wild_star_mt). }
      apply IH in Hf as (w1 & w2 & -> & H1 & H2). exists (l +++ v +++ w1), w2. rewrite !app_assoc_s in *. repeat split; auto.
      apply mts_app. exists l, (v +++ w1). repeat split; [now apply mts_chars|]. constructor; [apply Hv | now rewrite !app_assoc_s in *].
    + intros (w1 & w2 & -> & H1 & H2). apply mts_app in H1 as (u1 & u2 & -> & H1 & H3). apply mts_chars in H1 as ->.
      apply mts_cons_inv in H3 as (v & w3 & -> & H4 & H5). rewrite !app_assoc_s in *.
      assert (Hf : fits T (b +++ l +++ v) ps (w3 +++ w2)) by (apply IH; exists w3, w2; rewrite ?app_assoc_s in *; auto).
      destruct x as [n|].
      * apply var_mt in H4 as [Hn Hs]. now constructor.
      * apply wild_star_mt in H4. now constructor.
Qed.

(** ** the whole *)
Lemma compile_tail ps tail p' : has_char "|" tail = false -> parse_run tail pstart = Ok p' -> ps_mode p' = MText -> ps_outer p' = [] ->
  compile_route (regex_text ps tail) = Ok (seq (RBegin :: pieces_re ps ++ rev (fr_cat (ps_cur p')) ++ [REnd])) /\
  (forall r, re_compile tail = Ok r -> r = seq (rev (fr_cat (ps_cur p')))).
Proof.
  intros Hb Hp Hm Ho. pose proof (run_no_alts tail pstart p' Hb) as Hn. specialize (Hn ltac:(repeat constructor) Hp).
  assert (Ha : fr_alts (ps_cur p') = None) by (unfold no_alts, frames in Hn; now inversion Hn).
  split.
  - unfold compile_route, re_compile. cbn [String.append parse_run]. cbn [step step_text pstart ps_mode Ascii.eqb Bool.eqb bind].
    assert (E : regex_text ps tail +++ "$" = regex_text ps (tail +++ "$")).
    { clear. induction ps as [|[l w] ps IH]; [reflexivity|]. cbn [regex_text]. now rewrite !app_assoc_s, IH. }
    rewrite E, parse_pieces by reflexivity. set (q := push_list _ _).
    assert (Eq : q = over (rev (RBegin :: pieces_re ps)) pstart).
    { unfold q. rewrite push_list_eq. destruct (pieces_re ps) as [|r rs]; reflexivity. }
    rewrite Eq, run_dollar, (run_over _ _ _ _ Hb Hp). cbn [bind].
    destruct p' as [[al ca] o rp m]. cbn in Hm, Ho, Ha. subst. rewrite over_nil. unfold step. cbn [ps_mode]. cbn [step_text Ascii.eqb Bool.eqb bind].
    unfold pfinish. ps. f_equal. unfold close. ps. rewrite cat_of_seq. cbn [fr_cat ps_cur]. f_equal.
    change (rev (REnd :: ca ++ rev (RBegin :: pieces_re ps))) with (rev (ca ++ rev (RBegin :: pieces_re ps)) ++ [REnd]).
    rewrite rev_app_distr, rev_involutive. cbn [app]. now rewrite <- app_assoc.
  - intros r Hr. unfold re_compile in Hr. rewrite Hp in Hr. cbn [bind] in Hr. unfold pfinish in Hr. rewrite Hm, Ho in Hr. injection Hr as <-.
    unfold close. now rewrite Ha, cat_of_seq.
Qed.

Lemma anchored rs path : match_string (seq (RBegin :: rs ++ [REnd])) path = true <-> mts rs "" path "".
Proof.
  rewrite match_iff. split.
  - intros (p & w & a & -> & H). apply mt_seq in H. apply mts_cons_inv in H as (w1 & w2 & -> & H1 & H). apply mt_begin_inv in H1 as [-> ->]. cbn [String.append] in *.
    apply mts_app in H as (u1 & u2 & -> & H1 & H2). apply mts_cons_inv in H2 as (v1 & v2 & -> & H3 & H4). apply mts_nil_inv in H4 as ->.
    cbn [String.append] in *. apply mt_end_inv in H3 as [-> ->]. cbn [String.append] in *. now rewrite !app_nil_r_s in *.
  - intro H. exists "", path, "". split; [now rewrite app_nil_r_s|]. apply mt_seq.
    apply (mts_cons RBegin _ "" path); [constructor|]. apply mts_app. exists path, "". rewrite app_nil_r_s. repeat split; auto.
    apply (mts_cons REnd [] "" ""); constructor.
Qed.

Theorem match_raw_gen ps tail r path method : ok_pieces ps -> (forall acc, translate_from 0 acc tail = acc +++ tail) -> has_char "|" tail = false -> re_compile tail = Ok r ->
  method_prefix (pattern_text ps tail) = None ->
  exists b, route_match (pattern_text ps tail) method path = Ok b /\
    (b = true <-> fits (fun before w => mt r before w "") "" ps path).
Proof.
  intros Hps Hlit Hb Hr Hm. pose proof Hr as Hr0. unfold re_compile in Hr. destruct (parse_run tail pstart) as [p'| | |] eqn:Hp; try discriminate. cbn [bind] in Hr.
  unfold pfinish in Hr. destruct (ps_mode p') eqn:Em; try discriminate. destruct (ps_outer p') eqn:Eo; [|discriminate].
  destruct (compile_tail ps tail p' Hb Hp Em Eo) as [Hc Hs]. specialize (Hs r Hr0).
  unfold route_match. rewrite Hm. cbn [String.eqb negb andb]. rewrite (translate_pattern ps tail Hps Hlit), Hc. cbn [bind].
  eexists. split; [reflexivity|].
  rewrite app_assoc. rewrite anchored. rewrite mts_app, fits_mts. split; intros (w1 & w2 & -> & H1 & H2); exists w1, w2; rewrite ?app_nil_r_s in *; repeat split; auto.
  - subst r. now apply mt_seq.
  - subst r. now apply mt_seq in H2.
Qed.

Theorem match_raw_tail ps tail r path method : ok_pieces ps -> literal tail -> has_char "|" tail = false -> re_compile tail = Ok r ->
  method_prefix (pattern_text ps tail) = None ->
  exists b, route_match (pattern_text ps tail) method path = Ok b /\
    (b = true <-> fits (fun before w => mt r before w "") "" ps path).
Proof. intros. apply match_raw_gen; auto. now apply translate_tail. Qed.

(** A tail without special characters stands for itself. *)
Lemma no_special_run t : forall p, ps_mode p = MText -> no_special t = true -> parse_run t p = Ok (push_list (chars t) p).
Proof.
  induction t as [|c t IH]; intros p Hm H; [reflexivity|]. cbn [no_special] in H. apply andb_true_iff in H as [Hc Ht]. apply negb_true_iff in Hc.
  cbn [parse_run chars]. unfold step. rewrite Hm, (step_text_plain c t p Hc). cbn [bind]. now rewrite IH.
Qed.
Lemma special_absent c t : is_special c = true -> no_special t = true -> has_char c t = false.
Proof.
  intros Hc. induction t as [|d t IH]; [reflexivity|]. cbn [no_special has_char]. intro H. apply andb_true_iff in H as [Hd Ht]. rewrite (IH Ht), orb_false_r.
  apply negb_true_iff in Hd. destruct (Ascii.eqb_spec c d); [congruence | reflexivity].
Qed.
Lemma no_special_literal t : no_special t = true -> literal t /\ has_char "|" t = false.
Proof. intro H. repeat split; (apply special_absent; [reflexivity | exact H]). Qed.

Lemma no_special_compile t : no_special t = true -> re_compile t = Ok (seq (chars t)).
Proof.
  intro H. unfold re_compile. rewrite no_special_run by (reflexivity || assumption). cbn [bind]. rewrite push_list_eq. destruct (chars t) as [|r l] eqn:E; [reflexivity|].
  unfold pfinish. ps. f_equal. unfold close. cbn [fr_alts ps_cur fr_cat pstart]. rewrite cat_of_seq, app_nil_r, rev_involutive. reflexivity.
Qed.

Theorem match_pattern ps tail path method : ok_pieces ps -> no_special tail = true -> method_prefix (pattern_text ps tail) = None ->
  exists b, route_match (pattern_text ps tail) method path = Ok b /\ (b = true <-> fits (fun _ w => w = tail) "" ps path).
Proof.
  intros Hps Ht Hm. destruct (no_special_literal tail Ht) as [Hl Hb].
  destruct (match_raw_tail ps tail _ path method Hps Hl Hb (no_special_compile tail Ht) Hm) as (b & E & Hiff).
  exists b. split; [exact E|]. rewrite Hiff. rewrite !fits_mts. split; intros (w1 & w2 & -> & H1 & H2); exists w1, w2; repeat split; auto.
  - apply mt_seq, mts_chars in H2. exact H2.
  - apply mt_seq, mts_chars. exact H2.
Qed.
