(** The matcher decides the standard meaning of regular expressions. *)
From Coq Require Import String Ascii List Bool Arith Lia.
From Verif Require Import GoStr GoStrFacts Regex Spec_Route.
Import ListNotations.
Local Open Scope string_scope.
Local Open Scope list_scope.
Local Open Scope nat_scope.

Lemma app_len a b : String.length (a +++ b) = String.length a + String.length b.
Proof. induction a; cbn; congruence. Qed.
Lemma app_assoc_s a b c : (a +++ b) +++ c = a +++ (b +++ c).
Proof. induction a; cbn; congruence. Qed.
Lemma app_same_len w t s : w +++ t = s -> (String.length t =? String.length s) = match w with EmptyString => true | _ => false end.
Proof.
  intros <-. rewrite app_len. destruct w as [|c w]; cbn [String.length Nat.add].
  - apply Nat.eqb_refl.
  - apply Nat.eqb_neq. lia.
Qed.
Definition is_empty (s : string) : bool := match s with EmptyString => true | _ => false end.
Lemma is_empty_app a b : is_empty (a +++ b) = is_empty a && is_empty b.
Proof. destruct a; reflexivity. Qed.

Definition star_rests (f : bool -> string -> list string) := fix star (n : nat) (first : bool) (s : string) : list string :=
  match n with
  | O => [s]
  | S n' => s :: flat_map (fun t => if String.length t <? String.length s then star n' false t else []) (f first s)
  end.

Lemma star_iff r (IH : forall b s t, In t (rests r (is_empty b) s) <-> exists w, s = w +++ t /\ mt r b w t) :
  forall n b s, String.length s <= n -> forall t, In t (star_rests (rests r) n (is_empty b) s) <-> exists w, s = w +++ t /\ mt (RStar r) b w t.
Proof.
  (* completeness needs: empty iterations can be skipped *)
  assert (Skip : forall b w a, mt (RStar r) b w a -> w = "" \/ exists w1 w2, w = w1 +++ w2 /\ w1 <> "" /\ mt r b w1 (w2 +++ a) /\ mt (RStar r) (b +++ w1) w2 a).
  { intros b w a H. remember (RStar r) as rs eqn:E. induction H; try discriminate.
    - now left.
    - injection E as ->. destruct w1 as [|c w1].
      + specialize (IHmt2 eq_refl). cbn [String.append]. rewrite app_nil_r_s in *. exact IHmt2.
      + right. exists (String c w1), w2. repeat split; auto. discriminate. }
  induction n as [|n IHn]; intros b s Hn t.
  - destruct s as [|c s]; [|cbn in Hn; lia]. cbn. split.
    + intros [<-|[]]. exists "". split; [reflexivity | constructor].
    + intros (w & E & _). destruct w; [|discriminate]. now left.
  - cbn [star_rests]. split.
    + intros [<-|H].
      * exists "". split; [reflexivity | constructor].
      * apply in_flat_map in H as (u & Hu & H). destruct (String.length u <? String.length s) eqn:L; [|destruct H].
        apply Nat.ltb_lt in L. apply IH in Hu as (w1 & -> & M1).
        assert (Ew : is_empty (b +++ w1) = false) by (rewrite is_empty_app; destruct w1; [cbn in L; lia | apply andb_false_r]).
        rewrite <- Ew in H. apply IHn in H as (w2 & -> & M2); [|lia].
        exists (w1 +++ w2). split; [now rewrite app_assoc_s | econstructor; eassumption].
    + intros (w & -> & M). apply Skip in M as [->|(w1 & w2 & -> & Hne & M1 & M2)]; [now left|]. right.
      apply in_flat_map. exists (w2 +++ t). split.
      * apply IH. exists w1. split; [now rewrite app_assoc_s | exact M1].
      * rewrite !app_len. assert (0 < String.length w1) by (destruct w1; [congruence | cbn; lia]).
        rewrite !app_len in Hn.
        replace (String.length w2 + String.length t <? String.length w1 + String.length w2 + String.length t) with true by (symmetry; apply Nat.ltb_lt; lia).
        assert (Ew : is_empty (b +++ w1) = false) by (rewrite is_empty_app; destruct w1; [congruence | apply andb_false_r]).
        rewrite <- Ew. apply IHn; [rewrite app_len; lia|]. exists w2. split; [reflexivity | exact M2].
Qed.

Theorem rests_iff r : forall b s t, In t (rests r (is_empty b) s) <-> exists w, s = w +++ t /\ mt r b w t.
Proof.
  induction r as [c| |neg items| | | |r1 IH1 r2 IH2|r1 IH1 r2 IH2|r IH|r IH|r IH]; intros b s t; cbn [rests].
  - split.
    + destruct s as [|d s]; [intros []|]. destruct (Ascii.eqb_spec c d) as [<-|]; [|intros []]. intros [<-|[]]. exists (str1 c). split; [reflexivity | constructor].
    + intros (w & -> & H). inversion H; subst. cbn. rewrite Ascii.eqb_refl. now left.
  - split.
    + destruct s as [|d s]; [intros []|]. destruct (Ascii.eqb_spec d newline) as [|N]; [intros []|]. intros [<-|[]]. exists (str1 d). split; [reflexivity | now constructor].
    + intros (w & -> & H). inversion H; subst. cbn [str1 String.append]. destruct (Ascii.eqb_spec c newline); [contradiction|]. now left.
  - split.
    + destruct s as [|d s]; [intros []|]. destruct (Bool.eqb (in_items d items) neg) eqn:E; [intros []|]. intros [<-|[]]. exists (str1 d). split; [reflexivity|].
      constructor. destruct (in_items d items), neg; (reflexivity || discriminate).
    + intros (w & -> & H). inversion H; subst. cbn [str1 String.append]. rewrite H5. destruct neg; now left.
  - split; [intros [<-|[]]; exists ""; split; [reflexivity | constructor] | intros (w & -> & H); inversion H; subst; now left].
  - split.
    + destruct b; [|intros []]. intros [<-|[]]. exists "". split; [reflexivity | constructor].
    + intros (w & -> & H). inversion H; subst. now left.
  - split.
    + destruct s; [|intros []]. intros [<-|[]]. exists "". split; [reflexivity | constructor].
    + intros (w & -> & H). inversion H; subst. now left.
  - rewrite in_flat_map. split.
    + intros (u & Hu & Ht). apply IH1 in Hu as (w1 & -> & M1).
      rewrite (app_same_len w1 u _ eq_refl) in Ht. replace (is_empty b && match w1 with "" => true | _ => false end) with (is_empty (b +++ w1)) in Ht by apply is_empty_app.
      apply IH2 in Ht as (w2 & -> & M2). exists (w1 +++ w2). split; [now rewrite app_assoc_s | now constructor].
    + intros (w & -> & H). inversion H; subst. exists (w2 +++ t). split; [apply IH1; exists w1; split; [now rewrite app_assoc_s | assumption]|].
      rewrite (app_same_len w1 (w2 +++ t)) by now rewrite app_assoc_s.
      replace (is_empty b && match w1 with "" => true | _ => false end) with (is_empty (b +++ w1)) by apply is_empty_app.
      apply IH2. exists w2. auto.
  - rewrite in_app_iff, IH1, IH2. split.
    + intros [(w & -> & M)|(w & -> & M)]; exists w; (split; [reflexivity|]); [now apply mt_alt1 | now apply mt_alt2].
    + intros (w & -> & M). inversion M; subst; eauto.
  - change (In t (star_rests (rests r) (String.length s) (is_empty b) s) <-> exists w, s = w +++ t /\ mt (RStar r) b w t). now apply star_iff.
  - change (In t (flat_map (fun u => star_rests (rests r) (String.length u) (is_empty b && (String.length u =? String.length s)) u) (rests r (is_empty b) s)) <->
      exists w, s = w +++ t /\ mt (RPlus r) b w t).
    rewrite in_flat_map. split.
    + intros (u & Hu & Ht). apply IH in Hu as (w1 & -> & M1).
      rewrite (app_same_len w1 u _ eq_refl) in Ht. replace (is_empty b && match w1 with "" => true | _ => false end) with (is_empty (b +++ w1)) in Ht by apply is_empty_app.
      apply star_iff in Ht as (w2 & -> & M2); [|exact IH | reflexivity]. exists (w1 +++ w2). split; [now rewrite app_assoc_s | now constructor].
    + intros (w & -> & H). inversion H; subst. exists (w2 +++ t). split; [apply IH; exists w1; split; [now rewrite app_assoc_s | assumption]|].
      rewrite (app_same_len w1 (w2 +++ t)) by now rewrite app_assoc_s.
      replace (is_empty b && match w1 with "" => true | _ => false end) with (is_empty (b +++ w1)) by apply is_empty_app.
      apply star_iff; [exact IH | reflexivity |]. exists w2. auto.
  - split.
    + intros [<-|H]; [exists ""; split; [reflexivity | constructor]|]. apply IH in H as (w & -> & M). exists w. split; [reflexivity | now apply mt_opt1].
    + intros (w & -> & M). inversion M; subst; [now left|]. right. apply IH. eauto.
Qed.

Theorem search_iff r s : forall b, re_search r (is_empty b) s = true <-> exists p w a, s = p +++ w +++ a /\ mt r (b +++ p) w a.
Proof.
  induction s as [|c s IH]; intro b; cbn [re_search].
  - destruct (rests r (is_empty b) "") as [|u l] eqn:E.
    + split; [discriminate|]. intros (p & w & a & Es & M). destruct p; [|discriminate]. destruct w; [|discriminate]. destruct a; [|discriminate].
      rewrite app_nil_r_s in M. assert (H : In "" (rests r (is_empty b) "")) by (apply rests_iff; exists ""; auto). rewrite E in H. destruct H.
    + split; [|reflexivity]. intros _. assert (H : In u (rests r (is_empty b) "")) by (rewrite E; now left). apply rests_iff in H as (w & Es & M).
      exists "", w, u. rewrite app_nil_r_s. auto.
  - destruct (rests r (is_empty b) (String c s)) as [|u l] eqn:E.
    + specialize (IH (b +++ str1 c)). rewrite is_empty_app in IH. cbn [str1 is_empty] in IH. rewrite andb_false_r in IH. rewrite IH. split.
      * intros (p & w & a & -> & M). exists (String c p), w, a. split; [reflexivity|]. rewrite app_assoc_s in M. exact M.
      * intros (p & w & a & Es & M). destruct p as [|d p].
        -- exfalso. rewrite app_nil_r_s in M. cbn [String.append] in Es. assert (H : In a (rests r (is_empty b) (String c s))) by (apply rests_iff; exists w; auto). rewrite E in H. destruct H.
        -- cbn [String.append] in Es. injection Es as <- ->. exists p, w, a. split; [reflexivity|]. rewrite app_assoc_s. exact M.
    + split; [|reflexivity]. intros _. assert (H : In u (rests r (is_empty b) (String c s))) by (rewrite E; now left). apply rests_iff in H as (w & Es & M).
      exists "", w, u. rewrite app_nil_r_s. auto.
Qed.
Theorem match_iff r s : match_string r s = true <-> exists p w a, s = p +++ w +++ a /\ mt r p w a.
Proof. exact (search_iff r s ""). Qed.
