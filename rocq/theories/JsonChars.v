(** Which bytes occur in the text of a document. *)
From Coq Require Import String Ascii List Bool Arith ZArith Permutation Sorted Lia.
From Verif Require Import GoStr GoStrFacts Json JsonFacts Gabs Container MergeFacts ContFacts Spec_Clone Spec_Go JsonText JsonTextFacts JsonReadFacts JsonFormatFacts.
Import ListNotations.
Local Open Scope string_scope.
Local Open Scope nat_scope.
Local Open Scope list_scope.

Fixpoint any (p : ascii -> bool) (s : string) : bool := match s with EmptyString => false | String c r => p c || any p r end.

Section Chars.
  Context (x : ascii) (p : ascii -> bool).
  Hypothesis Hj : forall a, has_char x (jesc1 a) = p a.
  Hypothesis Hg : forall a, has_char x (gquote1 a) = p a.
  Hypothesis Hs : forall a b c e, line_sep a b c = Some e -> p a = false /\ p b = false /\ p c = false /\ has_char x e = false /\ has_char x (String a (String b (str1 c))) = false.
  Hypothesis Hh : forall a, has_char x (html1 a) = has_char x (str1 a).
  Hypothesis Hn : num_char x = false.
  Hypothesis Hc : has_char x (String DQ ",:[]{}nulltruefalse") = false.

  Lemma any_jesc s : has_char x (escape_by jesc1 s) = any p s.
  Proof.
    induction s as [|a s H IH|a b c s e H IH] using esc_ind; [reflexivity| |].
    - rewrite (esc_cons _ _ _ H), has_char_app, Hj, IH. reflexivity.
    - rewrite (esc_sep _ _ _ _ _ _ H), has_char_app, IH. destruct (Hs _ _ _ _ H) as (A & B & C & D & _). cbn [any]. now rewrite A, B, C, D.
  Qed.
  Lemma any_gquote s : has_char x (gquote_body s) = any p s.
  Proof. induction s as [|a s IH]; [reflexivity|]. cbn [gquote_body any]. now rewrite has_char_app, Hg, IH. Qed.
  Lemma any_html t : has_char x (escape_by html1 t) = has_char x t.
  Proof.
    induction t as [|a t H IH|a b c t e H IH] using esc_ind; [reflexivity| |].
    - rewrite (esc_cons _ _ _ H), has_char_app, Hh, IH. change (String a t) with (str1 a +++ t). now rewrite has_char_app.
    - rewrite (esc_sep _ _ _ _ _ _ H), has_char_app, IH. destruct (Hs _ _ _ _ H) as (_ & _ & _ & D & E).
      change (String a (String b (String c t))) with (String a (String b (str1 c)) +++ t). now rewrite has_char_app, D, E.
  Qed.
  Lemma any_num t : all num_char t = true -> has_char x t = false.
  Proof.
    induction t as [|c t IH]; intro H; [reflexivity|]. cbn [all] in H. apply andb_true_iff in H as (A & B). cbn [has_char]. rewrite (IH B), orb_false_r.
    destruct (Ascii.eqb_spec x c); [congruence|]. try reflexivity. 
  Qed.
  Lemma hit_punct s : (forall c, has_char c s = true -> has_char c (String DQ ",:[]{}nulltruefalse") = true) -> has_char x s = false.
  Proof. intro H. destruct (has_char x s) eqn:E; [|reflexivity]. rewrite (H x E) in Hc. discriminate. Qed.
  Lemma hit_sub s : forallb (fun n => implb (has_char (chr n) s) (has_char (chr n) (String DQ ",:[]{}nulltruefalse"))) (seq 0 256) = true -> has_char x s = false.
  Proof.
    intro H. apply hit_punct. intros c Hx. pose proof (by_byte (fun c => implb (has_char c s) (has_char c (String DQ ",:[]{}nulltruefalse"))) H c) as K. cbn beta in K. now rewrite Hx in K.
  Qed.
  Lemma hit_join ts b : (forall t, In t ts -> has_char x t = true -> b = true) -> (b = true -> exists t, In t ts /\ has_char x t = true) -> has_char x (join "," ts) = b.
  Proof.
    assert (C : has_char x "," = false) by (apply hit_sub; vm_compute; reflexivity).
    assert (K : has_char x (join "," ts) = existsb (has_char x) ts).
    { induction ts as [|t ts IH]; [reflexivity|]. rewrite join_cons. destruct ts as [|t' ts]; [cbn; now rewrite orb_false_r|].
      rewrite has_char_app. change (String "," (join "," (t' :: ts))) with ("," +++ join "," (t' :: ts)). rewrite has_char_app, C, IH. reflexivity. }
    intros H1 H2. rewrite K. destruct b.
    - apply existsb_exists. now apply H2.
    - destruct (existsb (has_char x) ts) eqn:E; [|reflexivity]. apply existsb_exists in E as (t & A & B). now specialize (H1 t A B).
  Qed.

  Context (pn : num -> option string) (rd : string -> option num).
  Hypothesis Hpn : forall n t, pn n = Some t -> all num_char t = true.
  Definition hit (j : json) : bool := existsb (any p) (strings j).
  Lemma hit_bracket a b ts v : has_char x (str1 a) = false -> has_char x (str1 b) = false -> has_char x (join "," ts) = v -> has_char x (bracket a ts b) = v.
  Proof.
    intros A B J. unfold bracket. change (String a (join "," ts +++ str1 b)) with (str1 a +++ join "," ts +++ str1 b). rewrite !has_char_app, A, B, J. now rewrite orb_false_r.
  Qed.
  Lemma hit_jquote s : has_char x (jquote s) = any p s.
  Proof.
    assert (Q : has_char x (str1 DQ) = false) by (apply hit_sub; vm_compute; reflexivity).
    unfold jquote. change (String DQ (escape_by jesc1 s +++ str1 DQ)) with (str1 DQ +++ escape_by jesc1 s +++ str1 DQ). rewrite !has_char_app, Q, any_jesc. now rewrite orb_false_r.
  Qed.
  Lemma hit_gquote s : has_char x (gquote s) = any p s.
  Proof.
    assert (Q : has_char x (str1 DQ) = false) by (apply hit_sub; vm_compute; reflexivity).
    unfold gquote. change (String DQ (gquote_body s +++ str1 DQ)) with (str1 DQ +++ gquote_body s +++ str1 DQ). rewrite !has_char_app, Q, any_gquote. now rewrite orb_false_r.
  Qed.
  Lemma hit_member q k t v : has_char x q = any p k -> has_char x t = v -> has_char x (q +++ ":" +++ t) = any p k || v.
  Proof.
    assert (C : has_char x ":" = false) by (apply hit_sub; vm_compute; reflexivity).
    intros Q T. rewrite has_char_app, has_char_app, C, Q, T. reflexivity.
  Qed.
  Lemma has_join ts : has_char x (join "," ts) = existsb (has_char x) ts.
  Proof.
    apply hit_join.
    - intros t H1 H2. apply existsb_exists. now exists t.
    - intro H. now apply existsb_exists in H.
  Qed.
  Lemma hit_marshal j : forall t, marshal pn j = Ok t -> has_char x t = hit j.
  Proof.
    induction j as [|b|n|s|l IH|m IH] using json_induction; intros t E; cbn [marshal] in E.
    - injection E as <-. apply hit_sub. vm_compute. reflexivity.
    - destruct b; injection E as <-; apply hit_sub; vm_compute; reflexivity.
    - destruct (pn n) as [t'|] eqn:En; [|discriminate]. injection E as <-. now apply any_num, (Hpn n).
    - injection E as <-. rewrite hit_jquote. unfold hit. cbn. now rewrite orb_false_r.
    - apply bind_ok in E as (ts & Et & E). injection E as <-. apply hit_bracket; try (apply hit_sub; vm_compute; reflexivity). rewrite has_join. unfold hit.
      revert ts Et. induction IH as [|y l Hy F IHl]; intros ts Et; [injection Et as <-; reflexivity|].
      apply bind_ok in Et as (ty & Ey & Et). apply bind_ok in Et as (ts' & Es & Et). injection Et as <-. cbn [existsb strings]. rewrite existsb_app.
      rewrite (Hy ty Ey). unfold hit. f_equal. exact (IHl ts' Es).
    - apply bind_ok in E as (ts & Et & E). injection E as <-. apply hit_bracket; try (apply hit_sub; vm_compute; reflexivity). rewrite has_join. unfold hit.
      revert ts Et. induction IH as [|[k y] m Hy F IHm]; intros ts Et; [injection Et as <-; reflexivity|].
      apply bind_ok in Et as (ty & Ey & Et). apply bind_ok in Et as (ts' & Es & Et). injection Et as <-. cbn [snd] in Hy.
      pose proof (hit_member (jquote k) k ty (hit y) (hit_jquote k) (Hy ty Ey)) as M.
      transitivity ((any p k || hit y) || existsb (has_char x) ts'); [exact (f_equal (fun b => b || existsb (has_char x) ts') M)|].
      rewrite (IHm ts' Es). cbn [strings existsb]. rewrite existsb_app, <- orb_assoc. reflexivity.
  Qed.
  Lemma hit_items l : forall ts, marshal_items pn l = Ok ts -> existsb (has_char x) ts = existsb (fun kv => any p (fst kv) || hit (snd kv)) l.
  Proof.
    induction l as [|[k y] l IH]; intros ts E; cbn [marshal_items] in E; [injection E as <-; reflexivity|].
    apply bind_ok in E as (ty & Ey & E). apply bind_ok in E as (ts' & Es & E). injection E as <-.
    pose proof (hit_member (gquote k) k ty (hit y) (hit_gquote k) (hit_marshal y ty Ey)) as M.
    transitivity ((any p k || hit y) || existsb (has_char x) ts'); [exact (f_equal (fun b => b || existsb (has_char x) ts') M)|]. now rewrite (IH ts' Es).
  Qed.
  Lemma hit_obj m : hit (JObj m) = existsb (fun kv => any p (fst kv) || hit (snd kv)) m.
  Proof. unfold hit. induction m as [|[k y] m IH]; [reflexivity|]. cbn [strings existsb fst snd]. rewrite existsb_app. rewrite <- orb_assoc. do 2 f_equal. exact IH. Qed.
  Theorem hit_sorted ord srt1 srt2 order j t : (forall l, Permutation (ord l) l) -> is_item_sort srt1 -> is_item_sort srt2 ->
    marshal_sorted pn rd ord srt1 srt2 order j = Ok t -> has_char x t = hit j.
  Proof.
    intros Ho H1 H2 E. destruct j as [|b|n|s|l|m]; cbn [marshal_sorted] in E; try now apply hit_marshal.
    apply bind_ok in E as (s & Es & E). unfold compact in E. destruct (read_json rd s); [|discriminate]. injection E as <-. rewrite any_html.
    unfold marshal_slice in Es. apply bind_ok in Es as (ts & Et & Es). injection Es as <-.
    apply hit_bracket; try (apply hit_sub; vm_compute; reflexivity). rewrite has_join, (hit_items _ _ Et), hit_obj.
    destruct (sort_entries_spec ord srt1 srt2 order m Ho H1 H2) as (P & _). clear -P. generalize (fun kv : string * json => any p (fst kv) || hit (snd kv)). intro q.
    induction P as [|a l l' P IH|a b l|l l' l'' P1 IH1 P2 IH2]; cbn [existsb]; [reflexivity | now rewrite IH | now rewrite !orb_assoc, (orb_comm (q b)) | congruence].
  Qed.
End Chars.

Lemma any_eqb c s : any (fun a => Ascii.eqb c a) s = has_char c s.
Proof. induction s as [|a s IH]; [reflexivity|]. cbn. now rewrite IH. Qed.
