(** Facts about method prefixes and raw tails of route patterns. *)
From Coq Require Import String Ascii List Bool Arith Lia.
From Verif Require Import GoStr GoStrFacts Json Regex Route Spec_Route RegexFacts RouteFacts.
Import ListNotations.
Local Open Scope string_scope.
Local Open Scope nat_scope.
Local Open Scope list_scope.

Lemma to_lower_app a b : to_lower (a +++ b) = to_lower a +++ to_lower b.
Proof. induction a as [|c a IH]; [reflexivity|]. cbn. now rewrite IH. Qed.
Lemma to_lower_len a : String.length (to_lower a) = String.length a.
Proof. induction a as [|c a IH]; [reflexivity|]. cbn. now rewrite IH. Qed.
Lemma has_prefix_iff p s : has_prefix p s = true <-> exists r, s = p +++ r.
Proof.
  revert s. induction p as [|c p IH]; intro s; [split; [intros _; now exists s|reflexivity]|].
  destruct s as [|d s]; cbn [has_prefix].
  - split; [discriminate | intros [r E]; discriminate].
  - rewrite andb_true_iff, IH. split.
    + intros [Hc [r ->]]. apply Ascii.eqb_eq in Hc as ->. now exists r.
    + intros [r E]. cbn in E. inversion E; subst. split; [apply Ascii.eqb_refl | eauto].
Qed.
Lemma skipn_len a b : skipn_s (String.length a) (a +++ b) = b.
Proof. induction a as [|c a IH]; [reflexivity|]. exact IH. Qed.
Lemma firstn_split n : forall s, n <= String.length s -> exists a b, s = a +++ b /\ String.length a = n.
Proof.
  induction n as [|n IH]; intros s H; [exists "", s; split; reflexivity|].
  destruct s as [|c s]; [cbn in H; lia|]. destruct (IH s ltac:(cbn in H; lia)) as (a & b & -> & E). exists (String c a), b. cbn. rewrite E. auto.
Qed.
Lemma app_inj_len a b c d : String.length a = String.length c -> a +++ b = c +++ d -> a = c /\ b = d.
Proof.
  revert c. induction a as [|x a IH]; intros [|y c] L E; try discriminate L; [auto|].
  cbn in E. assert (x = y) by congruence. assert (E' : a +++ b = c +++ d) by congruence. cbn in L.
  destruct (IH c ltac:(lia) E') as [-> ->]. subst. auto.
Qed.

(** The text before the first ':' is determined. *)
Lemma colon_unique a b r s : has_char ":" a = false -> has_char ":" b = false -> a +++ ":" +++ r = b +++ ":" +++ s -> a = b /\ r = s.
Proof.
  revert b. induction a as [|x a IH]; intros [|y b] Ha Hb E.
  - split; [reflexivity|]. exact (proj2 (scons_inj _ _ _ _ E)).
  - cbn [String.append] in E. apply scons_inj in E as [<- _]. discriminate Hb.
  - cbn [String.append] in E. apply scons_inj in E as [-> _]. discriminate Ha.
  - cbn [has_char] in Ha, Hb. apply orb_false_iff in Ha as [_ Ha]. apply orb_false_iff in Hb as [_ Hb]. cbn [String.append] in E.
    apply scons_inj in E as [E0 E'].
    destruct (IH b Ha Hb E') as [-> ->]. subst. auto.
Qed.
Lemma methods_no_colon : Forall (fun M => has_char ":" (to_lower M) = false) methods.
Proof. repeat constructor. Qed.
Lemma methods_nonempty : Forall (fun M => M <> "") methods.
Proof. repeat constructor; discriminate. Qed.
Lemma colon_lower c : lower_char c = ":"%char -> c = ":"%char.
Proof. destruct c as [[] [] [] [] [] [] [] []]; vm_compute; intro H; try discriminate H; reflexivity. Qed.

Lemma prefix_split M pat : has_prefix (to_lower M +++ ":") (to_lower pat) = true ->
  exists m rest, to_lower m = to_lower M /\ pat = m +++ ":" +++ rest /\ String.length m = String.length M.
Proof.
  intro H. apply has_prefix_iff in H as [r E]. rewrite app_assoc_s in E.
  assert (L : String.length M <= String.length pat).
  { rewrite <- (to_lower_len pat), E, app_len, to_lower_len. lia. }
  destruct (firstn_split _ _ L) as (m & t & -> & Lm). rewrite to_lower_app in E.
  apply app_inj_len in E as [E1 E2]; [|now rewrite !to_lower_len].
  destruct t as [|c t]; [discriminate E2|]. cbn in E2. assert (lower_char c = ":"%char) by congruence.
  apply colon_lower in H as ->. exists m, t. auto.
Qed.

Lemma method_prefix_some M m rest : In M methods -> to_lower m = to_lower M ->
  method_prefix (m +++ ":" +++ rest) = Some (to_lower m, rest).
Proof.
  intros HM Hm. unfold method_prefix. destruct (find _ methods) as [M'|] eqn:F.
  - apply find_some in F as [HM' HP]. apply prefix_split in HP as (m' & rest' & E & E' & L).
    pose proof (proj1 (Forall_forall _ _) methods_no_colon) as NC.
    assert (E2 : to_lower m +++ ":" +++ to_lower rest = to_lower m' +++ ":" +++ to_lower rest').
    { apply (f_equal to_lower) in E'. rewrite !to_lower_app in E'. exact E'. }
    apply colon_unique in E2 as [E2 _]; [|rewrite Hm; auto|rewrite E; auto].
    assert (L2 : String.length m = String.length m') by now rewrite <- (to_lower_len m), E2, to_lower_len.
    apply app_inj_len in E' as [-> E'']; [|exact L2]. f_equal. f_equal; [congruence|].
    rewrite <- L. replace (String.length m' + 1) with (String.length (m' +++ ":")) by now rewrite app_len.
    change (m' +++ ":" +++ rest) with (m' +++ (":" +++ rest)). rewrite <- app_assoc_s. apply skipn_len.
  - pose proof (find_none _ _ F M HM) as N. cbn beta in N. rewrite <- Hm, to_lower_app in N.
    assert (has_prefix (to_lower m +++ ":") (to_lower m +++ to_lower (":" +++ rest)) = true).
    { apply has_prefix_iff. exists (to_lower rest). now rewrite app_assoc_s. }
    congruence.
Qed.
Lemma method_prefix_none pat : ~ names_method methods pat -> method_prefix pat = None.
Proof.
  intro N. unfold method_prefix. destruct (find _ methods) as [M|] eqn:F; [|reflexivity]. exfalso. apply N.
  apply find_some in F as [HM HP]. apply prefix_split in HP as (m & rest & E & E' & _). exists M, m, rest. auto.
Qed.
Lemma slash_names_no_method s : ~ names_method methods ("/" +++ s).
Proof.
  intros (M & m & rest & HM & Hm & E). destruct m as [|c m]; [discriminate E|]. cbn in E. assert (c = "/"%char) by congruence. subst.
  unfold methods in HM. cbn [In] in HM. repeat (destruct HM as [<-|HM]; [discriminate Hm|]). exact HM.
Qed.

Theorem with_method M m rest method path : In M methods -> to_lower m = to_lower M -> ~ names_method methods rest ->
  route_match (m +++ ":" +++ rest) method path =
    if String.eqb method "" || String.eqb (to_lower method) (to_lower M) then route_match rest "" path else Ok false.
Proof.
  intros HM Hm N. unfold route_match. rewrite (method_prefix_some M m rest HM Hm), (method_prefix_none _ N).
  assert (Hne : String.eqb (to_lower m) "" = false).
  { rewrite Hm. apply String.eqb_neq. intro E. pose proof (proj1 (Forall_forall _ _) methods_nonempty M HM). apply H.
    destruct M; [reflexivity | discriminate E]. }
  rewrite Hne. unfold equal_fold.
  assert (Hll : forall s, to_lower (to_lower s) = to_lower s).
  { induction s as [|c s IH]; [reflexivity|]. cbn. rewrite IH. f_equal. clear. destruct c as [[] [] [] [] [] [] [] []]; reflexivity. }
  rewrite Hll, Hm. rewrite (String.eqb_sym (to_lower M)). cbn [String.eqb negb andb].
  destruct (String.eqb method ""), (String.eqb (to_lower method) (to_lower M)); reflexivity.
Qed.
Theorem without_method pat method method' path : ~ names_method methods pat -> route_match pat method path = route_match pat method' path.
Proof. intro N. unfold route_match. rewrite (method_prefix_none _ N). reflexivity. Qed.

(** ** tails that do not compile *)
Lemma compile_pieces ps t : compile_route (regex_text ps t) =
  do p <- parse_run (t +++ "$") (push_list (RBegin :: pieces_re ps) pstart); pfinish p.
Proof.
  unfold compile_route, re_compile. cbn [String.append parse_run]. cbn [step step_text pstart ps_mode Ascii.eqb Bool.eqb bind].
  assert (E : regex_text ps t +++ "$" = regex_text ps (t +++ "$")).
  { clear. induction ps as [|[l w] ps IH]; [reflexivity|]. cbn [regex_text]. now rewrite !app_assoc_s, IH. }
  now rewrite E, parse_pieces by reflexivity.
Qed.
Lemma parse_run_app a b : forall p, no_special a = true -> ps_mode p = MText -> parse_run (a +++ b) p = parse_run b (push_list (chars a) p).
Proof.
  induction a as [|c a IH]; intros p Ha Hm; [reflexivity|]. cbn [no_special] in Ha. apply andb_true_iff in Ha as [Hc Ha]. apply negb_true_iff in Hc.
  cbn [String.append parse_run chars]. unfold step. rewrite Hm, (step_text_plain c _ p Hc). cbn [bind]. now rewrite IH.
Qed.
Lemma push_list_outer l : forall p, ps_outer (push_list l p) = ps_outer p.
Proof. induction l as [|r l IH]; intro p; [reflexivity|]. cbn. fold (push_list l (push r p)). now rewrite IH. Qed.
Definition in_class (p : pstate) : Prop := match ps_mode p with MClass _ _ _ _ _ => True | _ => False end.
Definition class_char (c : ascii) : Prop := c <> "\"%char /\ c <> "["%char /\ c <> "]"%char.
Lemma class_step c r p : in_class p -> class_char c -> step c r p = Err \/ exists p', step c r p = Ok p' /\ in_class p'.
Proof.
  intros Hp (H1 & H2 & H3). destruct p as [cu o rp m]. unfold in_class in Hp. cbn in Hp. destruct m as [| |neg items last dash st]; try easy.
  unfold step. cbn [ps_mode]. unfold step_class.
  apply Ascii.eqb_neq in H1 as ->. apply Ascii.eqb_neq in H2 as ->. apply Ascii.eqb_neq in H3 as ->. cbn [andb]. rewrite andb_false_r.
  destruct (negb st && negb neg && Ascii.eqb c "^"); [right; eexists; split; [reflexivity|exact I]|].
  destruct (Ascii.eqb c "-" && _); [right; eexists; split; [reflexivity|exact I]|].
  destruct last as [a|]; [|right; eexists; split; [reflexivity|exact I]].
  destruct dash; [|right; eexists; split; [reflexivity|exact I]].
  destruct (_ <? _); [now left|]. right; eexists; split; [reflexivity|exact I].
Qed.
Fixpoint all_class (s : string) : Prop := match s with EmptyString => True | String c r => class_char c /\ all_class r end.
Lemma class_run s : forall p, in_class p -> all_class s -> (do q <- parse_run s p; pfinish q) = Err.
Proof.
  induction s as [|c s IH]; intros p Hp H.
  - cbn. unfold pfinish. unfold in_class in Hp. now destruct (ps_mode p).
  - destruct H as [Hc Hs]. cbn [parse_run]. destruct (class_step c s p Hp Hc) as [->|(p' & -> & Hp')]; [reflexivity|]. cbn [bind]. now apply IH.
Qed.
Lemma no_special_class s : no_special s = true -> all_class s.
Proof.
  induction s as [|c s IH]; intro H; [exact I|]. cbn [no_special] in H. apply andb_true_iff in H as [Hc Hs]. split; [|auto].
  apply negb_true_iff in Hc. repeat split; intros ->; discriminate Hc.
Qed.
Lemma all_class_app a b : all_class a -> all_class b -> all_class (a +++ b).
Proof. induction a as [|c a IH]; [auto|]. intros [H1 H2] Hb. split; auto. Qed.

Lemma translate_acc_lit t : literal t -> forall acc, translate_from 0 acc t = acc +++ t.
Proof. apply translate_tail. Qed.

Theorem unbalanced ps a c b method path : ok_pieces ps -> no_special a = true -> no_special b = true ->
  c = "("%char \/ c = ")"%char \/ c = "["%char -> ~ names_method methods (pattern_text ps (a +++ str1 c +++ b)) ->
  route_match (pattern_text ps (a +++ str1 c +++ b)) method path = Err.
Proof.
  intros Hps Ha Hb Hc N. unfold route_match. rewrite (method_prefix_none _ N). cbn [String.eqb negb andb].
  assert (Lit : literal (a +++ str1 c +++ b)).
  { assert (G : forall x, x = "{"%char \/ x = "*"%char -> has_char x (a +++ str1 c +++ b) = false).
    { intros x Hx. assert (Hsx : is_special x = true) by (destruct Hx as [-> | ->]; reflexivity).
      assert (HA : forall u v, has_char x (u +++ v) = has_char x u || has_char x v).
      { clear. induction u as [|y u IH]; intro v; [reflexivity|]. cbn. rewrite IH. now rewrite orb_assoc. }
      rewrite !HA, (special_absent x a Hsx Ha), (special_absent x b Hsx Hb), orb_false_r. cbn [orb].
      destruct Hx as [-> | ->], Hc as [-> |[-> | ->]]; reflexivity. }
    split; apply G; auto. }
  rewrite (translate_pattern ps _ Hps (translate_tail _ Lit)). rewrite compile_pieces. rewrite !app_assoc_s.
  set (p0 := push_list _ _). assert (M0 : ps_mode p0 = MText) by (apply push_list_mode; reflexivity).
  rewrite parse_run_app by assumption. set (p1 := push_list (chars a) p0).
  assert (M1 : ps_mode p1 = MText) by now apply push_list_mode.
  assert (O1 : ps_outer p1 = []) by (unfold p1, p0; now rewrite !push_list_outer).
  destruct Hc as [-> |[-> | ->]]; unfold str1; cbn [String.append parse_run]; unfold step at 1; rewrite M1; cbn [step_text Ascii.eqb Bool.eqb].
  - (* ( *)
    assert (Q : match b +++ "$" with String "?" _ => True | _ => False end -> False).
    { destruct b as [|y b]; [cbn; easy|]. cbn [String.append]. cbn [no_special] in Hb. apply andb_true_iff in Hb as [Hy _]. apply negb_true_iff in Hy.
      destruct y as [[] [] [] [] [] [] [] []]; try (exact (fun h => h)). discriminate Hy. }
    set (q := {| ps_cur := _; ps_outer := _; ps_rep := _; ps_mode := _ |}).
    match goal with |- context [bind (match ?u with _ => _ end)] => assert (E : match u with String "?" _ => OutOfFuel | _ => Ok q end = Ok q) end.
    { destruct (b +++ "$") as [|y z]; [reflexivity|]. destruct y as [[] [] [] [] [] [] [] []]; try reflexivity. destruct (Q I). }
    rewrite E. cbn [bind]. rewrite parse_run_app by (assumption || reflexivity). cbn [parse_run]. unfold step. rewrite push_list_mode by reflexivity.
    cbn [step_text Ascii.eqb Bool.eqb bind]. unfold pfinish. cbn [push ps_mode ps_outer]. rewrite push_list_outer. unfold q. cbn [ps_outer]. reflexivity.
  - rewrite O1. reflexivity.
  - cbn [bind]. rewrite class_run; [reflexivity| exact I |]. apply all_class_app; [now apply no_special_class|]. repeat split; discriminate.
Qed.

(** ** alternatives in the tail *)
Theorem alternatives t1 t2 method path : no_special t1 = true -> no_special t2 = true -> ~ names_method methods (t1 +++ "|" +++ t2) ->
  exists b, route_match (t1 +++ "|" +++ t2) method path = Ok b /\ (b = true <-> (exists r, path = t1 +++ r) \/ (exists r, path = r +++ t2)).
Proof.
  intros H1 H2 N. unfold route_match. rewrite (method_prefix_none _ N). cbn [String.eqb negb andb].
  destruct (no_special_literal t1 H1) as [L1 _]. destruct (no_special_literal t2 H2) as [L2 _].
  assert (Ht : translate (t1 +++ "|" +++ t2) = t1 +++ "|" +++ t2).
  { unfold translate. rewrite translate_lit by exact L1. cbn [String.append]. change (String "|" t2) with ("|" +++ t2).
    rewrite translate_lit by (split; reflexivity). rewrite <- (app_nil_r_s t2) at 1. rewrite translate_lit by exact L2. cbn [translate_from]. now rewrite app_assoc_s. }
  rewrite Ht. change (t1 +++ "|" +++ t2) with (regex_text [] (t1 +++ "|" +++ t2)). rewrite compile_pieces. cbn [pieces_re push_list fold_left].
  rewrite !app_assoc_s, parse_run_app by (assumption || reflexivity). cbn [String.append parse_run].
  set (p1 := push_list (chars t1) (push RBegin pstart)).
  assert (E1 : p1 = {| ps_cur := {| fr_alts := None; fr_cat := rev (RBegin :: chars t1) |}; ps_outer := []; ps_rep := RepNone; ps_mode := MText |}).
  { unfold p1. rewrite push_list_eq. destruct (chars t1); reflexivity. }
  rewrite E1. unfold step at 1. cbn [ps_mode step_text Ascii.eqb Bool.eqb bind ps_cur ps_outer]. rewrite parse_run_app by (assumption || reflexivity).
  match goal with |- context [push_list (chars t2) ?q] => assert (E2 : push_list (chars t2) q =
    {| ps_cur := {| fr_alts := Some (close {| fr_alts := None; fr_cat := rev (RBegin :: chars t1) |}); fr_cat := rev (chars t2) |}; ps_outer := []; ps_rep := RepNone; ps_mode := MText |}) end.
  { rewrite push_list_eq. destruct (chars t2); [reflexivity|]. cbn [ps_cur fr_cat fr_alts ps_outer]. now rewrite app_nil_r. }
  cbn [parse_run].
  rewrite E2. cbn [step step_text ps_mode Ascii.eqb Bool.eqb bind]. unfold pfinish. cbn [push ps_mode ps_outer ps_cur fr_alts fr_cat]. cbn [bind].
  eexists. split; [reflexivity|]. rewrite match_iff. unfold close at 1. cbn [fr_alts fr_cat]. unfold close. cbn [fr_alts fr_cat]. rewrite !cat_of_seq. rewrite rev_involutive. cbn [rev]. rewrite rev_involutive.
  split.
  - intros (p & w & a & -> & H). inversion H; subst.
    + left. match goal with H : mt (RCat _ _) _ _ _ |- _ => rename H into H7 end. apply (mt_seq (RBegin :: chars t1)) in H7. apply mts_cons_inv in H7 as (w1 & w2 & -> & A & B). apply mt_begin_inv in A as [-> ->]. apply mts_chars in B as ->. exists a. reflexivity.
    + right. match goal with H : mt (seq _) _ _ _ |- _ => rename H into H7 end. apply mt_seq in H7. apply mts_app in H7 as (w1 & w2 & -> & A & B). apply mts_chars in A as ->. apply mts_cons_inv in B as (v1 & v2 & -> & B & C).
      apply mts_nil_inv in C as ->. cbn [String.append] in B. apply mt_end_inv in B as [-> ->]. exists p. now rewrite !app_nil_r_s.
  - intros [[r ->]|[r ->]].
    + exists "", t1, r. split; [reflexivity|]. apply mt_alt1, mt_seq. change t1 with ("" +++ t1) at 2. constructor; [constructor|]. now apply mts_chars.
    + exists r, t2, "". rewrite app_nil_r_s. split; [reflexivity|]. apply mt_alt2, mt_seq, mts_app. exists t2, "". rewrite !app_nil_r_s. split; [reflexivity|]. split; [now apply mts_chars|].
      apply (mts_cons REnd [] "" "" (r +++ t2) ""); constructor.
Qed.

(** ** {x} with a one-letter name is not a variable *)
Theorem short_name a c method path : no_special a = true -> is_lower c = true -> ~ names_method methods (a +++ "{" +++ str1 c +++ "}") ->
  route_match (a +++ "{" +++ str1 c +++ "}") method path = Ok (String.eqb path (a +++ "{" +++ str1 c +++ "}")).
Proof.
  intros Ha Hc N. set (tail := a +++ "{" +++ str1 c +++ "}").
  assert (Hs : is_special c = false) by (clear -Hc; destruct c as [[] [] [] [] [] [] [] []]; try discriminate Hc; reflexivity).
  assert (HT : forall acc, translate_from 0 acc tail = acc +++ tail).
  { intro acc. destruct (no_special_literal a Ha) as [Hl _]. unfold tail. rewrite translate_lit by exact Hl. cbn [String.append translate_from str1].
    assert (E1 : var_at (String "{" (String c "}")) = None) by (cbn [var_at Ascii.eqb Bool.eqb]; now rewrite Hc).
    rewrite E1. rewrite var_at_other; [|destruct (Ascii.eqb_spec "{" c) as [<-|]; [discriminate Hs|reflexivity] | destruct (Ascii.eqb_spec "*" c) as [<-|]; [discriminate Hs|reflexivity]].
    cbn [var_at Ascii.eqb Bool.eqb]. now rewrite !app_assoc_s. }
  assert (Hcomp : re_compile tail = Ok (seq (chars tail))).
  { unfold re_compile, tail. rewrite parse_run_app by (assumption || reflexivity). unfold str1. cbn [String.append parse_run]. set (p1 := push_list (chars a) pstart).
    assert (M1 : ps_mode p1 = MText) by now apply push_list_mode. unfold step at 1. rewrite M1. cbn [step_text Ascii.eqb Bool.eqb].
    assert (counted (String c "}") = false) as ->.
    { cbn [counted]. assert (is_digit c = false) as ->; [|reflexivity]. clear -Hc. destruct c as [[] [] [] [] [] [] [] []]; try discriminate Hc; reflexivity. }
    cbn [bind parse_run]. unfold step at 1. cbn [ps_mode push]. rewrite (step_text_plain c _ _ Hs). cbn [bind parse_run]. unfold step. cbn [ps_mode push step_text Ascii.eqb Bool.eqb bind].
    assert (E : p1 = push_list (chars a) pstart) by reflexivity. rewrite push_list_eq in E.
    unfold pfinish. cbn [push ps_mode ps_outer ps_cur fr_alts fr_cat]. assert (O1 : ps_outer p1 = []) by (unfold p1; now rewrite push_list_outer). rewrite O1. f_equal. unfold close. cbn [ps_cur fr_alts fr_cat].
    assert (A1 : fr_alts (ps_cur p1) = None) by (rewrite E; destruct (chars a); reflexivity). rewrite A1, cat_of_seq. f_equal. cbn [rev].
    assert (C1 : rev (fr_cat (ps_cur p1)) = chars a) by (rewrite E; destruct (chars a) as [|r l]; [reflexivity|]; cbn [ps_cur fr_cat pstart]; rewrite app_nil_r; apply rev_involutive).
    rewrite C1. clear. induction a as [|x a IH]; [reflexivity|]. cbn in *. now rewrite IH. }
  assert (Hbar : has_char "|" tail = false).
  { unfold tail. assert (HA : forall u v, has_char "|" (u +++ v) = has_char "|" u || has_char "|" v).
    { clear. induction u as [|y u IH]; intro v; [reflexivity|]. cbn. rewrite IH. now rewrite orb_assoc. }
    rewrite HA, (proj2 (no_special_literal a Ha)). unfold str1. cbn [String.append has_char orb]. assert (Ascii.eqb "|" c = false) as -> by (apply Ascii.eqb_neq; intros <-; discriminate Hs). reflexivity. }
  destruct (match_raw_gen [] tail _ path method ltac:(constructor) HT Hbar Hcomp (method_prefix_none _ N)) as (b & E & Hiff).
  cbn [pattern_text fold_right] in E. rewrite E. f_equal.
  apply Bool.eq_iff_eq_true. rewrite Hiff, String.eqb_eq. split.
  - intro H. inversion H; subst. apply mt_seq, mts_chars in H0. exact H0.
  - intros ->. constructor. apply mt_seq, mts_chars. reflexivity.
Qed.
