(** oapi.Format: the JSON, pretty and Go outputs. *)
From Coq Require Import String Ascii List Bool Arith ZArith Permutation Sorted Lia.
From Verif Require Import GoStr GoStrFacts Json JsonFacts Gabs Container MergeFacts ContFacts Spec_Clone Spec_Go Spec_Format JsonText JsonTextFacts JsonReadFacts JsonFormatFacts JsonPretty JsonChars.
Import ListNotations.
Local Open Scope string_scope.
Local Open Scope nat_scope.
Local Open Scope list_scope.

Lemma plain_quotable c : quotable c = true <-> plain_byte c.
Proof.
  unfold quotable, plain_byte. set (n := nat_of_ascii c). cbn [In].
  rewrite negb_true_iff, !orb_false_iff, andb_false_iff, !Nat.ltb_ge, !Nat.eqb_neq, Nat.leb_gt.
  split; intro H; lia.
Qed.
Lemma plain_all k : all quotable k = true <-> plain_key k.
Proof.
  unfold plain_key. induction k as [|a k IH]; cbn [all has_char].
  - split; [discriminate | reflexivity].
  - rewrite andb_true_iff, IH. split.
    + intros (A & B) c H. apply orb_true_iff in H as [H|H]; [apply Ascii.eqb_eq in H; subst; now apply plain_quotable | now apply B].
    + intro H. split; [apply plain_quotable, H; now rewrite Ascii.eqb_refl | intros c Hc; apply H; now rewrite Hc, orb_true_r].
Qed.
Lemma plain_forall m : Forall (fun kv : string * json => all quotable (fst kv) = true) m <-> plain_root (JObj m).
Proof.
  rewrite Forall_forall. unfold plain_root. split.
  - intros H m' k v E I. injection E as <-. apply plain_all. exact (H (k, v) I).
  - intros H [k v] I. apply plain_all. now apply (H m k v).
Qed.
Lemma parse_json : parse_fmt "json" = FJson. Proof. reflexivity. Qed.

(** ** Numbers that cannot be written *)
Lemma marshal_cases pn j : (exists t, marshal pn j = Ok t) \/ marshal pn j = Err.
Proof.
  induction j as [|b|n'|s|l IH|m IH] using json_induction; cbn [marshal]; try (left; eexists; reflexivity).
  - destruct b; left; eexists; reflexivity.
  - destruct (pn n') as [t|]; [left; now exists t | now right].
  - match goal with |- (exists t, bind ?X _ = _) \/ _ => assert (E : (exists ts, X = Ok ts) \/ X = Err); [|destruct E as [(ts & E)|E]; rewrite E; [left; eexists; reflexivity | now right]] end.
    induction IH as [|x l Hx _ IHl]; [left; eexists; reflexivity|].
    destruct Hx as [(t & ->)| ->]; [|now right]. destruct IHl as [(ts & E)|E]; cbn [bind]; rewrite E; [left; eexists; reflexivity | now right].
  - match goal with |- (exists t, bind ?X _ = _) \/ _ => assert (E : (exists ts, X = Ok ts) \/ X = Err); [|destruct E as [(ts & E)|E]; rewrite E; [left; eexists; reflexivity | now right]] end.
    induction IH as [|[k x] l Hx _ IHl]; [left; eexists; reflexivity|]. cbn [snd] in Hx.
    destruct Hx as [(t & ->)| ->]; [|now right]. destruct IHl as [(ts & E)|E]; cbn [bind]; rewrite E; [left; eexists; reflexivity | now right].
Qed.
Lemma marshal_bad pn j n : In n (numbers j) -> pn n = None -> marshal pn j = Err.
Proof.
  intros I P. revert I. induction j as [|b|n'|s|l IH|m IH] using json_induction; intro I; try now destruct I.
  - destruct I as [->|[]]. cbn [marshal]. now rewrite P.
  - cbn [marshal].
    match goal with |- bind ?X _ = _ => assert (E : X = Err); [|now rewrite E] end.
    induction IH as [|x l Hx _ IHl]; [now destruct I|]. apply numbers_arr in I as [I|I].
    + now rewrite (Hx I).
    + destruct (marshal_cases pn x) as [(t & ->)| ->]; cbn [bind]; [now rewrite (IHl I) | reflexivity].
  - cbn [marshal].
    match goal with |- bind ?X _ = _ => assert (E : X = Err); [|now rewrite E] end.
    induction IH as [|[k x] l Hx _ IHl]; [now destruct I|]. cbn [snd] in Hx. apply numbers_obj in I as [I|I].
    + now rewrite (Hx I).
    + destruct (marshal_cases pn x) as [(t & ->)| ->]; cbn [bind]; [now rewrite (IHl I) | reflexivity].
Qed.
Lemma items_bad pn l n : In n (numbers (JObj l)) -> pn n = None -> marshal_items pn l = Err.
Proof.
  intros I P. induction l as [|[k x] l IH]; [now destruct I|]. cbn [marshal_items]. apply numbers_obj in I as [I|I].
  - now rewrite (marshal_bad pn x n I P).
  - destruct (marshal_cases pn x) as [(t & ->)| ->]; cbn [bind]; [now rewrite (IH I) | reflexivity].
Qed.
Lemma numbers_perm l m n : Permutation l m -> In n (numbers (JObj l)) -> In n (numbers (JObj m)).
Proof.
  induction 1 as [|[k x] l l' P IH|[k x] [k' y] l|l l' l'' P1 IH1 P2 IH2]; auto; rewrite ?numbers_obj; tauto.
Qed.

Section Format.
  Context (pn : num -> option string) (rd : string -> option num) (yaml : json -> res string)
          (ord : list (string * json) -> list (string * json)) (srt1 srt2 : list map_item -> list map_item).
  Hypothesis Hord : forall l, Permutation (ord l) l.
  Hypothesis Hs1 : is_item_sort srt1.
  Hypothesis Hs2 : is_item_sort srt2.
  Local Notation fmt := (format pn rd yaml ord srt1 srt2).

  Theorem format_reads j : wf j -> (forall n, In n (numbers j) -> num_ok pn rd n) -> plain_root j ->
    exists t p, fmt "json" j = Ok t /\ read_json rd t = Some j /\ fmt "json:pretty" j = Ok p /\ read_json rd p = Some j.
  Proof.
    intros Hw Hn Hk. destruct (marshal_sorted_ok pn rd ord srt1 srt2 Hord Hs1 Hs2 oapi_order j Hw Hn) as (t & E & L).
    { intros m ->. now apply plain_forall. }
    exists t, (indent_json "  " t). unfold format, parse_fmt. cbn [String.eqb]. change (String.eqb _ _) with false.
    cbn. rewrite E. cbn [bind]. repeat split.
    - exact (read_json_layout rd tight tight_ws j t L).
    - now apply indent_reads.
  Qed.
  Theorem format_fails j : wf j -> (forall n t, In n (numbers j) -> pn n = Some t -> is_number t = true /\ rd t = Some n) ->
    (fmt "json" j = Err <-> (exists n, In n (numbers j) /\ pn n = None) \/ ~ plain_root j) /\
    (fmt "json" j = Err <-> fmt "json:pretty" j = Err) /\ (fmt "json" j = Err <-> fmt "go" j = Err).
  Proof.
    intros Hw Hn. assert (A : (exists n, In n (numbers j) /\ pn n = None) \/ forall n, In n (numbers j) -> num_ok pn rd n).
    { clear Hw. induction (numbers j) as [|n l IH]; [now right|]. destruct (pn n) as [t|] eqn:E.
      - destruct IH as [(n' & I & N)|IH]; [intros n' t' I; apply Hn; now right| |].
        + left. exists n'. split; [now right | exact N].
        + right. intros n' [<-|I]; [|now apply IH]. exists t. destruct (Hn n t (or_introl eq_refl) E). auto.
      - left. exists n. split; [now left | exact E]. }
    assert (B : plain_root j \/ ~ plain_root j).
    { destruct j as [|b|n|s|l|m]; try (left; intros ? ? ?; discriminate). rewrite <- plain_forall.
      destruct (forallb (fun kv => all quotable (fst kv)) m) eqn:E.
      - left. apply Forall_forall. now apply forallb_forall.
      - right. rewrite Forall_forall. intro H. apply forallb_forall in H. congruence. }
    assert (C : ((exists n, In n (numbers j) /\ pn n = None) \/ ~ plain_root j) -> marshal_sorted pn rd ord srt1 srt2 oapi_order j = Err).
    { intros [(n & I & N)|K].
      - destruct j as [|b|n'|s|l|m]; cbn [marshal_sorted]; try now apply (marshal_bad pn _ n).
        unfold marshal_slice. rewrite (items_bad pn _ n); [reflexivity | | exact N].
        apply (numbers_perm m); [|exact I]. apply Permutation_sym. now destruct (sort_entries_spec ord srt1 srt2 oapi_order m Hord Hs1 Hs2).
      - destruct A as [(n & I & N)|A].
        + destruct j as [|b|n'|s|l|m]; cbn [marshal_sorted]; try now apply (marshal_bad pn _ n).
          unfold marshal_slice. rewrite (items_bad pn _ n); [reflexivity | | exact N].
          apply (numbers_perm m); [|exact I]. apply Permutation_sym. now destruct (sort_entries_spec ord srt1 srt2 oapi_order m Hord Hs1 Hs2).
        + destruct j as [|b|n|s|l|m]; try (elim K; intros ? ? ?; discriminate).
          apply marshal_sorted_bad_key; auto. now rewrite plain_forall. }
    assert (D : (exists t, marshal_sorted pn rd ord srt1 srt2 oapi_order j = Ok t) \/ marshal_sorted pn rd ord srt1 srt2 oapi_order j = Err).
    { destruct A as [A|A]; [right; auto|]. destruct B as [B|B]; [|right; auto]. left.
      destruct (marshal_sorted_ok pn rd ord srt1 srt2 Hord Hs1 Hs2 oapi_order j Hw A) as (t & E & _); [|now exists t].
      intros m ->. now apply plain_forall. }
    change (fmt "json" j) with (marshal_sorted pn rd ord srt1 srt2 oapi_order j).
    change (fmt "json:pretty" j) with (do s <- marshal_sorted pn rd ord srt1 srt2 oapi_order j; Ok (indent_json "  " s)).
    change (fmt "go" j) with (do s <- marshal_sorted pn rd ord srt1 srt2 oapi_order j; Ok (go_file "main" s)).
    split; [|destruct D as [(t & ->)| ->]; cbn [bind]; split; split; congruence].
    split; [|exact C]. intro E. destruct A as [A|A]; [now left|]. destruct B as [B|B]; [|now right]. exfalso.
    destruct (marshal_sorted_ok pn rd ord srt1 srt2 Hord Hs1 Hs2 oapi_order j Hw A) as (t & E' & _); [|congruence].
    intros m ->. now apply plain_forall.
  Qed.
End Format.

(** ** The Go file *)
Lemma raw_app a r : has_char "`" a = false -> has_char "013" a = false -> raw_literal (a +++ String "`" r) = Some (a, r).
Proof.
  induction a as [|c a IH]; intros H1 H2; [reflexivity|]. cbn [has_char] in H1, H2. apply orb_false_iff in H1 as (A1 & B1). apply orb_false_iff in H2 as (A2 & B2).
  cbn [append raw_literal]. rewrite (Ascii.eqb_sym c "`"), A1, (IH B1 B2), (Ascii.eqb_sym c "013"), A2. reflexivity.
Qed.
Lemma first_char c s : has_char c s = true -> exists a b, s = a +++ String c b /\ has_char c a = false.
Proof.
  induction s as [|d s IH]; [discriminate|]. cbn [has_char]. destruct (Ascii.eqb_spec c d) as [->|Ne]; intro H.
  - now exists "", s.
  - destruct (IH H) as (a & b & -> & N). exists (String d a), b. split; [reflexivity|]. cbn [has_char]. now rewrite N, (proj2 (Ascii.eqb_neq c d) Ne).
Qed.
Lemma declared pkg t : has_char "`" pkg = false -> declares (go_file pkg t) (t +++ String BQ NL).
Proof.
  intro H. set (h1 := "// Code generated by oapi-go, DO NOT EDIT." +++ NL +++ "package "). set (h2 := NL +++ NL +++ "// OpenAPIJsonSpec is json generated specification produced " +++ NL +++ "// by oapi-go tool." +++ NL).
  exists (h1 +++ pkg +++ h2). split.
  - change (go_file pkg t) with ((h1 +++ pkg +++ (h2 +++ "const OpenAPIJsonSpec = ")) +++ String BQ (t +++ String BQ NL)). rewrite !app_assoc_s. reflexivity.
  - rewrite has_char_app, has_char_app, H. reflexivity.
Qed.

Section Go.
  Context (pn : num -> option string) (rd : string -> option num) (yaml : json -> res string)
          (ord : list (string * json) -> list (string * json)) (srt1 srt2 : list map_item -> list map_item).
  Hypothesis Hord : forall l, Permutation (ord l) l.
  Hypothesis Hs1 : is_item_sort srt1.
  Hypothesis Hs2 : is_item_sort srt2.
  Hypothesis Hpn : forall n t, pn n = Some t -> is_number t = true.
  Local Notation fmt := (format pn rd yaml ord srt1 srt2).
  Let Hpn' : forall n t, pn n = Some t -> all num_char t = true.
  Proof. intros n t H. exact (proj1 (number_chars t (Hpn n t H))). Qed.
  Lemma line_sep_parts a b c e : line_sep a b c = Some e -> a = chr 226 /\ b = chr 128 /\ ((c = chr 168 /\ e = String BS "u2028") \/ (c = chr 169 /\ e = String BS "u2029")).
  Proof. apply line_sep_inv. Qed.

  Lemma text_cr j t : fmt "json" j = Ok t -> has_char "013" t = false.
  Proof.
    intro E. change (fmt "json" j) with (marshal_sorted pn rd ord srt1 srt2 oapi_order j) in E.
    rewrite (hit_sorted "013" (fun _ => false)) with (7 := Hpn') (11 := E); auto.
    - unfold hit. induction (strings j) as [|s l IH]; [reflexivity|]. cbn [existsb]. rewrite IH, orb_false_r. induction s; auto.
    - intro a. apply negb_true_iff. revert a. bytes.
    - intro a. apply negb_true_iff. revert a. bytes.
    - intros a b c e H. apply line_sep_inv in H as (-> & -> & [(-> & ->)|(-> & ->)]); repeat split.
    - intro a. apply Bool.eqb_prop. revert a. bytes.
  Qed.
  Lemma text_bq j t : fmt "json" j = Ok t -> has_char "`" t = existsb (has_char "`") (strings j).
  Proof.
    intro E. change (fmt "json" j) with (marshal_sorted pn rd ord srt1 srt2 oapi_order j) in E.
    rewrite (hit_sorted "`" (fun a => Ascii.eqb "`" a)) with (7 := Hpn') (11 := E); auto.
    - unfold hit. induction (strings j) as [|s l IH]; [reflexivity|]. cbn [existsb]. now rewrite IH, any_eqb.
    - intro a. apply Bool.eqb_prop. revert a. bytes.
    - intro a. apply Bool.eqb_prop. revert a. bytes.
    - intros a b c e H. apply line_sep_inv in H as (-> & -> & [(-> & ->)|(-> & ->)]); repeat split.
    - intro a. apply Bool.eqb_prop. revert a. bytes.
  Qed.

  Theorem go_constant j t : fmt "json" j = Ok t ->
    exists file lit, fmt "go" j = Ok file /\ declares file lit /\
      ((forall s, In s (strings j) -> has_char "`" s = false) -> raw_literal lit = Some (t, NL)) /\
      ((exists s, In s (strings j) /\ has_char "`" s = true) ->
        exists a b, t = a +++ String "`" b /\ raw_literal lit = Some (a, b +++ String "`" NL)).
  Proof.
    intro E. exists (go_file "main" t), (t +++ String BQ NL). split; [|split; [now apply declared|]].
    { change (fmt "json" j) with (marshal_sorted pn rd ord srt1 srt2 oapi_order j) in E.
      change (fmt "go" j) with (do s <- marshal_sorted pn rd ord srt1 srt2 oapi_order j; Ok (go_file "main" s)). now rewrite E. }
    pose proof (text_cr j t E) as Hcr. pose proof (text_bq j t E) as Hbq. split; intro H.
    - apply raw_app; [|exact Hcr]. rewrite Hbq. destruct (existsb (has_char "`") (strings j)) eqn:X; [|reflexivity].
      apply existsb_exists in X as (s & I & Hs). now rewrite (H s I) in Hs.
    - apply existsb_exists in H. rewrite H in Hbq. destruct (first_char _ _ Hbq) as (a & b & -> & N). exists a, b. split; [reflexivity|].
      rewrite app_assoc_s. cbn [append]. apply raw_app; [exact N|]. rewrite has_char_app in Hcr. now apply orb_false_iff in Hcr.
  Qed.
End Go.
