(** Compiling the regular expressions of Spec_Tail.v. *)
From Coq Require Import String Ascii List Bool Arith Lia.
From Verif Require Import GoStr Json Regex Route GoStrFacts RegexFacts RouteFacts RouteMethod Spec_Route Spec_Tail.
Import ListNotations.
Local Open Scope string_scope.
Local Open Scope nat_scope.
Local Open Scope list_scope.

Definition st (alts : option re) (l : list re) (outer : list frame) (rp : rep) : pstate :=
  {| ps_cur := {| fr_alts := alts; fr_cat := l |}; ps_outer := outer; ps_rep := rp; ps_mode := MText |}.
Definition ct (alts : option re) (l : list re) (outer : list frame) neg items last dash started : pstate :=
  {| ps_cur := {| fr_alts := alts; fr_cat := l |}; ps_outer := outer; ps_rep := RepNone; ps_mode := MClass neg items last dash started |}.

(** ** Characters *)
Lemma text_char c r p : is_ascii c && negb (among c "\.+*?()|[{^$") = true -> step_text c r p = Ok (push (RChar c) p).
Proof.
  intro H. apply andb_true_iff in H as [_ H]. apply negb_true_iff in H. unfold among in H. cbn [has_char] in H. rewrite !orb_false_iff in H.
  destruct H as (H1 & H2 & H3 & H4 & H5 & H6 & H7 & H8 & H9 & H10 & H11 & H12 & _).
  unfold step_text. rewrite H6, H7, H8, H4, H3, H5, H10, H2, H11, H12, H1, H9. reflexivity.
Qed.
Lemma class_char_ne c : class_ok c = true -> Ascii.eqb c "\" = false /\ Ascii.eqb c "[" = false /\ Ascii.eqb c "]" = false /\ Ascii.eqb c "^" = false /\ Ascii.eqb c "-" = false.
Proof.
  intro H. unfold class_ok in H. apply andb_true_iff in H as [_ H]. apply negb_true_iff in H. unfold among in H. cbn [has_char] in H. rewrite !orb_false_iff in H.
  destruct H as (H1 & H2 & H3 & H4 & H5 & _). auto.
Qed.

(** ** Classes *)
Lemma run_class_char c rest alts l outer neg items last dash started : class_ok c = true ->
  parse_run (String c rest) (ct alts l outer neg items last dash started) =
  match last, dash with
  | Some a, true => if nat_of_ascii c <? nat_of_ascii a then Err else parse_run rest (ct alts l outer neg ((a, c) :: items) None false true)
  | Some a, false => parse_run rest (ct alts l outer neg ((a, a) :: items) (Some c) false true)
  | None, _ => parse_run rest (ct alts l outer neg items (Some c) false true)
  end.
Proof.
  intro H. destruct (class_char_ne c H) as (H1 & H2 & H3 & H4 & H5). cbn [parse_run]. unfold step. cbn [ps_mode ct]. unfold step_class. rewrite H1, H2, H3, H4, H5. cbn [andb].
  rewrite !andb_false_r. destruct last as [a|]; [destruct dash|]; try reflexivity. destruct (_ <? _); reflexivity.
Qed.
Definition cov (items : list (ascii * ascii)) (last : option ascii) (c : ascii) : Prop := in_items c (flush items last false) = true.
Lemma ascii_le_antisym a c : nat_of_ascii a <= nat_of_ascii c -> nat_of_ascii c <= nat_of_ascii a -> c = a.
Proof. intros A B. assert (E : nat_of_ascii c = nat_of_ascii a) by lia. rewrite <- (ascii_nat_embedding c), <- (ascii_nat_embedding a), E. reflexivity. Qed.
Lemma in_items_cons c a b l : in_items c ((a, b) :: l) = true <-> nat_of_ascii a <= nat_of_ascii c <= nat_of_ascii b \/ in_items c l = true.
Proof. unfold in_items. cbn [existsb fst snd]. rewrite orb_true_iff, andb_true_iff, !Nat.leb_le. reflexivity. Qed.
Lemma one_item c a : nat_of_ascii a <= nat_of_ascii c <= nat_of_ascii a <-> c = a.
Proof. split; [intros [A B]; exact (ascii_le_antisym a c A B) | intros ->; lia]. Qed.
Lemma cov_some items a c : cov items (Some a) c <-> c = a \/ in_items c items = true.
Proof. unfold cov, flush. cbn [app]. rewrite in_items_cons, one_item. reflexivity. Qed.
Definition in_item (i : citem) (c : ascii) : Prop := match i with COne d => c = d | CRange a b => nat_of_ascii a <= nat_of_ascii c <= nat_of_ascii b end.

Definition keep (items : list (ascii * ascii)) (last : option ascii) : list (ascii * ascii) := match last with Some a => (a, a) :: items | None => items end.
Lemma in_keep items last c : in_items c (keep items last) = true <-> cov items last c.
Proof. destruct last as [a|]; [cbn [keep]; rewrite in_items_cons, one_item, cov_some; reflexivity | reflexivity]. Qed.
Fixpoint add_items (its : list citem) (items : list (ascii * ascii)) (last : option ascii) : list (ascii * ascii) * option ascii :=
  match its with
  | [] => (items, last)
  | COne c :: r => add_items r (keep items last) (Some c)
  | CRange a b :: r => add_items r ((a, b) :: keep items last) None
  end.
Lemma run_items its : forall rest alts l outer neg items last started, forallb item_ok its = true ->
  parse_run (items_text its +++ rest) (ct alts l outer neg items last false started) =
  parse_run rest (ct alts l outer neg (fst (add_items its items last)) (snd (add_items its items last)) false (started || match its with [] => false | _ => true end)).
Proof.
  induction its as [|i its IH]; intros rest alts l outer neg items last started H; [cbn; now rewrite orb_false_r|].
  cbn [forallb] in H. apply andb_true_iff in H as [Hi H]. cbn [items_text]. rewrite app_assoc_s, orb_true_r. destruct i as [c0|a b]; cbn [item_text item_ok add_items] in *.
  - change (str1 c0 +++ items_text its +++ rest) with (String c0 (items_text its +++ rest)). rewrite run_class_char by exact Hi.
    pose proof (IH rest alts l outer neg (keep items last) (Some c0) true H) as E. cbn [orb] in E. destruct last; exact E.
  - apply andb_true_iff in Hi as [Hi Hle]. apply andb_true_iff in Hi as [Ha Hb]. apply Nat.leb_le in Hle.
    change (String a (String "-" (str1 b)) +++ items_text its +++ rest) with (String a (String "-" (String b (items_text its +++ rest)))). rewrite run_class_char by exact Ha.
    assert (E1 : parse_run (String "-" (String b (items_text its +++ rest))) (ct alts l outer neg (keep items last) (Some a) false true) = parse_run (items_text its +++ rest) (ct alts l outer neg ((a, b) :: keep items last) None false true)).
    { change (parse_run (String b (items_text its +++ rest)) (ct alts l outer neg (keep items last) (Some a) true true) = parse_run (items_text its +++ rest) (ct alts l outer neg ((a, b) :: keep items last) None false true)).
      rewrite run_class_char by exact Hb. assert (nat_of_ascii b <? nat_of_ascii a = false) as -> by (apply Nat.ltb_ge; exact Hle). reflexivity. }
    pose proof (IH rest alts l outer neg ((a, b) :: keep items last) None true H) as E. cbn [orb] in E. rewrite <- E, <- E1. destruct last; reflexivity.
Qed.
Lemma add_cov its : forall items last c, cov (fst (add_items its items last)) (snd (add_items its items last)) c <-> cov items last c \/ exists i, In i its /\ in_item i c.
Proof.
  induction its as [|i its IH]; intros items last c; [cbn; split; [auto|]; intros [A|(i & [] & _)]; exact A|].
  destruct i as [c0|a b]; cbn [add_items]; rewrite IH.
  - rewrite cov_some, in_keep. split.
    + intros [[->|A]|(i & I & A)]; [right; exists (COne c0); split; [now left | reflexivity] | auto | right; exists i; split; [now right | exact A]].
    + intros [A|(i & [<-|I] & A)]; [auto | cbn in A; subst; auto | right; eauto].
  - unfold cov at 1. cbn [flush]. rewrite in_items_cons, in_keep. split.
    + intros [[A|A]|(i & I & A)]; [right; exists (CRange a b); split; [now left | exact A] | auto | right; exists i; split; [now right | exact A]].
    + intros [A|(i & [<-|I] & A)]; [auto | cbn in A; auto | right; eauto].
Qed.
(** What is in the brackets. *)
Definition cls_items (k : cls) : list (ascii * ascii) :=
  let l := add_items (k_items k) [] (if k_bracket k then Some "]"%char else None) in
  if k_dash k then match snd l with Some a => flush (fst l) (Some a) true | None => flush (fst l) (Some "-"%char) false end else flush (fst l) (snd l) false.
Lemma cls_items_in k c : in_items c (cls_items k) = true <-> in_class k c.
Proof.
  pose proof (add_cov (k_items k) [] (if k_bracket k then Some "]"%char else None) c) as C. unfold cls_items, in_class. set (l := add_items _ _ _) in *.
  assert (W : cov [] (if k_bracket k then Some "]"%char else None) c <-> k_bracket k = true /\ c = "]"%char).
  { destruct (k_bracket k); [rewrite cov_some; cbn; split; [intros [A|A]; [auto | discriminate] | tauto]|]. unfold cov. cbn. split; [discriminate | intros [A _]; discriminate]. }
  rewrite W in C. assert (X : in_items c (if k_dash k then match snd l with Some a => flush (fst l) (Some a) true | None => flush (fst l) (Some "-"%char) false end else flush (fst l) (snd l) false) = true <-> (k_dash k = true /\ c = "-"%char) \/ cov (fst l) (snd l) c).
  { destruct (k_dash k); [|unfold cov; split; [auto | intros [[A _]|A]; [discriminate | exact A]]].
    destruct (snd l) as [a|].
    - unfold flush. cbn [app]. rewrite !in_items_cons, !one_item, cov_some. tauto.
    - unfold flush. cbn [app]. rewrite in_items_cons, one_item. unfold cov, flush. tauto. }
  rewrite X, C. unfold in_item. tauto.
Qed.
Lemma run_close alts l outer neg items last dash rest :
  parse_run (String "]" rest) (ct alts l outer neg items last dash true) = parse_run rest (st alts (RSet neg (flush items last dash) :: l) outer RepNone).
Proof. reflexivity. Qed.
Lemma run_cls k alts l outer rp rest : cls_ok k = true ->
  parse_run (cls_text k +++ rest) (st alts l outer rp) = parse_run rest (st alts (RSet (k_neg k) (cls_items k) :: l) outer RepNone).
Proof.
  intro H. unfold cls_ok in H. apply andb_true_iff in H as [Ne H]. unfold cls_text. rewrite !app_assoc_s.
  set (T := items_text (k_items k) +++ (if k_dash k then "-" else "") +++ "]" +++ rest).
  assert (A : parse_run ("[" +++ (if k_neg k then "^" else "") +++ (if k_bracket k then "]" else "") +++ T) (st alts l outer rp) =
    parse_run ((if k_bracket k then "]" else "") +++ T) (ct alts l outer (k_neg k) [] None false false)) by (destruct (k_neg k); reflexivity).
  rewrite A. clear A.
  assert (B : parse_run ((if k_bracket k then "]" else "") +++ T) (ct alts l outer (k_neg k) [] None false false) =
    parse_run T (ct alts l outer (k_neg k) [] (if k_bracket k then Some "]"%char else None) false (k_bracket k))) by (destruct (k_bracket k); [destruct (k_neg k)|]; reflexivity).
  rewrite B. clear B. unfold T. rewrite run_items by exact H.
  assert (Si : k_dash k = true \/ k_bracket k || match k_items k with [] => false | _ => true end = true).
  { destruct (k_bracket k); [auto|]. destruct (k_dash k); [auto|]. destruct (k_items k); [discriminate|]. auto. }
  clear T H Ne. unfold cls_items. set (a := add_items _ _ _) in *. set (sd := k_bracket k || _) in *. clearbody sd a.
  destruct (k_dash k).
  - change ("-" +++ "]" +++ rest) with (String "-" (String "]" rest)). destruct a as [its [x|]]; cbn [fst snd].
    + destruct sd, (k_neg k); reflexivity.
    + destruct sd, (k_neg k); reflexivity.
  - destruct Si as [Si|Si]; [discriminate|]. rewrite Si. cbn [String.append]. destruct a as [its o]. reflexivity.
Qed.

(** ** Iteration *)
Lemma star_repeated x (P : string -> string -> string -> Prop) : (forall b w a, mt x b w a <-> P b w a) -> forall b w a, mt (RStar x) b w a <-> repeated P b w a.
Proof.
  intros H b w a. split.
  - intro M. remember (RStar x) as y eqn:E. induction M; try discriminate; injection E as ->; [constructor|]. constructor; [now apply H | auto].
  - intro M. induction M; [constructor|]. constructor; [now apply H | assumption].
Qed.

(** ** All of it *)
Definition no_question (s : string) : Prop := match s with String "?" _ => False | _ => True end.
Lemma question_app s t : no_question s -> no_question t -> no_question (s +++ t).
Proof. destruct s as [|c s]; [intros _ H; exact H | intros H _; exact H]. Qed.
Lemma not_question c s : Ascii.eqb c "?" = false -> no_question (String c s).
Proof. intro H. cbn. destruct c as [[] [] [] [] [] [] [] []]; try exact Logic.I. discriminate. Qed.
Lemma atom_text r : rx_ok 0 r = true -> exists c s, rx_text r = String c s /\ Ascii.eqb c "?" = false.
Proof.
  destruct r; cbn [rx_ok rx_text]; intro H; try discriminate; try (eexists _, _; split; reflexivity).
  apply andb_true_iff in H as [_ H]. apply negb_true_iff in H. unfold among in H. cbn [has_char] in H. rewrite !orb_false_iff in H. exists c, "". split; [reflexivity|]. apply H.
Qed.
Lemma no_question_ok r : forall n, rx_ok n r = true -> no_question (rx_text r).
Proof.
  induction r as [|c|c| | | |k|r IH|r IH o lazy|r IHr s IHs|r IHr s IHs]; intros n H; try exact Logic.I.
  - destruct (atom_text (XChar c) H) as (d & s & -> & N). now apply not_question.
  - cbn [rx_ok] in H. apply andb_true_iff in H as [_ H]. destruct (atom_text r H) as (d & s & E & N). cbn [rx_text]. rewrite E. now apply not_question.
  - cbn [rx_ok] in H. apply andb_true_iff in H as [H Hs]. apply andb_true_iff in H as [_ Hr]. apply question_app; [exact (IHr _ Hr) | exact (IHs _ Hs)].
  - cbn [rx_ok] in H. apply andb_true_iff in H as [H Hs]. apply andb_true_iff in H as [_ Hr]. apply question_app; [exact (IHr _ Hr) | exact Logic.I].
Qed.
Definition as_atom (r : rx) : Prop := exists x, (forall alts l outer rp rest, parse_run (rx_text r +++ rest) (st alts l outer rp) = parse_run rest (st alts (x :: l) outer RepNone)) /\
  forall b w a, mt x b w a <-> means r b w a.
Definition as_cat (r : rx) : Prop := exists L, (forall alts l outer rp rest, exists rp', parse_run (rx_text r +++ rest) (st alts l outer rp) = parse_run rest (st alts (L ++ l) outer rp')) /\
  forall b w a, mts (rev L) b w a <-> means r b w a.
Definition as_alt (r : rx) : Prop := exists (F : option re -> option re) L,
  (forall alts outer rp rest, exists rp', parse_run (rx_text r +++ rest) (st alts [] outer rp) = parse_run rest (st (F alts) L outer rp')) /\
  forall alts b w a, mt (close {| fr_alts := F alts; fr_cat := L |}) b w a <-> (match alts with Some x => mt x b w a | None => False end) \/ means r b w a.
Lemma mts_one x b w a : mts [x] b w a <-> mt x b w a.
Proof.
  split.
  - intro H. apply mts_cons_inv in H as (w1 & w2 & -> & H & H2). apply mts_nil_inv in H2 as ->. now rewrite app_nil_r_s in *.
  - intro H. rewrite <- (app_nil_r_s w). constructor; [exact H | constructor].
Qed.
Lemma atom_cat r : as_atom r -> as_cat r.
Proof. intros (x & E & M). exists [x]. split; [intros; exists RepNone; apply E|]. intros b w a. cbn [rev app]. rewrite mts_one. apply M. Qed.
Lemma close_mt alts L b w a : mt (close {| fr_alts := alts; fr_cat := L |}) b w a <-> (match alts with Some x => mt x b w a | None => False end) \/ mts (rev L) b w a.
Proof.
  unfold close. cbn [fr_alts fr_cat]. rewrite cat_of_seq. destruct alts as [x|].
  - split; [intro H; inversion H; subst; [auto | right; now apply mt_seq] | intros [H|H]; [now apply mt_alt1 | apply mt_alt2; now apply mt_seq]].
  - rewrite mt_seq. tauto.
Qed.
Lemma cat_alt r : as_cat r -> as_alt r.
Proof.
  intros (L & E & M). exists (fun x : option re => x), L. split.
  - intros alts outer rp rest. destruct (E alts [] outer rp rest) as (rp' & E'). exists rp'. rewrite E'. now rewrite app_nil_r.
  - intros alts b w a. rewrite close_mt, M. reflexivity.
Qed.
Lemma run_lazy (lazy : bool) rest alts l outer : exists rp, parse_run ((if lazy then "?" else "") +++ rest) (st alts l outer RepOp) = parse_run rest (st alts l outer rp).
Proof. destruct lazy; [exists RepLazy; reflexivity | exists RepOp; reflexivity]. Qed.
Lemma levels r : (rx_ok 0 r = true -> as_atom r) /\ (rx_ok 2 r = true -> as_cat r) /\ (rx_ok 3 r = true -> as_alt r).
Proof.
  assert (At : forall r, (rx_ok 0 r = rx_ok 2 r) -> (rx_ok 0 r = rx_ok 3 r) -> (rx_ok 0 r = true -> as_atom r) -> (rx_ok 0 r = true -> as_atom r) /\ (rx_ok 2 r = true -> as_cat r) /\ (rx_ok 3 r = true -> as_alt r)).
  { intros q E2 E3 H. rewrite <- E2, <- E3. split; [exact H|]. split; intro O; [apply atom_cat; auto | apply cat_alt, atom_cat; auto]. }
  assert (Ct : forall r, rx_ok 0 r = false -> (rx_ok 2 r = rx_ok 3 r) -> (rx_ok 2 r = true -> as_cat r) -> (rx_ok 0 r = true -> as_atom r) /\ (rx_ok 2 r = true -> as_cat r) /\ (rx_ok 3 r = true -> as_alt r)).
  { intros q E0 E3 H. rewrite <- E3, E0. split; [discriminate|]. split; intro O; [auto | apply cat_alt; auto]. }
  induction r as [|c|c| | | |k|r IH|r IH o lazy|r IHr s IHs|r IHr s IHs].
  - apply Ct; try reflexivity. intros _. exists []. split; [intros; exists rp; reflexivity|]. intros b w a. cbn. split; [apply mts_nil_inv | intros ->; constructor].
  - apply At; try reflexivity. intro H. exists (RChar c). split.
    + intros. cbn [rx_text]. unfold str1. cbn [String.append parse_run]. unfold step. cbn [ps_mode st]. rewrite (text_char c rest _ H). reflexivity.
    + intros b w a. cbn. split; [apply mt_char_inv | intros ->; constructor].
  - apply At; try reflexivity. intro H. exists (RChar c). split.
    + intros. cbn [rx_ok] in H. apply andb_true_iff in H as [H1 H2]. apply negb_true_iff in H2. unfold is_ascii in H1. 
      change (rx_text (XEsc c) +++ rest) with (String "\" (String c rest)). cbn [parse_run]. change (step "\" (String c rest) (st alts l outer rp)) with (Ok (set_mode MEscape (st alts l outer rp))). cbn [bind].
      unfold step. cbn [ps_mode set_mode]. rewrite H1, H2. reflexivity.
    + intros b w a. cbn. split; [apply mt_char_inv | intros ->; constructor].
  - apply At; try reflexivity. intros _. exists RAny. split; [reflexivity|]. intros b w a. cbn. split.
    + intro H. apply mt_any_inv in H as (c & -> & N). exists c. split; [reflexivity|]. intro E. apply N. unfold newline. now rewrite <- E, ascii_nat_embedding.
    + intros (c & -> & N). constructor. intros ->. apply N. reflexivity.
  - apply At; try reflexivity. intros _. exists RBegin. split; [reflexivity|]. intros b w a. cbn. split; [apply mt_begin_inv | intros [-> ->]; constructor].
  - apply At; try reflexivity. intros _. exists REnd. split; [reflexivity|]. intros b w a. cbn. split; [apply mt_end_inv | intros [-> ->]; constructor].
  - apply At; try reflexivity. intro H. exists (RSet (k_neg k) (cls_items k)). split; [intros; now apply run_cls|]. intros b w a. cbn [means]. split.
    + intro M. apply mt_set_inv in M as (c & -> & E). exists c. split; [reflexivity|]. destruct (k_neg k); cbn in E; [intro N; apply cls_items_in in N; congruence | now apply cls_items_in].
    + intros (c & -> & N). constructor. destruct (k_neg k); cbn; [apply not_true_iff_false; rewrite cls_items_in; exact N | now apply cls_items_in].
  - apply At; try reflexivity. intro H. cbn [rx_ok] in H. destruct IH as (_ & _ & IH). specialize (IH H). unfold as_alt in IH.
    destruct IH as (F & L & E & M). exists (close {| fr_alts := F None; fr_cat := L |}). split; [|intros b w a; rewrite M; cbn; tauto].
    intros. cbn [rx_text]. rewrite !app_assoc_s.
    change ("(" +++ rx_text r +++ ")" +++ rest) with (String "(" (rx_text r +++ String ")" rest)). cbn [parse_run]. 
    assert (S1 : step "(" (rx_text r +++ String ")" rest) (st alts l outer rp) = Ok (st None [] ({| fr_alts := alts; fr_cat := l |} :: outer) RepNone)).
    { pose proof (question_app (rx_text r) (String ")" rest) (no_question_ok r 3 H) Logic.I) as N. unfold step. cbn [ps_mode st step_text Ascii.eqb Bool.eqb]. destruct (rx_text r +++ String ")" rest) as [|[[] [] [] [] [] [] [] []] t]; try reflexivity. destruct N. }
    rewrite S1. cbn [bind]. destruct (E None ({| fr_alts := alts; fr_cat := l |} :: outer) RepNone (String ")" rest)) as (rp' & ->). reflexivity.
  - assert (H1 : rx_ok 1 (XRep r o lazy) = true -> as_cat (XRep r o lazy)).
    { cbn [rx_ok]. intro H. change (rx_ok 0 r = true) in H. destruct IH as (IH & _). destruct (IH H) as (x & E & M).
      exists [match o with OStar => RStar x | OPlus => RPlus x | OOpt => ROpt x end]. split.
      - intros. cbn [rx_text]. rewrite !app_assoc_s, E. destruct (run_lazy lazy rest alts (match o with OStar => RStar x | OPlus => RPlus x | OOpt => ROpt x end :: l) outer) as (rp' & E2). exists rp'. cbn [app]. rewrite <- E2. destruct o; reflexivity.
      - intros b w a. cbn [rev app]. rewrite mts_one. destruct o; cbn [means].
        + apply star_repeated. exact M.
        + split.
          * intro K. apply mt_plus_inv in K as (w1 & w2 & -> & K1 & K2). exists w1, w2. split; [reflexivity|]. split; [now apply M | now apply (star_repeated x)].
          * intros (w1 & w2 & -> & K1 & K2). constructor; [now apply M | now apply (star_repeated x (means r) M)].
        + split; [intro K; inversion K; subst; [auto | right; now apply M] | intros [->|K]; [constructor | apply mt_opt1; now apply M]]. }
    split; [discriminate|]. split; [exact H1 | intro H; apply cat_alt; exact (H1 H)].
  - apply Ct; try reflexivity. cbn [rx_ok]. intro H. apply andb_true_iff in H as [Hr Hs]. destruct IHr as (_ & IHr & _). destruct IHs as (_ & IHs & _).
    destruct (IHr Hr) as (L1 & E1 & M1). destruct (IHs Hs) as (L2 & E2 & M2). exists (L2 ++ L1). split.
    + intros. cbn [rx_text]. rewrite app_assoc_s. destruct (E1 alts l outer rp (rx_text s +++ rest)) as (rp1 & ->). destruct (E2 alts (L1 ++ l) outer rp1 rest) as (rp2 & ->). exists rp2. now rewrite app_assoc.
    + intros b w a. rewrite rev_app_distr, mts_app. cbn [means]. split; intros (w1 & w2 & -> & K1 & K2); exists w1, w2; (split; [reflexivity|]); (split; [now apply M1 | now apply M2]).
  - split; [discriminate|]. split; [discriminate|]. cbn [rx_ok]. intro H. apply andb_true_iff in H as [Hr Hs]. destruct IHr as (_ & _ & IHr). destruct IHs as (_ & _ & IHs).
    destruct (IHr Hr) as (F1 & L1 & E1 & M1). destruct (IHs Hs) as (F2 & L2 & E2 & M2).
    exists (fun x => F2 (Some (close {| fr_alts := F1 x; fr_cat := L1 |}))), L2. split.
    + intros. cbn [rx_text]. rewrite !app_assoc_s. destruct (E1 alts outer rp ("|" +++ rx_text s +++ rest)) as (rp1 & ->).
      change (parse_run ("|" +++ rx_text s +++ rest) (st (F1 alts) L1 outer rp1)) with (parse_run (rx_text s +++ rest) (st (Some (close {| fr_alts := F1 alts; fr_cat := L1 |})) [] outer RepNone)).
      destruct (E2 (Some (close {| fr_alts := F1 alts; fr_cat := L1 |})) outer RepNone rest) as (rp2 & ->). exists rp2. reflexivity.
    + intros alts b w a. rewrite M2, M1. cbn [means]. tauto.
Qed.

(** ** Route patterns *)
Lemma cat_level r : rx_ok 2 r = true -> as_cat r. Proof. apply levels. Qed.
Lemma start_pieces ps t : parse_run (regex_text ps t) (st None [RBegin] [] RepNone) = parse_run t (st None (rev (RBegin :: pieces_re ps)) [] RepNone).
Proof.
  rewrite parse_pieces by reflexivity. rewrite push_list_eq. destruct (pieces_re ps) as [|r l] eqn:E; [reflexivity|].
  cbn [st ps_cur fr_alts fr_cat ps_outer]. reflexivity.
Qed.
Lemma regex_text_app ps t u : regex_text ps t +++ u = regex_text ps (t +++ u).
Proof. induction ps as [|[l w] ps IH]; [reflexivity|]. cbn [regex_text]. now rewrite !app_assoc_s, IH. Qed.
Lemma compile_start ps t : compile_route (regex_text ps t) = do p <- parse_run (t +++ "$") (st None (rev (RBegin :: pieces_re ps)) [] RepNone) ; pfinish p.
Proof. unfold compile_route, re_compile. rewrite regex_text_app, <- start_pieces. reflexivity. Qed.

(** No alternatives: anchored on both sides. *)
Lemma compile_cat ps r L : (forall alts l outer rp rest, exists rp', parse_run (rx_text r +++ rest) (st alts l outer rp) = parse_run rest (st alts (L ++ l) outer rp')) ->
  compile_route (regex_text ps (rx_text r)) = Ok (seq (RBegin :: (pieces_re ps ++ rev L) ++ [REnd])).
Proof.
  intro E. rewrite compile_start. destruct (E None (rev (RBegin :: pieces_re ps)) [] RepNone "$") as (rp & ->).
  change (do p <- parse_run "$" (st None (L ++ rev (RBegin :: pieces_re ps)) [] rp) ; pfinish p) with (Ok (close {| fr_alts := None; fr_cat := REnd :: L ++ rev (RBegin :: pieces_re ps) |})).
  f_equal. unfold close. cbn [fr_alts fr_cat]. rewrite cat_of_seq. f_equal. change (REnd :: L ++ rev (RBegin :: pieces_re ps)) with ((REnd :: L) ++ rev (RBegin :: pieces_re ps)).
  rewrite rev_app_distr, rev_involutive. cbn [rev app]. now rewrite app_assoc.
Qed.
Theorem match_tail ps r path method : ok_pieces ps -> rx_ok 2 r = true -> literal (rx_text r) -> method_prefix (pattern_text ps (rx_text r)) = None ->
  exists b, route_match (pattern_text ps (rx_text r)) method path = Ok b /\ (b = true <-> fits (fun before w => means r before w "") "" ps path).
Proof.
  intros Hps Hr Hl Hm. destruct (cat_level r Hr) as (L & E & M). unfold route_match. rewrite Hm. cbn [String.eqb negb andb].
  rewrite (translate_pattern ps _ Hps (translate_tail _ Hl)), (compile_cat ps r L E). cbn [bind]. eexists. split; [reflexivity|].
  rewrite anchored, mts_app, fits_mts. split; intros (w1 & w2 & -> & H1 & H2); exists w1, w2; rewrite ?app_nil_r_s in *; (split; [reflexivity|]); (split; [exact H1|]); now apply M.
Qed.

(** With alternatives: the first is anchored on the left, the last on the right. *)
Fixpoint bars (l : list rx) : string := match l with [] => "" | r :: l => "|" +++ rx_text r +++ bars l end.
Lemma run_mids mid : forall X outer rest rp L, Forall (fun r => rx_ok 2 r = true) mid -> exists Y,
  parse_run (bars mid +++ String "|" rest) (st X L outer rp) = parse_run rest (st (Some Y) [] outer RepNone) /\
  forall b w a, mt Y b w a <-> mt (close {| fr_alts := X; fr_cat := L |}) b w a \/ exists r, In r mid /\ means r b w a.
Proof.
  induction mid as [|r mid IH]; intros X outer rest rp L H.
  - exists (close {| fr_alts := X; fr_cat := L |}). split; [reflexivity|]. intros b w a. split; [auto|]. intros [K|(r & [] & _)]. exact K.
  - inversion H; subst. destruct (cat_level r) as (L2 & E & M); [assumption|]. cbn [bars]. rewrite !app_assoc_s.
    change (parse_run ("|" +++ rx_text r +++ bars mid +++ String "|" rest) (st X L outer rp)) with (parse_run (rx_text r +++ bars mid +++ String "|" rest) (st (Some (close {| fr_alts := X; fr_cat := L |})) [] outer RepNone)).
    destruct (E (Some (close {| fr_alts := X; fr_cat := L |})) [] outer RepNone (bars mid +++ String "|" rest)) as (rp' & ->).
    destruct (IH (Some (close {| fr_alts := X; fr_cat := L |})) outer rest rp' (L2 ++ []) ltac:(assumption)) as (Y & EY & MY). exists Y. split; [exact EY|]. intros b w a.
    rewrite MY, close_mt, app_nil_r, M. split.
    + intros [[K|K]|(r' & I & K)]; [auto | right; exists r; split; [now left | exact K] | right; exists r'; split; [now right | exact K]].
    + intros [K|(r' & [<-|I] & K)]; [auto | auto | right; eauto].
Qed.
Lemma pieces_after ps : forall b w a a', mts (pieces_re ps) b w a -> mts (pieces_re ps) b w a'.
Proof.
  induction ps as [|[l x] ps IH]; intros b w a a'; cbn [pieces_re].
  - intro H. apply mts_nil_inv in H as ->. constructor.
  - intro H. apply mts_app in H as (w1 & w2 & -> & H1 & H2). apply mts_chars in H1 as ->. apply mts_cons_inv in H2 as (v & w3 & -> & H4 & H5).
    apply mts_app. exists l, (v +++ w3). split; [reflexivity|]. split; [now apply mts_chars|]. constructor; [|exact (IH _ _ _ _ H5)].
    destruct x; [now apply var_mt in H4; apply var_mt | now apply wild_star_mt in H4; apply wild_star_mt].
Qed.
Theorem match_bars ps first mid last path method : ok_pieces ps -> rx_ok 2 first = true -> Forall (fun r => rx_ok 2 r = true) mid -> rx_ok 2 last = true ->
  let tail := rx_text first +++ bars mid +++ "|" +++ rx_text last in literal tail -> method_prefix (pattern_text ps tail) = None ->
  exists b, route_match (pattern_text ps tail) method path = Ok b /\
    (b = true <-> (exists u v, path = u +++ v /\ fits (fun before w => means first before w v) "" ps u) \/
                  (exists r p w a, In r mid /\ path = p +++ w +++ a /\ means r p w a) \/
                  (exists p w, path = p +++ w /\ means last p w "")).
Proof.
  intros Hps Hf Hmid Hlast tail Hl Hm. unfold route_match. rewrite Hm. cbn [String.eqb negb andb].
  rewrite (translate_pattern ps _ Hps (translate_tail _ Hl)), compile_start. unfold tail. rewrite !app_assoc_s.
  destruct (cat_level first Hf) as (L1 & E1 & M1). destruct (E1 None (rev (RBegin :: pieces_re ps)) [] RepNone (bars mid +++ "|" +++ rx_text last +++ "$")) as (rp1 & ->).
  destruct (run_mids mid None [] (rx_text last +++ "$") rp1 (L1 ++ rev (RBegin :: pieces_re ps)) Hmid) as (Y & EY & MY). change ("|" +++ rx_text last +++ "$") with (String "|" (rx_text last +++ "$")). rewrite EY.
  destruct (cat_level last Hlast) as (L2 & E2 & M2). destruct (E2 (Some Y) [] [] RepNone "$") as (rp2 & ->).
  change (do p <- parse_run "$" (st (Some Y) (L2 ++ []) [] rp2) ; pfinish p) with (Ok (close {| fr_alts := Some Y; fr_cat := REnd :: L2 ++ [] |})). cbn [bind].
  eexists. split; [reflexivity|]. rewrite match_iff.
  assert (Q : forall p w a, mt (close {| fr_alts := Some Y; fr_cat := REnd :: L2 ++ [] |}) p w a <->
    (p = "" /\ exists w1 w2, w = w1 +++ w2 /\ mts (pieces_re ps) "" w1 (w2 +++ a) /\ means first w1 w2 a) \/ (exists r, In r mid /\ means r p w a) \/ (a = "" /\ means last p w "")).
  { intros p w a. rewrite close_mt, MY, close_mt. rewrite rev_app_distr, rev_involutive. cbn [app rev]. rewrite app_nil_r.
    assert (A : mts (RBegin :: pieces_re ps ++ rev L1) p w a <-> p = "" /\ exists w1 w2, w = w1 +++ w2 /\ mts (pieces_re ps) "" w1 (w2 +++ a) /\ means first w1 w2 a).
    { split.
      - intro K. apply mts_cons_inv in K as (u1 & u2 & -> & K1 & K2). apply mt_begin_inv in K1 as [-> ->]. apply mts_app in K2 as (w1 & w2 & -> & K2 & K3). split; [reflexivity|].
        exists w1, w2. cbn [String.append] in *. split; [reflexivity|]. split; [exact K2 | now apply M1].
      - intros (-> & w1 & w2 & -> & K2 & K3). apply (mts_cons RBegin _ "" (w1 +++ w2)); [constructor|]. apply mts_app. exists w1, w2. split; [reflexivity|]. split; [exact K2 | now apply M1]. }
    assert (B : mts (rev L2 ++ [REnd]) p w a <-> a = "" /\ means last p w "").
    { rewrite mts_app. split.
      - intros (w1 & w2 & -> & K1 & K2). apply mts_one in K2. apply mt_end_inv in K2 as [-> ->]. rewrite app_nil_r_s in *. split; [reflexivity | now apply M2].
      - intros (-> & K). exists w, "". rewrite app_nil_r_s. split; [reflexivity|]. split; [now apply M2 | apply mts_one; constructor]. }
    rewrite A, B. tauto. }
  split.
  - intros (p & w & a & -> & K). apply Q in K as [(-> & w1 & w2 & -> & K1 & K2)|[(r & I & K)|(-> & K)]].
    + left. exists (w1 +++ w2), a. split; [now rewrite app_assoc_s|]. apply fits_mts. exists w1, w2. split; [reflexivity|]. split; [exact (pieces_after _ _ _ _ _ K1) | exact K2].
    + right. left. exists r, p, w, a. auto.
    + right. right. exists p, w. rewrite app_nil_r_s. auto.
  - intros [(u & v & -> & K)|[(r & p & w & a & I & -> & K)|(p & w & -> & K)]].
    + apply fits_mts in K as (w1 & w2 & -> & K1 & K2). exists "", (w1 +++ w2), v. split; [reflexivity|]. apply Q. left. split; [reflexivity|]. exists w1, w2. split; [reflexivity|]. split; [exact (pieces_after _ _ _ _ _ K1) | exact K2].
    + exists p, w, a. split; [reflexivity|]. apply Q. right. left. eauto.
    + exists p, w, "". rewrite app_nil_r_s. split; [reflexivity|]. apply Q. auto.
Qed.
