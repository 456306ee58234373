(** Registered pointers denote one type. *)
From Coq Require Import String Ascii List Bool Arith ZArith Lia Permutation.
From Verif Require Import GoStr GoStrFacts Json JsonFacts MergeFacts Url Pointer Spec_Ptr Spec_Frag FragFacts PtrFacts Tag Types Spec_Types TypesFacts WalkFacts CollectFacts LocFacts CollectApi.
Import ListNotations.
Local Open Scope string_scope.
Local Open Scope nat_scope.
Local Open Scope list_scope.

Section Denote.
  Context (env : genv) (Henv : env_ok env).

  Lemma NoDup_key {A B} (f : A -> B) l x y : NoDup (map f l) -> In x l -> In y l -> f x = f y -> x = y.
  Proof.
    induction l as [|z l IH]; [contradiction|]. cbn. intros H [<- |Hx] [<- |Hy] E; inversion H as [|? ? Hn Hl]; subst; auto.
    - exfalso. apply Hn. rewrite E. now apply in_map.
    - exfalso. apply Hn. rewrite <- E. now apply in_map.
  Qed.
  Lemma distinct_field fs i e : fields_distinct (TStruct fs) -> In (i, e) fs -> fields_distinct e.
  Proof. intros [_ H]. induction fs as [|x fs IH]; [contradiction|]. destruct H as [Hx H]. intros [-> |Hin]; [exact Hx | now apply IH]. Qed.
  Context (Hdist : Forall (fun d => fields_distinct (d_under d)) env).
  Lemma distinct_under t : fields_distinct t -> fields_distinct (under env t).
  Proof.
    destruct t; auto. intros _. cbn [under]. destruct (nth_error env i) as [d|] eqn:E; [|exact I]. apply nth_error_In in E. rewrite Forall_forall in Hdist. now apply Hdist.
  Qed.
  Lemma distinct_step t tok e : fields_distinct t -> step env t tok e -> fields_distinct e.
  Proof.
    intros H Hs. apply distinct_under in H. destruct Hs as [t fs i e E Hin Hx|t e E|t e E|t n e E|t k e E|t d e E]; rewrite E in H; try exact H.
    - eapply distinct_field; eauto.
    - exact (proj2 H).
  Qed.
  Lemma step_det t t' tok e e' : fields_distinct t -> under env t = under env t' -> step env t tok e -> step env t' tok e' -> e = e'.
  Proof.
    intros H Eu Hs Hs'. apply distinct_under in H.
    destruct Hs as [t fs i e E Hin Hx|t e E|t e E|t n e E|t k e E|t d e E]; rewrite E in H, Eu; inversion Hs'; subst; try congruence.
    match goal with X : under env t' = TStruct ?g |- _ => assert (g = fs) by congruence; subst g end.
    match goal with Y : In (?j, e') fs |- _ => assert ((i, e) = (j, e')) as Z by (eapply (NoDup_key (fun x => f_name (fst x))); [exact (proj1 H) | exact Hin | exact Y | cbn; congruence]) end. congruence.
  Qed.
  Lemma trail_det t toks ts a : trail env t toks ts a -> forall t' ts' b, fields_distinct t -> under env t = under env t' -> trail env t' toks ts' b -> under env a = under env b.
  Proof.
    induction 1 as [t|t tok t1 toks ts a Hs Ht IH]; intros t' ts' b Hd Eu Ht'; inversion Ht' as [|? ? t2 ? ts2 ? Hs2 Ht2]; subst; [exact Eu|].
    assert (t1 = t2) by (eapply step_det; [exact Hd | exact Eu | exact Hs | exact Hs2]). subst t2. eapply (IH t1); [|reflexivity | exact Ht2]. eapply distinct_step; eauto.
  Qed.
  Lemma trail_toks t toks ts a : trail env t toks ts a -> field_names_ok t = true -> Forall (fun t => tok_ok t = true) toks /\ field_names_ok a = true.
  Proof.
    induction 1 as [t|t tok t1 toks ts a Hs Ht IH]; intro H; [split; [constructor | exact H]|]. destruct (names_step env Henv t tok t1 H Hs) as [H1 H2]. destruct (IH H1). split; [now constructor | assumption].
  Qed.

  Lemma frag_text_inj f g : Forall (fun t => tok_ok t = true) f -> Forall (fun t => tok_ok t = true) g ->
    fold_right (fun t r => "/" +++ t +++ r) "" f = fold_right (fun t r => "/" +++ t +++ r) "" g -> f = g.
  Proof.
    intros Hf Hg E. rewrite <- !frag_string_plain in E by assumption. now apply frag_string_inj.
  Qed.
  Lemma loc_text_inj pk f pk' g : import_path pk -> import_path pk' -> Forall (fun t => tok_ok t = true) f -> Forall (fun t => tok_ok t = true) g ->
    loc_text pk f = loc_text pk' g -> pk = pk' /\ f = g.
  Proof.
    intros I1 I2 Hf Hg E. unfold loc_text in E.
    assert (E' : ("go://" +++ pk) +++ String "#" (fold_right (fun t r => "/" +++ t +++ r) "" f) = ("go://" +++ pk') +++ String "#" (fold_right (fun t r => "/" +++ t +++ r) "" g)) by (rewrite !app_assoc_s; exact E).
    apply app_hash_inj in E' as [A B].
    - split; [|now apply frag_text_inj]. injection A as A. exact A.
    - cbn. apply import_no; [reflexivity | apply I1].
    - cbn. apply import_no; [reflexivity | apply I2].
  Qed.

  Context (os : list gobj) (Hos : Forall obj_ok os).
  Lemma declared_ok t pk n : declared env t pk n -> import_path pk /\ go_ident n = true /\ field_names_ok t = true /\ fields_distinct t.
  Proof. intros (i & d & -> & Ei & Ep & <-). destruct (decl_named env Henv i d pk Ei Ep). cbn. auto. Qed.
  Lemma root_ok pk n t : Forall (fun o => fields_distinct (o_type o)) os -> root env os pk n t -> import_path pk /\ go_ident n = true /\ field_names_ok t = true /\ fields_distinct t.
  Proof.
    intros Hd [H|(o & Hin & Ep & <- & <-)]; [now apply declared_ok|]. rewrite Forall_forall in Hd, Hos. destruct (Hos _ Hin) as (A & B & C). auto.
  Qed.
  Theorem registered_denotes fuel m : collect_all env fuel os [] = Ok m -> forall T txt, registered m T txt ->
    exists pk name t toks ts t', root env os pk name t /\ trail env t toks ts t' /\ NoDup ts /\ txt = loc_text pk (name :: toks) /\ T = under env t'.
  Proof.
    intros H T txt R. apply (collect_all_exact env Henv fuel os [] m Hos H) in R as [(p & [] & _)|(o & Hin & pk & Ep & [(toks & ts & t' & Ht & N & -> & ->)|(s1 & ts1 & tn & pkn & n & s2 & ts2 & t' & H1 & Ns & Hd & H2 & N & -> & ->)])].
    - exists pk, (o_name o), (o_type o), toks, ts, t'. split; [right; exists o; auto|]. auto.
    - exists pkn, n, tn, s2, ts2, t'. split; [now left|]. split; [exact H2|]. split; [|auto]. clear -N. induction ts1 as [|x ts1 IH]; [exact N|]. inversion N; subst. now apply IH.
  Qed.
  Context (Hod : Forall (fun o => fields_distinct (o_type o)) os) (Huniq : names_unique env os).
  Theorem registered_unique fuel m : collect_all env fuel os [] = Ok m -> forall T pk name t toks ts t',
    root env os pk name t -> trail env t toks ts t' -> registered m T (loc_text pk (name :: toks)) -> T = under env t'.
  Proof.
    intros H T pk name t toks ts t' Hr Ht R. apply (registered_denotes fuel m H) in R as (pk1 & n1 & t1 & toks1 & ts1 & t1' & Hr1 & Ht1 & _ & E & ->).
    destruct (root_ok _ _ _ Hod Hr) as (A & B & C & D). destruct (root_ok _ _ _ Hod Hr1) as (A1 & B1 & C1 & D1).
    assert (Forall (fun t => tok_ok t = true) (name :: toks)) by (constructor; [now apply ident_tok in B | now apply (trail_toks _ _ _ _ Ht)]).
    assert (Forall (fun t => tok_ok t = true) (n1 :: toks1)) by (constructor; [now apply ident_tok in B1 | now apply (trail_toks _ _ _ _ Ht1)]).
    apply loc_text_inj in E as [<- [= <- <-]]; try assumption. symmetry. eapply trail_det; [exact Ht | exact D | | exact Ht1]. now apply (Huniq pk name).
  Qed.
  (** Hence looking a registered pointer up does not depend on the iteration order. *)
  Theorem find_unique fuel m : collect_all env fuel os [] = Ok m -> forall ord p T, Permutation (ord m) m -> registered m T (ptr_string p) -> pm_find ord m p = Some T.
  Proof.
    intros H ord p T Hord R. destruct (collect_all_good env Henv fuel os [] m Hos pm_good_nil H) as [N _]. destruct (pm_find_some ord m p Hord N (ex_intro _ T R)) as (T' & E & R'). rewrite E. f_equal.
    destruct (registered_denotes fuel m H T _ R) as (pk & n & t & toks & ts & t' & Hr & Ht & _ & Et & ->). rewrite Et in R'. eapply registered_unique; eauto.
  Qed.
End Denote.
