(** SetP: what is written, what is not, when it fails. *)
From Coq Require Import String Ascii List Bool Arith ZArith Lia Permutation.
From Verif Require Import GoStr GoStrFacts Json JsonFacts Gabs GabsFacts Container Spec_Loc MergeFacts LocFacts.
Import ListNotations.
Local Open Scope string_scope.
Local Open Scope nat_scope.
Local Open Scope list_scope.

Lemma set_nth_length {A} i (x : A) l : length (set_nth i x l) = length l.
Proof. revert i; induction l as [|y l IH]; intros [|i]; cbn; auto. Qed.
Lemma set_nth_same {A} i (x y : A) l : nth_error l i = Some y -> nth_error (set_nth i x l) i = Some x.
Proof. revert i; induction l as [|z l IH]; intros [|i]; cbn; try discriminate; auto. Qed.
Lemma set_nth_other {A} i k (x : A) l : i <> k -> nth_error (set_nth i x l) k = nth_error l k.
Proof. revert i k; induction l as [|z l IH]; intros [|i] [|k] H; cbn; try congruence; auto. Qed.
Lemma in_set_nth {A} i (x : A) l y : In y (set_nth i x l) -> y = x \/ In y l.
Proof. revert i; induction l as [|z l IH]; intros [|i]; cbn; try tauto; intros [H|H]; auto. destruct (IH _ H); auto. Qed.

Lemma arr_index_some s i : arr_index s = Some i <-> exists n, atoi s = Some n /\ (0 <= n)%Z /\ Z.to_nat n = i.
Proof.
  unfold arr_index. destruct (atoi s) as [n|]; [|split; [discriminate | intros (n & [=] & _)]].
  destruct (Z.ltb_spec n 0).
  - split; [discriminate|]. intros (n' & [= <-] & Hn & _). lia.
  - split; [intros [= <-]; eauto | intros (n' & [= <-] & _ & <-); reflexivity].
Qed.

Lemma dash_index : arr_index "-" = None. Proof. reflexivity. Qed.

Lemma gset_addresses top p j q v : addresses top p j q -> exists r, gset top v p j = Ok r.
Proof.
  intro H. induction H as [top j|top k p m q H IH|top s n i p l c q Hs Ha Hn Hi Hl Hc H IH|p l q H IH].
  - exists v. reflexivity.
  - destruct IH as [r Hr]. cbn [gset]. cbv zeta. rewrite Hr. eexists. reflexivity.
  - destruct IH as [r Hr]. cbn [gset]. apply String.eqb_neq in Hs. rewrite Hs.
    assert (arr_index s = Some i) as -> by (apply arr_index_some; eauto). rewrite Hl.
    destruct p as [|s' p]; [eexists; rewrite Hr; reflexivity|].
    destruct c; try (rewrite Hr; eexists; reflexivity). exfalso. apply Hc; [discriminate | reflexivity].
  - destruct IH as [r Hr]. cbn [gset]. rewrite String.eqb_refl, Hr. eexists. reflexivity.
Qed.

Lemma gset_ok_addresses v p : forall top j r, gset top v p j = Ok r -> exists q, addresses top p j q.
Proof.
  induction p as [|s p IH]; intros top j r H; [exists []; constructor|].
  cbn [gset] in H. destruct j as [| | | |l|m]; try discriminate.
  - destruct (String.eqb_spec s "-") as [->|N].
    + destruct top; [discriminate|]. apply bind_ok in H as (c' & Hc & _).
      destruct (IH _ _ _ Hc) as [q Hq]. eexists. constructor. exact Hq.
    + destruct (arr_index s) as [i|] eqn:Ei; [|discriminate]. apply arr_index_some in Ei as (n & Ha & Hn & Hi).
      destruct (nth_error l i) as [c|] eqn:El; [|discriminate].
      assert (gset false v p c <> Err -> (p <> [] -> c <> JNull) -> exists q, addresses top (s :: p) (JArr l) q) as Hk.
      { intros Hne Hc. destruct (gset false v p c) as [c'| | |] eqn:Eg; [| congruence | |].
        - destruct (IH _ _ _ Eg) as [q Hq]. eexists. econstructor; eassumption.
        - exfalso. clear - H Eg. destruct p; [discriminate|]. destruct c; rewrite ?Eg in H; discriminate.
        - exfalso. clear - H Eg. destruct p; [discriminate|]. destruct c; rewrite ?Eg in H; discriminate. }
      apply Hk.
      * intro Eg. destruct p as [|s' p]; [discriminate Eg|]. destruct c; rewrite ?Eg in H; discriminate.
      * intros Hp ->. destruct p as [|s' p]; [congruence | discriminate].
  - cbv zeta in H. apply bind_ok in H as (c' & Hc & _). destruct (IH _ _ _ Hc) as [q Hq].
    eexists. constructor. exact Hq.
Qed.

Lemma gset_err_or_ok v p : forall top j, (exists r, gset top v p j = Ok r) \/ gset top v p j = Err.
Proof.
  induction p as [|s p IH]; intros top j; [left; eexists; reflexivity|].
  cbn [gset]. destruct j as [| | | |l|m]; auto.
  - destruct (String.eqb s "-").
    + destruct top; [auto|]. destruct (IH false (JObj [])) as [[r ->]| ->]; [left; eexists; reflexivity | auto].
    + destruct (arr_index s) as [i|]; [|auto]. destruct (nth_error l i) as [c|]; [|auto].
      destruct (IH false c) as [[r Hr]|Hr]; destruct p as [|s' p]; rewrite ?Hr; try (left; eexists; reflexivity); destruct c; rewrite ?Hr; auto;
      left; eexists; reflexivity.
  - cbv zeta. match goal with |- context [gset false v p ?c] => destruct (IH false c) as [[r ->]| ->] end; [left; eexists; reflexivity | auto].
Qed.

Lemma apart_cons s p q : apart (s :: p) (s :: q) -> apart p q.
Proof.
  intros [H1 H2]. split; intros [r ->]; [apply H1 | apply H2]; exists r; reflexivity.
Qed.
Lemma apart_nil_l q : ~ apart [] q.
Proof. intros [H _]. apply H. exists q. reflexivity. Qed.
Lemma apart_nil_r q : ~ apart q [].
Proof. intros [_ H]. apply H. exists q. reflexivity. Qed.

(** What a successful set does at every location. *)
Lemma gset_spec top p j q v : addresses top p j q -> forall r, gset top v p j = Ok r ->
  lookup q r = Some v /\ (forall q', apart q q' -> lookup q' r = lookup q' j).
Proof.
  intro H. induction H as [top j|top k p m q H IH|top s n i p l c q Hs Ha Hn Hi Hl Hc H IH|p l q H IH]; intros r Hr.
  - injection Hr as <-. split; [reflexivity|]. intros q' Hq. now apply apart_nil_l in Hq.
  - cbn [gset] in Hr. cbv zeta in Hr. apply bind_ok in Hr as (c' & Hc & Hr). injection Hr as <-.
    destruct (IH _ Hc) as [H1 H2]. split; [cbn; now rewrite oget_oset_same|].
    intros q' Hq. destruct q' as [|[k'|i'] q']; [now apply apart_nil_r in Hq| | reflexivity].
    cbn. rewrite oget_oset. destruct (String.eqb_spec k' k) as [->|N]; [|reflexivity].
    apply apart_cons in Hq. rewrite (H2 _ Hq).
    destruct q' as [|s' q']; [now apply apart_nil_r in Hq|].
    destruct (oget k m) as [x|]; [destruct x; try reflexivity; destruct s'; reflexivity | destruct s'; reflexivity].
  - cbn [gset] in Hr. apply String.eqb_neq in Hs. rewrite Hs in Hr.
    assert (arr_index s = Some i) as Ei by (apply arr_index_some; eauto). rewrite Ei, Hl in Hr.
    assert (exists c', gset false v p c = Ok c' /\ r = JArr (set_nth i c' l)) as (c' & Hg & ->).
    { destruct p as [|s' p].
      - apply bind_ok in Hr as (c' & Hg & Hr). injection Hr as <-. eauto.
      - destruct c; try (apply bind_ok in Hr as (c' & Hg & Hr); injection Hr as <-; eauto; fail). discriminate. }
    destruct (IH _ Hg) as [H1 H2]. split; [cbn; now rewrite (set_nth_same _ _ _ _ Hl)|].
    intros q' Hq. destruct q' as [|[k'|i'] q']; [now apply apart_nil_r in Hq| reflexivity |].
    cbn. destruct (Nat.eq_dec i i') as [<-|N].
    + rewrite (set_nth_same _ _ _ _ Hl), Hl. apply apart_cons in Hq. now apply H2.
    + now rewrite set_nth_other.
  - cbn [gset] in Hr. rewrite String.eqb_refl in Hr. apply bind_ok in Hr as (c' & Hg & Hr). injection Hr as <-.
    destruct (IH _ Hg) as [H1 H2]. split.
    + cbn. rewrite nth_error_app2, Nat.sub_diag by lia. exact H1.
    + intros q' Hq. destruct q' as [|[k'|i'] q']; [now apply apart_nil_r in Hq| reflexivity |].
      cbn. destruct (Nat.lt_trichotomy i' (length l)) as [Hlt|[->|Hgt]].
      * now rewrite nth_error_app1.
      * rewrite nth_error_app2, Nat.sub_diag by lia. cbn.
        assert (nth_error l (length l) = None) as -> by (apply nth_error_None; lia).
        apply apart_cons in Hq. rewrite (H2 _ Hq). destruct q' as [|[|] q']; [now apply apart_nil_r in Hq | reflexivity | reflexivity].
      * assert (nth_error (l ++ [c']) i' = None) as -> by (apply nth_error_None; rewrite app_length; cbn; lia).
        now assert (nth_error l i' = None) as -> by (apply nth_error_None; lia).
Qed.

(** Without "-" segments, reading the path again finds the value. *)
Lemma gset_search top p j q v : addresses top p j q -> ~ In "-" p -> forall r, gset top v p j = Ok r -> search p r = Some v.
Proof.
  intro H. induction H as [top j|top k p m q H IH|top s n i p l c q Hs Ha Hn Hi Hl Hc H IH|p l q H IH]; intros Hd r Hr.
  - now injection Hr as <-.
  - cbn [gset] in Hr. cbv zeta in Hr. apply bind_ok in Hr as (c' & Hg & Hr). injection Hr as <-.
    cbn. rewrite oget_oset_same. apply IH; [cbn in Hd; tauto | exact Hg].
  - cbn [gset] in Hr. apply String.eqb_neq in Hs. rewrite Hs in Hr.
    assert (arr_index s = Some i) as Ei by (apply arr_index_some; eauto). rewrite Ei, Hl in Hr.
    assert (exists c', gset false v p c = Ok c' /\ r = JArr (set_nth i c' l)) as (c' & Hg & ->).
    { destruct p as [|s' p].
      - apply bind_ok in Hr as (c' & Hg & Hr). injection Hr as <-. eauto.
      - destruct c; try (apply bind_ok in Hr as (c' & Hg & Hr); injection Hr as <-; eauto; fail). discriminate. }
    cbn [search]. destruct (String.eqb_spec s "*") as [->|N]; [discriminate|].
    rewrite Ei, (set_nth_same _ _ _ _ Hl). apply IH; [cbn in Hd; tauto | exact Hg].
  - exfalso. apply Hd. now left.
Qed.

Lemma gset_wf v p : wf v -> forall top j r, wf j -> gset top v p j = Ok r -> wf r.
Proof.
  intro Hv. induction p as [|s p IH]; intros top j r Hj H; [now injection H as <-|].
  cbn [gset] in H. destruct j as [| | | |l|m]; try discriminate.
  - assert (forall c', wf c' -> wf (JArr (l ++ [c']))) as Happ.
    { intros c' Hc'. apply wf_arr. apply wf_arr in Hj. apply Forall_app. auto. }
    destruct (String.eqb s "-").
    + destruct top; [discriminate|]. apply bind_ok in H as (c' & Hc & H). injection H as <-.
      apply Happ. eapply IH; [|exact Hc]. cbn; auto.
    + destruct (arr_index s) as [i|]; [|discriminate]. destruct (nth_error l i) as [c|] eqn:El; [|discriminate].
      assert (exists c', gset false v p c = Ok c' /\ r = JArr (set_nth i c' l)) as (c' & Hg & ->).
      { destruct p as [|s' p].
        - apply bind_ok in H as (c' & Hg & Hr). injection Hr as <-. eauto.
        - destruct c; try (apply bind_ok in H as (c' & Hg & Hr); injection Hr as <-; eauto; fail). discriminate. }
      pose proof (wf_nth _ _ _ Hj El) as Hc. pose proof (IH _ _ _ Hc Hg) as Hc'.
      apply wf_arr. apply wf_arr in Hj. rewrite Forall_forall in *. intros x Hx. apply in_set_nth in Hx as [->|Hx]; auto.
  - cbv zeta in H. apply bind_ok in H as (c' & Hc & H). injection H as <-.
    apply wf_oset; [exact Hj|]. eapply IH; [|exact Hc].
    destruct (oget s m) as [x|] eqn:E; [|cbn; auto]. pose proof (wf_oget _ _ _ Hj E). destruct x; cbn; auto.
Qed.

Lemma dot_path_nonempty p : dot_path p <> [].
Proof. unfold dot_path. pose proof (split_char_nonempty "." p) as H. destruct (split_char "." p); [congruence | discriminate]. Qed.

Lemma root_set_nonempty v p j : p <> [] -> root_set v p j = gset true v p (denull j).
Proof. destruct p; [congruence | reflexivity]. Qed.

(** *** SetP *)
Lemma setp_ok path v j v' : clone v = Ok v' ->
  c_setp path v (Some j) = do r <- gset true v' (dot_path path) (denull j) ; Ok (Some r).
Proof. intro H. unfold c_setp. rewrite H. cbn [bind c_set]. now rewrite root_set_nonempty by apply dot_path_nonempty. Qed.

Lemma setp_spec path v v' j : clone v = Ok v' ->
  (forall q, addresses true (dot_path path) (denull j) q ->
     exists r, c_setp path v (Some j) = Ok (Some r) /\
       lookup q r = Some v' /\ (forall q', apart q q' -> lookup q' r = lookup q' j) /\
       (~ In "-" (dot_path path) -> c_path path (Some r) = Some v')) /\
  ((forall q, ~ addresses true (dot_path path) (denull j) q) -> c_setp path v (Some j) = Err).
Proof.
  intro Hc. rewrite (setp_ok _ _ _ _ Hc). split.
  - intros q Hq. destruct (gset_addresses _ _ _ _ v' Hq) as [r Hr]. rewrite Hr. exists r. split; [reflexivity|].
    destruct (gset_spec _ _ _ _ _ Hq _ Hr) as [H1 H2]. split; [exact H1|]. split.
    + intros q' Hq'. rewrite (H2 _ Hq'). destruct j; try reflexivity. cbn.
      destruct q' as [|[|] ?]; [now apply apart_nil_r in Hq' | reflexivity | reflexivity].
    + intro Hd. exact (gset_search _ _ _ _ _ Hq Hd _ Hr).
  - intro Hn. destruct (gset_err_or_ok v' (dot_path path) true (denull j)) as [[r Hr]|Hr]; rewrite Hr; [|reflexivity].
    apply gset_ok_addresses in Hr as [q Hq]. exfalso. eapply Hn, Hq.
Qed.

(** Existing locations of documents with plain keys are addressed by their text. *)
Lemma addresses_lookup q : forall top j x, Forall seg_ok q -> lookup q j = Some x -> addresses top (map seg q) j q.
Proof.
  induction q as [|[k|i] q IH]; intros top j x Ho H; cbn [map seg].
  - constructor.
  - cbn in H. destruct j; try discriminate. destruct (oget k m) as [c|] eqn:E; [|discriminate].
    constructor. rewrite E. inversion Ho; subst.
    destruct c; try (eapply IH; eassumption). destruct q as [|[|] q]; [constructor | discriminate | discriminate].
  - cbn in H. destruct j; try discriminate. destruct (nth_error l i) as [c|] eqn:E; [|discriminate].
    inversion Ho as [|? ? Hi Ho']; subst. cbn in Hi. eapply ad_idx with (n := Z.of_nat i).
    + apply String.eqb_neq, itoa_not_dash.
    + now apply atoi_itoa.
    + lia.
    + apply Nat2Z.id.
    + exact E.
    + intros Hp ->. destruct q as [|[|] q]; [apply Hp; reflexivity | discriminate | discriminate].
    + eapply IH; eassumption.
Qed.

Lemma denull_lookup q j x : q <> [] -> lookup q j = Some x -> denull j = j.
Proof. destruct j; try reflexivity. destruct q as [|[|] q]; [congruence | discriminate | discriminate]. Qed.

Lemma setp_render q v v' j x : wf j -> keys_ok plain j -> q <> [] -> lookup q j = Some x -> clone v = Ok v' -> wf v' ->
  exists r, c_setp (render q) v (Some j) = Ok (Some r) /\ wf r /\ lookup q r = Some v' /\
    (forall q', apart q q' -> lookup q' r = lookup q' j).
Proof.
  intros Hw Hk Hn Hl Hc Hv. pose proof (seg_ok_lookup _ _ _ Hk Hl) as Ho.
  pose proof (addresses_lookup q true j x Ho Hl) as Ha. rewrite <- (dot_path_render q Hn Ho) in Ha.
  rewrite <- (denull_lookup q j x Hn Hl) in Ha.
  destruct (setp_spec (render q) v v' j Hc) as [H _]. destruct (H q Ha) as (r & Hr & H1 & H2 & _).
  exists r. split; [exact Hr|]. split; [|auto].
  rewrite (setp_ok _ _ _ _ Hc) in Hr. apply bind_ok in Hr as (r' & Hr & E). injection E as <-.
  eapply gset_wf; [exact Hv | | exact Hr]. rewrite (denull_lookup q j x Hn Hl). exact Hw.
Qed.
