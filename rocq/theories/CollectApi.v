(** Collection of whole objects and packages. *)
From Coq Require Import String Ascii List Bool Arith ZArith Lia Permutation.
From Verif Require Import GoStr GoStrFacts Json JsonFacts MergeFacts Url Pointer Spec_Ptr Spec_Frag FragFacts PtrFacts Tag Types Spec_Types TypesFacts WalkFacts CollectFacts LocFacts.
Import ListNotations.
Local Open Scope string_scope.
Local Open Scope nat_scope.
Local Open Scope list_scope.

Section Api.
  Context (env : genv) (Henv : env_ok env).

  Lemma collect_start fuel o m pk : obj_ok o -> o_pkg o = Some pk -> exists r, at_loc r (pk, [o_name o]) /\ collect_types env fuel o m = walk env fuel [] r (o_type o) m.
  Proof.
    intros (Hn & _ & Hp) Ep. destruct (new_point_loc pk (o_name o) (Hp pk Ep) Hn) as (r & Er & Hr). exists r. split; [exact Hr|]. unfold collect_types. rewrite Ep, Er. reflexivity.
  Qed.
  Lemma reg_location pk name t T txt :
    (exists l', reg env [] (pk, [name]) t T l' /\ txt = loc_text (fst l') (snd l')) <-> location_of env pk name t T txt.
  Proof.
    split.
    - intros (l' & R & ->). apply reg_spot in R as (ts & N & S); [|constructor]. cbn [app] in N. destruct S as [(toks & t' & Ht & ET & ->)|(s1 & ts1 & i & d & pk' & s2 & ts2 & t' & H1 & Ns & Ei & Ep & H2 & -> & ET & ->)].
      + left. exists toks, ts, t'. auto.
      + right. exists s1, ts1, (TNamed i), pk', (d_name d), s2, ts2, t'. split; [exact H1|]. split; [exact Ns|]. split; [exists i, d; auto|]. auto.
    - intros [(toks & ts & t' & Ht & N & -> & ->)|(s1 & ts1 & tn & pkn & n & s2 & ts2 & t' & H1 & Ns & (i & d & -> & Ei & Ep & <-) & H2 & N & -> & ->)].
      + exists (pk, name :: toks). split; [|reflexivity]. apply (trail_reg env t toks ts t' Ht [] (pk, [name]) N).
      + exists (pkn, d_name d :: s2). split; [|reflexivity]. eapply trail_reg_named; eauto.
  Qed.
  Theorem collect_exact fuel o m m' pk : obj_ok o -> o_pkg o = Some pk -> collect_types env fuel o m = Ok m' ->
    forall T txt, registered m' T txt <-> registered m T txt \/ location_of env pk (o_name o) (o_type o) T txt.
  Proof.
    intros Ho Ep H T txt. destruct (collect_start fuel o m pk Ho Ep) as (r & Hr & E). rewrite E in H. rewrite (walk_spec env Henv fuel [] r (o_type o) m m' _ Hr (proj1 (proj2 Ho)) H T txt).
    now rewrite reg_location.
  Qed.
  Theorem collect_outcome fuel o m pk L : obj_ok o -> o_pkg o = Some pk -> closed_types env (o_type o) L -> length L < fuel ->
    (collect_types env fuel o m = Panic <-> reaches_universe env (o_type o)) /\
    (~ reaches_universe env (o_type o) -> exists m', collect_types env fuel o m = Ok m').
  Proof.
    intros Ho Ep [HL Hc] Hf. destruct (collect_start fuel o m pk Ho Ep) as (r & Hr & ->). destruct Ho as (Hn & Ht & _).
    assert (B : reaches_universe env (o_type o) <-> bad env [] (o_type o)) by reflexivity. rewrite B. clear B.
    pose proof (walk_fuel env Henv L Hc fuel [] r (o_type o) m _ Hr Ht HL (NoDup_nil _) (incl_nil_l _)) as Fu. cbn [length] in Fu. rewrite Nat.add_0_r in Fu. specialize (Fu Hf).
    pose proof (walk_never_err env Henv fuel [] r (o_type o) m _ Hr Ht) as Er. pose proof (walk_panics env Henv fuel [] r (o_type o) m _ Hr Ht (NoDup_nil _)) as Pa.
    pose proof (fun m' => walk_ok_no_bad env Henv fuel [] r (o_type o) m m' _ Hr Ht) as Nb.
    destruct (walk env fuel [] r (o_type o) m) as [m'| | |]; try congruence.
    - split; [|eauto]. split; [discriminate|]. intro X. now destruct (Nb m' eq_refl).
    - split; [tauto|]. intro X. exfalso. apply X. now apply Pa.
  Qed.
  Theorem collect_no_package fuel o m : o_pkg o = None -> collect_types env fuel o m = Panic.
  Proof. intro E. unfold collect_types. now rewrite E. Qed.

  (** What every collection keeps true of the map. *)
  Lemma walk_inv (Q : pmap -> Prop) : (forall m u p l, Q m -> at_loc p l -> Q (pm_append m u p)) ->
    forall fuel path r t m m' l, at_loc r l -> field_names_ok t = true -> Q m -> walk env fuel path r t m = Ok m' -> Q m'.
  Proof.
    intro HQ. induction fuel as [|fuel IH]; intros path r t m m' l Hl Ht Hm H; [discriminate|]. cbn [walk] in H. destruct (existsb _ path); [injection H as <-; eauto|].
    destruct (next_steps_spec env Henv r l t Hl Ht) as (next & En & N1 & _). rewrite En in H. cbn [bind] in H. clear En.
    assert (Hm0 : Q (pm_append m (under env t) r)) by eauto. revert Hm0 H. generalize (pm_append m (under env t) r). clear m Hm. induction next as [|[p e] next IHn]; intros m Hm H; [injection H as <-; exact Hm|]. cbn [walk_next] in H.
    destruct (N1 p e (or_introl eq_refl)) as (tok & Hs & Hp). destruct (names_step env Henv t tok e Ht Hs) as [He _].
    apply bind_ok in H as (m1 & E1 & H). apply bind_ok in H as (m2 & E2 & H). assert (Q1 : Q m1) by (eapply IH; eauto). apply (IHn (fun p e Hin => N1 p e (or_intror Hin)) m2); [|exact H].
    destruct e; try (injection E2 as <-; exact Q1). destruct (nth_error env i) as [d|] eqn:Ei; [|injection E2 as <-; exact Q1].
    destruct (d_pkg d) as [pk|] eqn:Ep; [|discriminate E2]. destruct (decl_named env Henv i d pk Ei Ep) as [Hpk Hname]. destruct (new_point_loc pk (d_name d) Hpk Hname) as (q & Eq & Hq). rewrite Eq in E2. cbn [bind] in E2. eapply IH; eauto.
  Qed.
  Definition pm_good (m : pmap) : Prop := NoDup (pm_keys m) /\ forall T p, In p (pm_at m T) -> exists l, at_loc p l.
  Lemma pm_good_nil : pm_good [].
  Proof. split; [constructor | intros T p []]. Qed.
  Lemma pm_good_append m u p l : pm_good m -> at_loc p l -> pm_good (pm_append m u p).
  Proof.
    intros [N G] Hp. split; [now apply pm_append_keys|]. intros T q Hq. unfold pm_append in Hq. destruct (pt_has (pm_at m u) p); [eauto|]. rewrite pm_at_set in Hq.
    destruct (gty_eqb u T); [|eauto]. apply in_app_iff in Hq as [Hq|[<- |[]]]; eauto.
  Qed.
  Lemma collect_good fuel o m m' : obj_ok o -> pm_good m -> collect_types env fuel o m = Ok m' -> pm_good m'.
  Proof.
    intros Ho Hm H. destruct (o_pkg o) as [pk|] eqn:Ep; [|rewrite collect_no_package in H by exact Ep; discriminate]. destruct (collect_start fuel o m pk Ho Ep) as (r & Hr & E). rewrite E in H.
    eapply (walk_inv pm_good); [apply pm_good_append | exact Hr | apply Ho | exact Hm | exact H].
  Qed.

  (** ** Several objects *)
  Definition obj_location (o : gobj) (T : gty) (txt : string) : Prop := exists pk, o_pkg o = Some pk /\ location_of env pk (o_name o) (o_type o) T txt.
  Theorem collect_all_exact fuel os : forall m m', Forall obj_ok os -> collect_all env fuel os m = Ok m' ->
    forall T txt, registered m' T txt <-> registered m T txt \/ exists o, In o os /\ obj_location o T txt.
  Proof.
    induction os as [|o os IH]; intros m m' Ho H T txt.
    - injection H as <-. split; [tauto|]. intros [X|(o & [] & _)]. exact X.
    - cbn [collect_all] in H. apply bind_ok in H as (m1 & E1 & H). inversion Ho as [|? ? Ho1 Hos]; subst. destruct (o_pkg o) as [pk|] eqn:Ep; [|rewrite collect_no_package in E1 by exact Ep; discriminate].
      rewrite (IH m1 m' Hos H T txt), (collect_exact fuel o m m1 pk Ho1 Ep E1 T txt). split.
      + intros [[X|X]|(o' & Hin & X)]; [tauto| |]; right; [exists o; split; [now left | exists pk; auto] | exists o'; split; [now right | exact X]].
      + intros [X|(o' & [<- |Hin] & X)]; [tauto| |]; [left; right; destruct X as (pk' & Ep' & X); assert (pk' = pk) by congruence; now subst | right; eauto].
  Qed.
  Lemma collect_all_good fuel os : forall m m', Forall obj_ok os -> pm_good m -> collect_all env fuel os m = Ok m' -> pm_good m'.
  Proof.
    induction os as [|o os IH]; intros m m' Ho Hm H; [injection H as <-; exact Hm|]. cbn [collect_all] in H. apply bind_ok in H as (m1 & E1 & H). inversion Ho; subst. eapply IH; [assumption | | exact H]. eapply collect_good; eauto.
  Qed.
  Theorem collect_all_outcome fuel os L : Forall obj_ok os -> Forall (fun o => o_pkg o <> None) os -> Forall (fun o => closed_types env (o_type o) L) os -> length L < fuel -> forall m,
    (collect_all env fuel os m = Panic <-> Exists (fun o => reaches_universe env (o_type o)) os) /\
    (~ Exists (fun o => reaches_universe env (o_type o)) os -> exists m', collect_all env fuel os m = Ok m').
  Proof.
    intros Ho Hp Hc Hf. induction Ho as [|o os Ho Hos IH]; intro m.
    - cbn. split; [|eauto]. split; [discriminate | intro X; inversion X].
    - inversion Hp as [|? ? Hp1 Hps]; inversion Hc as [|? ? Hc1 Hcs]; subst. destruct (o_pkg o) as [pk|] eqn:Ep; [|congruence]. cbn [collect_all].
      destruct (collect_outcome fuel o m pk L Ho Ep Hc1 Hf) as [A B]. destruct (collect_types env fuel o m) as [m1| | |] eqn:E.
      + cbn [bind]. destruct (IH Hps Hcs m1) as [C D]. rewrite C, Exists_cons. split; [split; [tauto|]; intros [X|X]; [apply A in X; discriminate | exact X]|]. intro X. apply D. tauto.
      + destruct B as (m' & B); [|discriminate]. intro X. apply A in X. discriminate.
      + cbn [bind]. rewrite Exists_cons. split; [split; [intros _; left; now apply A | reflexivity]|]. intro X. exfalso. apply X. left. now apply A.
      + destruct B as (m' & B); [|discriminate]. intro X. apply A in X. discriminate.
  Qed.
  (** Scanning a package collects the objects the pointers start at. *)
  Theorem scan_collects fuel pkg scope ptrs : forall m, scan_types env fuel pkg scope ptrs m = collect_all env fuel (objects_of pkg scope ptrs) m.
  Proof.
    induction ptrs as [|p ptrs IH]; intro m; [reflexivity|]. cbn [scan_types objects_of]. destruct (String.eqb (u_scheme (p_url p)) "go"); cbn [negb andb app bind]; [|apply IH].
    destruct (String.eqb pkg (pkg_path p)); cbn [negb bind app]; [|apply IH]. unfold frag_head. destruct (p_frag p) as [|h f]; cbn [hd_error bind app]; [apply IH|].
    destruct (scope h) as [o|]; cbn [bind app collect_all]; [|apply IH]. destruct (collect_types env fuel o m); cbn [bind]; [apply IH | reflexivity | reflexivity | reflexivity].
  Qed.

  (** ** Looking a pointer up *)
  Lemma pm_find_some (ord : pmap -> pmap) m p : Permutation (ord m) m -> NoDup (pm_keys m) ->
    (exists T, registered m T (ptr_string p)) -> exists T, pm_find ord m p = Some T /\ registered m T (ptr_string p).
  Proof.
    intros Hord N (T & q & Hq & Es). unfold pm_find. apply pm_at_entry in Hq as (l & Hin & Hl). apply (Permutation_in _ (Permutation_sym Hord)) in Hin.
    destruct (find _ (ord m)) as [[T' l']|] eqn:E.
    - apply find_some in E as [Hin' E]. apply existsb_exists in E as (q' & Hq' & E). cbn in Hq'. apply String.eqb_eq in E. exists T'. split; [reflexivity|]. exists q'. split; [|now symmetry].
      apply (Permutation_in _ Hord) in Hin'. now rewrite (pm_at_in m T' l' N Hin').
    - exfalso. assert (X := find_none _ _ E _ Hin). cbn in X. assert (existsb (fun q0 => String.eqb (ptr_string p) (ptr_string q0)) l = true); [|congruence]. apply existsb_exists. exists q. split; [exact Hl | now apply String.eqb_eq].
  Qed.
  Lemma pm_find_none (ord : pmap -> pmap) m p : Permutation (ord m) m -> NoDup (pm_keys m) -> (pm_find ord m p = None <-> forall T, ~ registered m T (ptr_string p)).
  Proof.
    intros Hord N. split.
    - intros E T R. destruct (pm_find_some ord m p Hord N (ex_intro _ T R)) as (T' & E' & _). congruence.
    - intro H. unfold pm_find. destruct (find _ (ord m)) as [[T' l']|] eqn:E; [|reflexivity]. exfalso. apply find_some in E as [Hin' E]. apply existsb_exists in E as (q' & Hq' & E). cbn in Hq'. apply String.eqb_eq in E.
      apply (H T'). exists q'. split; [|now symmetry]. apply (Permutation_in _ Hord) in Hin'. now rewrite (pm_at_in m T' l' N Hin').
  Qed.
End Api.
