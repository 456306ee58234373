(** Collection: exactly which pointers are registered, termination, panics. *)
From Coq Require Import String Ascii List Bool Arith ZArith Lia.
From Verif Require Import GoStr GoStrFacts Json JsonFacts MergeFacts Url Pointer Spec_Ptr Spec_Frag FragFacts PtrFacts Tag Types Spec_Types TypesFacts WalkFacts LocFacts.
Import ListNotations.
Local Open Scope string_scope.
Local Open Scope nat_scope.
Local Open Scope list_scope.

Lemma NoDup_shift {A} (l : list A) x r : NoDup (l ++ x :: r) <-> NoDup ((l ++ [x]) ++ r).
Proof. now rewrite <- app_assoc. Qed.
Lemma NoDup_mid {A} (l : list A) x r : NoDup (l ++ x :: r) -> ~ In x l.
Proof. intros H Hin. apply NoDup_remove_2 in H. apply H, in_app_iff. now left. Qed.
Lemma NoDup_snoc {A} (l : list A) x : NoDup l -> ~ In x l -> NoDup (l ++ [x]).
Proof. intros H N. apply NoDup_app; [exact H | repeat constructor; tauto |]. intros y Hy [<- |[]]. contradiction. Qed.
Lemma trail_app env t s1 ts1 t1 s2 ts2 t2 : trail env t s1 ts1 t1 -> trail env t1 s2 ts2 t2 -> trail env t (s1 ++ s2) (ts1 ++ ts2) t2.
Proof. induction 1; cbn; [auto|]. intro H1. econstructor; eauto. Qed.

Section Collect.
  Context (env : genv).

  (** ** Registered locations are simple trails *)
  Lemma trail_reg t toks ts t' : trail env t toks ts t' -> forall path l, NoDup (path ++ ts) -> reg env path l t (under env t') (fst l, snd l ++ toks).
  Proof.
    induction 1 as [t|t tok t1 toks ts t' Hs Ht IH]; intros path l N.
    - rewrite app_nil_r. destruct l. constructor.
    - eapply reg_step; [now apply NoDup_mid in N | exact Hs|]. apply NoDup_shift in N. specialize (IH _ (fst l, snd l ++ [tok]) N). cbn [fst snd] in IH. now rewrite <- app_assoc in IH.
  Qed.
  Lemma trail_reg_named t s1 ts1 i : trail env t s1 ts1 (TNamed i) -> s1 <> [] -> forall d pk s2 ts2 t', nth_error env i = Some d -> d_pkg d = Some pk ->
    trail env (TNamed i) s2 ts2 t' -> forall path l, NoDup (path ++ ts1 ++ ts2) -> reg env path l t (under env t') (pk, d_name d :: s2).
  Proof.
    intro H. remember (TNamed i) as tn eqn:En. induction H as [t|t tok t1 toks ts tn Hs Ht IH]; [congruence|]. subst tn. specialize (IH eq_refl).
    intros _ d pk s2 ts2 t' Ei Ep H2 path l N. cbn [app] in N. pose proof (NoDup_mid _ _ _ N) as Nu. apply NoDup_shift in N. destruct toks as [|tok2 toks].
    - inversion Ht; subst. eapply reg_named; [exact Nu | exact Hs | exact Ei | exact Ep|]. cbn [app] in N. exact (trail_reg _ _ _ _ H2 _ (pk, [d_name d]) N).
    - eapply reg_step; [exact Nu | exact Hs|]. eapply IH; eauto. discriminate.
  Qed.
  (** The location l' is named from the location l of t, along tokens s1 ++ s2. *)
  Definition spot (l : loc) (t : gty) (T : gty) (l' : loc) (ts : list gty) : Prop :=
    (exists toks t', trail env t toks ts t' /\ T = under env t' /\ l' = (fst l, snd l ++ toks)) \/
    (exists s1 ts1 i d pk s2 ts2 t', trail env t s1 ts1 (TNamed i) /\ s1 <> [] /\ nth_error env i = Some d /\ d_pkg d = Some pk /\ trail env (TNamed i) s2 ts2 t' /\
       ts = ts1 ++ ts2 /\ T = under env t' /\ l' = (pk, d_name d :: s2)).
  Lemma reg_spot path l t T l' : reg env path l t T l' -> NoDup path -> exists ts, NoDup (path ++ ts) /\ spot l t T l' ts.
  Proof.
    induction 1 as [path l t|path l t tok t1 T l' Nu Hs _ IH|path l t tok i d pk T l' Nu Hs Ei Ep _ IH]; intro N.
    - exists []. rewrite app_nil_r. split; [exact N|]. left. exists [], t. split; [constructor|]. split; [reflexivity|]. rewrite app_nil_r. now destruct l.
    - destruct (IH (NoDup_snoc _ _ N Nu)) as (ts & N1 & S). exists (under env t :: ts). split; [now apply NoDup_shift|].
      destruct S as [(toks & t' & Ht & ET & El)|(s1 & ts1 & i & d & pk & s2 & ts2 & t' & H1 & Ns & Ei & Ep & H2 & Ets & ET & El)].
      + left. exists (tok :: toks), t'. split; [econstructor; eauto|]. split; [exact ET|]. rewrite El. cbn [fst snd]. now rewrite <- app_assoc.
      + right. exists (tok :: s1), (under env t :: ts1), i, d, pk, s2, ts2, t'. split; [econstructor; eauto|]. split; [discriminate|]. subst ts. auto 10.
    - destruct (IH (NoDup_snoc _ _ N Nu)) as (ts & N1 & S). exists (under env t :: ts). split; [now apply NoDup_shift|]. right.
      destruct S as [(toks & t' & Ht & ET & El)|(s1 & ts1 & i' & d' & pk' & s2 & ts2 & t' & H1 & Ns & Ei' & Ep' & H2 & Ets & ET & El)].
      + exists [tok], [under env t], i, d, pk, toks, ts, t'. split; [econstructor; [exact Hs | constructor]|]. split; [discriminate|]. split; [exact Ei|]. split; [exact Ep|]. split; [exact Ht|]. auto.
      + exists (tok :: s1), (under env t :: ts1), i', d', pk', s2, ts2, t'. split; [econstructor; eauto|]. split; [discriminate|]. subst ts. auto 10.
  Qed.
  Lemma spot_reg path l t T l' ts : NoDup (path ++ ts) -> spot l t T l' ts -> reg env path l t T l'.
  Proof.
    intros N [(toks & t' & Ht & -> & ->)|(s1 & ts1 & i & d & pk & s2 & ts2 & t' & H1 & Ns & Ei & Ep & H2 & -> & -> & ->)].
    - eapply trail_reg; eauto.
    - eapply trail_reg_named; eauto.
  Qed.

  (** ** Termination and panics *)
  Lemma under_case t : under env t = t \/ (exists i d, t = TNamed i /\ nth_error env i = Some d /\ under env t = d_under d) \/ under env t = TBasic KInvalid.
  Proof. destruct t; auto. cbn. destruct (nth_error env i) as [d|] eqn:E; [right; left; eauto | auto]. Qed.
  Fixpoint subterms (t : gty) : list gty :=
    t :: match t with
         | TPtr e | TSlice e | TArray _ e | TChan _ e => subterms e
         | TMap k e => subterms k ++ subterms e
         | TStruct fs => flat_map (fun x => subterms (snd x)) fs
         | _ => []
         end.
  Lemma subterms_self t : In t (subterms t).
  Proof. destruct t; now left. Qed.
  Lemma subterms_trans z : forall x y, In x (subterms y) -> In y (subterms z) -> In x (subterms z).
  Proof.
    induction z as [k|i|t IH|t IH|n t IH|k t IHk IH|d t IH|fs IH|i] using gty_induction; intros x y Hx [<- |Hy]; try exact Hx; cbn in Hy; try contradiction; right; try (eapply IH; eauto; fail).
    - apply in_app_iff in Hy as [Hy|Hy]; apply in_app_iff; [left; eapply IHk; eauto | right; eapply IH; eauto].
    - apply in_flat_map in Hy as (f & Hf & Hy). apply in_flat_map. exists f. split; [exact Hf|]. rewrite Forall_forall in IH. eapply IH; eauto.
  Qed.
  Lemma step_subterm t tok t1 : step env t tok t1 -> In t1 (subterms (under env t)).
  Proof.
    destruct 1 as [t fs i e E Hin Hx|t e E|t e E|t n e E|t k e E|t d e E]; rewrite E; cbn [subterms]; right; try apply subterms_self.
    - apply in_flat_map. exists (i, e). split; [exact Hin | apply subterms_self].
    - apply in_app_iff. right. apply subterms_self.
  Qed.
  Definition pool (t : gty) : list gty := subterms t ++ flat_map (fun d => subterms (d_under d)) env.
  Lemma pool_under t x : In x (pool t) -> In (under env x) (pool t) \/ under env x = TBasic KInvalid.
  Proof.
    intro H. destruct (under_case x) as [-> |[(i & d & -> & E & ->)| ->]]; auto. left. apply in_app_iff. right. apply in_flat_map. exists d. split; [now apply nth_error_In in E | apply subterms_self].
  Qed.
  Theorem closed_exists t : exists L, closed_types env t L.
  Proof.
    exists (map (under env) (pool t)). split.
    - apply in_map. apply in_app_iff. left. apply subterms_self.
    - intros t1 tok t2 Hin Hs. apply in_map_iff in Hin as (x & Ex & Hx). pose proof Hs as Hs0. apply step_subterm in Hs. rewrite <- Ex in Hs. apply in_map.
      destruct (pool_under t x Hx) as [Hu|Hu]; rewrite ?Hu in Hs.
      + apply in_app_iff in Hu as [Hu|Hu]; apply in_app_iff; [left; eapply subterms_trans; eauto|]. right. apply in_flat_map in Hu as (d & Hd & Hu). apply in_flat_map. exists d. split; [exact Hd|]. eapply subterms_trans; eauto.
      + exfalso. rewrite Ex in Hu. destruct Hs0; congruence.
  Qed.

  Context (Henv : env_ok env).
  Lemma walk_next_fuel w next : forall m, (forall p e m, In (p, e) next -> w p e m <> OutOfFuel) ->
    (forall p i d np m, In (p, TNamed i) next -> nth_error env i = Some d -> new_point (d_pkg d) (d_name d) = Ok np -> w np (TNamed i) m <> OutOfFuel) ->
    walk_next env w next m <> OutOfFuel.
  Proof.
    induction next as [|[p e] next IH]; intros m H1 H2; [discriminate|]. cbn [walk_next]. pose proof (H1 p e m (or_introl eq_refl)) as A.
    assert (K : forall m', walk_next env w next m' <> OutOfFuel) by (intro m'; apply IH; [intros; apply H1; now right | intros p0 i d np m0 Hin Ei En; exact (H2 p0 i d np m0 (or_intror Hin) Ei En)]).
    destruct (w p e m) as [m1| | |]; cbn [bind]; try discriminate; try congruence.
    destruct e; cbn [bind]; try apply K. destruct (nth_error env i) as [d|] eqn:Ei; cbn [bind]; [|apply K].
    destruct (new_point (d_pkg d) (d_name d)) as [np| | |] eqn:En; cbn [bind]; try discriminate; [|destruct (d_pkg d); discriminate].
    pose proof (H2 p i d np m1 (or_introl eq_refl) Ei En) as B. destruct (w np (TNamed i) m1); cbn [bind]; try discriminate; [apply K | congruence].
  Qed.
  Theorem walk_fuel L : (forall t1 tok t2, In (under env t1) L -> step env t1 tok t2 -> In (under env t2) L) ->
    forall fuel path r t m l, at_loc r l -> field_names_ok t = true -> In (under env t) L -> NoDup path -> incl path L -> length L < fuel + length path ->
    walk env fuel path r t m <> OutOfFuel.
  Proof.
    intro Hc. induction fuel as [|fuel IH]; intros path r t m l Hl Ht HL N Hi Hf.
    - pose proof (NoDup_incl_length N Hi). lia.
    - cbn [walk]. destruct (existsb _ path) eqn:V; [discriminate|]. apply has_not_in in V. destruct (next_steps_spec env Henv r l t Hl Ht) as (next & -> & N1 & _). cbn [bind].
      assert (Np : NoDup (path ++ [under env t])) by now apply NoDup_snoc.
      assert (Ip : incl (path ++ [under env t]) L) by (apply incl_app; [exact Hi | intros x [<- |[]]; exact HL]).
      assert (Fp : length L < fuel + length (path ++ [under env t])) by (rewrite app_length; cbn; lia).
      apply walk_next_fuel.
      + intros p e m0 Hin. destruct (N1 _ _ Hin) as (tok & Hs & Hp). destruct (names_step env Henv t tok e Ht Hs) as [He _]. apply (IH _ p e m0 _ Hp He); eauto.
      + intros p i d np m0 Hin Ei Enp. destruct (N1 _ _ Hin) as (tok & Hs & _). destruct (names_step env Henv t tok _ Ht Hs) as [He _]. destruct (d_pkg d) as [pk|] eqn:Ep; [|discriminate].
        destruct (decl_named env Henv i d pk Ei Ep) as [Hpk Hname]. destruct (new_point_loc pk (d_name d) Hpk Hname) as (q & Eq & Hq). assert (q = np) by congruence. subst q. apply (IH _ np (TNamed i) m0 _ Hq He); eauto.
  Qed.
  (** A universe type (error) is reached by a simple trail. *)
  Definition bad (path : list gty) (t : gty) : Prop := exists toks ts t', toks <> [] /\ trail env t toks ts t' /\ NoDup (path ++ ts) /\ universe_type env t'.
  Lemma bad_step path t tok e : NoDup path -> ~ In (under env t) path -> step env t tok e -> universe_type env e \/ bad (path ++ [under env t]) e -> bad path t.
  Proof.
    intros N Nu Hs [U|(toks & ts & t' & _ & Ht & Nt & U)].
    - exists [tok], [under env t], e. split; [discriminate|]. split; [econstructor; [exact Hs | constructor]|]. split; [now apply NoDup_snoc | exact U].
    - exists (tok :: toks), (under env t :: ts), t'. split; [discriminate|]. split; [econstructor; eauto|]. split; [now apply NoDup_shift | exact U].
  Qed.
  Theorem walk_panics fuel : forall path r t m l, at_loc r l -> field_names_ok t = true -> NoDup path -> walk env fuel path r t m = Panic -> bad path t.
  Proof.
    induction fuel as [|fuel IH]; intros path r t m l Hl Ht N H; [discriminate|]. cbn [walk] in H. destruct (existsb _ path) eqn:V; [discriminate|]. apply has_not_in in V.
    destruct (next_steps_spec env Henv r l t Hl Ht) as (next & En & N1 & _). rewrite En in H. cbn [bind] in H. assert (Np : NoDup (path ++ [under env t])) by now apply NoDup_snoc.
    clear En. revert H. generalize (pm_append m (under env t) r). clear m. induction next as [|[p e] next IHn]; intros m H; [discriminate|]. cbn [walk_next] in H.
    destruct (N1 p e (or_introl eq_refl)) as (tok & Hs & Hp). destruct (names_step env Henv t tok e Ht Hs) as [He _].
    assert (K : forall m', walk_next env (walk env fuel (path ++ [under env t])) next m' = Panic -> bad path t) by (apply IHn; intros; apply N1; now right).
    destruct (walk env fuel (path ++ [under env t]) p e m) as [m1| | |] eqn:E1; cbn [bind] in H; try discriminate.
    - destruct e; cbn [bind] in H; try (eapply K; exact H). destruct (nth_error env i) as [d|] eqn:Ei; cbn [bind] in H; [|eapply K; exact H].
      destruct (d_pkg d) as [pk|] eqn:Ep.
      + destruct (decl_named env Henv i d pk Ei Ep) as [Hpk Hname]. destruct (new_point_loc pk (d_name d) Hpk Hname) as (q & Eq & Hq). rewrite Eq in H. cbn [bind] in H.
        destruct (walk env fuel (path ++ [under env t]) q (TNamed i) m1) eqn:E2; cbn [bind] in H; try discriminate; [eapply K; exact H|].
        apply (bad_step path t tok _ N V Hs); right. eapply IH; eauto.
      + apply (bad_step path t tok _ N V Hs); left. exists i, d. auto.
    - apply (bad_step path t tok _ N V Hs); right. eapply IH; eauto.
  Qed.
  Theorem walk_ok_no_bad fuel : forall path r t m m' l, at_loc r l -> field_names_ok t = true -> walk env fuel path r t m = Ok m' -> ~ bad path t.
  Proof.
    induction fuel as [|fuel IH]; intros path r t m m' l Hl Ht H; [discriminate|]. intros (toks & ts & t' & Nt & Htr & N & U). destruct Htr as [|t tok e toks ts t' Hs Htr]; [congruence|].
    cbn [walk] in H. pose proof (NoDup_mid _ _ _ N) as Nu. apply has_not_in in Nu. rewrite Nu in H. apply NoDup_shift in N.
    destruct (next_steps_spec env Henv r l t Hl Ht) as (next & En & _ & N2). rewrite En in H. cbn [bind] in H. destruct (N2 _ _ Hs) as (p & Hin & Hp). destruct (names_step env Henv t tok e Ht Hs) as [He _].
    clear En N2 Nu. revert Hin H. generalize (pm_append m (under env t) r). clear m. induction next as [|[p0 e0] next IHn]; intros m Hin H; [destruct Hin|]. cbn [walk_next] in H.
    apply bind_ok in H as (m1 & E1 & H). apply bind_ok in H as (m2 & E2 & H). destruct Hin as [[= -> ->]|Hin]; [|now apply (IHn m2)].
    destruct toks as [|tok2 toks].
    - inversion Htr; subst. destruct U as (i & d & -> & Ei & Ep). rewrite Ei, Ep in E2. discriminate.
    - eapply IH; [exact Hp | exact He | exact E1|]. exists (tok2 :: toks), ts, t'. split; [discriminate|]. auto.
  Qed.
  Theorem walk_never_err fuel : forall path r t m l, at_loc r l -> field_names_ok t = true -> walk env fuel path r t m <> Err.
  Proof.
    induction fuel as [|fuel IH]; intros path r t m l Hl Ht; [discriminate|]. cbn [walk]. destruct (existsb _ path); [discriminate|].
    destruct (next_steps_spec env Henv r l t Hl Ht) as (next & -> & N1 & _). cbn [bind]. generalize (pm_append m (under env t) r). clear m. induction next as [|[p e] next IHn]; intros m; [discriminate|]. cbn [walk_next].
    destruct (N1 p e (or_introl eq_refl)) as (tok & Hs & Hp). destruct (names_step env Henv t tok e Ht Hs) as [He _].
    assert (K : forall m', walk_next env (walk env fuel (path ++ [under env t])) next m' <> Err) by (apply IHn; intros; apply N1; now right).
    pose proof (IH (path ++ [under env t]) p e m _ Hp He) as A. destruct (walk env fuel (path ++ [under env t]) p e m) as [m1| | |]; cbn [bind]; try discriminate; try congruence.
    destruct e; cbn [bind]; try apply K. destruct (nth_error env i) as [d|] eqn:Ei; cbn [bind]; [|apply K]. destruct (d_pkg d) as [pk|] eqn:Ep; [|discriminate].
    destruct (decl_named env Henv i d pk Ei Ep) as [Hpk Hname]. destruct (new_point_loc pk (d_name d) Hpk Hname) as (q & Eq & Hq). rewrite Eq. cbn [bind].
    pose proof (IH (path ++ [under env t]) q (TNamed i) m1 _ Hq He) as B. destruct (walk env fuel (path ++ [under env t]) q (TNamed i) m1); cbn [bind]; try discriminate; [apply K | congruence].
  Qed.
End Collect.
