(** What collecting a type registers. *)
From Coq Require Import String Ascii List Bool Arith ZArith Lia.
From Verif Require Import GoStr GoStrFacts Json JsonFacts MergeFacts Url Pointer Spec_Ptr FragFacts PtrFacts Tag Types Spec_Types TypesFacts.
Import ListNotations.
Local Open Scope string_scope.
Local Open Scope nat_scope.
Local Open Scope list_scope.

Section Walk.
  Context (env : genv) (Henv : env_ok env).

  (** What walk registers, from a location and a type, with the types already on the way. *)
  Inductive reg : list gty -> loc -> gty -> gty -> loc -> Prop :=
  | reg_here path l t : reg path l t (under env t) l
  | reg_step path l t tok t1 T l' : ~ In (under env t) path -> step env t tok t1 ->
      reg (path ++ [under env t]) (fst l, snd l ++ [tok]) t1 T l' -> reg path l t T l'
  | reg_named path l t tok i d pk T l' : ~ In (under env t) path -> step env t tok (TNamed i) -> nth_error env i = Some d -> d_pkg d = Some pk ->
      reg (path ++ [under env t]) (pk, [d_name d]) (TNamed i) T l' -> reg path l t T l'.

  Lemma names_under t : field_names_ok t = true -> field_names_ok (under env t) = true.
  Proof.
    destruct t; auto. intros _. cbn [under]. destruct (nth_error env i) as [d|] eqn:E; [|reflexivity]. apply nth_error_In in E. unfold env_ok in Henv. rewrite Forall_forall in Henv. now apply Henv.
  Qed.
  Lemma names_step t tok t1 : field_names_ok t = true -> step env t tok t1 -> field_names_ok t1 = true /\ tok_ok tok = true.
  Proof.
    intros Ht Hs. apply names_under in Ht. destruct Hs as [t fs i e E Hin Hx|t e E|t e E|t n e E|t k e E|t d e E]; rewrite E in Ht; cbn in Ht; try (split; [exact Ht | reflexivity]).
    - rewrite forallb_forall in Ht. specialize (Ht _ Hin). cbn in Ht. apply andb_true_iff in Ht as [A B]. split; [exact B | now apply ident_tok in A].
    - apply andb_true_iff in Ht as [_ B]. split; [exact B | reflexivity].
  Qed.
  Lemma decl_named i d pk : nth_error env i = Some d -> d_pkg d = Some pk -> import_path pk /\ go_ident (d_name d) = true.
  Proof. intros E Ep. apply nth_error_In in E. unfold env_ok in Henv. rewrite Forall_forall in Henv. destruct (Henv _ E) as (A & _ & B). auto. Qed.

  Lemma next_steps_spec r l t : at_loc r l -> field_names_ok t = true -> exists next, next_steps r (under env t) = Ok next /\
    (forall p e, In (p, e) next -> exists tok, step env t tok e /\ at_loc p (fst l, snd l ++ [tok])) /\
    (forall tok e, step env t tok e -> exists p, In (p, e) next /\ at_loc p (fst l, snd l ++ [tok])).
  Proof.
    intros Hl Ht. pose proof (names_under t Ht) as Hu.
    assert (K : forall tok e, step env t tok e -> (forall tok' e', step env t tok' e' -> tok' = tok /\ e' = e) -> exists next, (do p <- with_desc r tok ; Ok [(p, e)]) = Ok next /\
      (forall p e', In (p, e') next -> exists tok', step env t tok' e' /\ at_loc p (fst l, snd l ++ [tok'])) /\
      (forall tok' e', step env t tok' e' -> exists p, In (p, e') next /\ at_loc p (fst l, snd l ++ [tok']))).
    { intros tok e Hs Huniq. destruct (names_step t tok e Ht Hs) as [_ Htok]. destruct (with_desc_loc r l tok Hl Htok) as (q & -> & Hq). cbn [bind]. eexists. split; [reflexivity|]. split.
      - intros p e' [[= <- <-]|[]]. exists tok. auto.
      - intros tok' e' Hs'. destruct (Huniq _ _ Hs') as [-> ->]. exists q. split; [now left | exact Hq]. }
    assert (Z : (forall tok e, ~ step env t tok e) -> exists next, @Ok (list (ptr * gty)) [] = Ok next /\
      (forall p e', In (p, e') next -> exists tok', step env t tok' e' /\ at_loc p (fst l, snd l ++ [tok'])) /\
      (forall tok' e', step env t tok' e' -> exists p, In (p, e') next /\ at_loc p (fst l, snd l ++ [tok']))).
    { intro N. eexists. split; [reflexivity|]. split; [intros p e' []|]. intros tok e Hs. destruct (N _ _ Hs). }
    destruct (under env t) as [k|i|e|e|n e|k e|d e|fs|i] eqn:E; cbn [next_steps].
    - apply Z. intros tok e Hs. destruct Hs; congruence.
    - apply Z. intros tok e Hs. destruct Hs; congruence.
    - apply K; [now constructor|]. intros tok' e' Hs. destruct Hs; try congruence. split; congruence.
    - apply K; [now constructor|]. intros tok' e' Hs. destruct Hs; try congruence; split; congruence.
    - apply K; [now econstructor; eauto|]. intros tok' e' Hs. destruct Hs; try congruence; split; congruence.
    - apply K; [now eapply step_map; eauto|]. intros tok' e' Hs. destruct Hs; try congruence; split; congruence.
    - apply K; [now eapply step_chan; eauto|]. intros tok' e' Hs. destruct Hs; try congruence; split; congruence.
    - assert (F : exists next, field_steps r fs = Ok next /\
        (forall p e, In (p, e) next -> exists i, In (i, e) fs /\ exported (f_name i) = true /\ at_loc p (fst l, snd l ++ [f_name i])) /\
        (forall i e, In (i, e) fs -> exported (f_name i) = true -> exists p, In (p, e) next /\ at_loc p (fst l, snd l ++ [f_name i]))).
      { clear E K Z Ht. cbn [field_names_ok] in Hu. unfold field_steps. induction fs as [|[i e] fs IH].
        - exists []. split; [reflexivity|]. split; [intros p e []|]. intros i e [].
        - cbn [forallb fst snd] in Hu. apply andb_true_iff in Hu as [Hi Hfs]. apply andb_true_iff in Hi as [Hi _]. destruct (IH Hfs) as (next & IH0 & IH1 & IH2). clear IH.
          destruct (exported (f_name i)) eqn:Ex; cbn [negb].
          + apply ident_tok in Hi as [Htok _]. destruct (with_desc_loc r l (f_name i) Hl Htok) as (q & -> & Hq). cbn [bind]. rewrite IH0. cbn [bind]. eexists. split; [reflexivity|]. split.
            * intros p e' [[= <- <-]|Hin]; [exists i; cbn; auto|]. destruct (IH1 _ _ Hin) as (i' & A & B & C). exists i'. cbn. auto.
            * intros i' e' [[= <- <-]|Hin] Hx; [exists q; cbn; auto|]. destruct (IH2 _ _ Hin Hx) as (p & A & B). exists p. cbn. auto.
          + exists next. split; [exact IH0|]. split.
            * intros p e' Hin. destruct (IH1 _ _ Hin) as (i' & A & B & C). exists i'. cbn. auto.
            * intros i' e' [[= <- <-]|Hin] Hx; [congruence|]. now apply IH2. }
      destruct F as (next & F0 & F1 & F2). exists next. split; [exact F0|]. split.
      + intros p e Hin. destruct (F1 _ _ Hin) as (i & A & B & C). exists (f_name i). split; [econstructor; eauto | exact C].
      + intros tok e Hs. destruct Hs as [t fs' i e E' Hin Hx| | | | |]; try congruence. rewrite E in E'. injection E' as <-. now apply F2.
    - apply Z. intros tok e Hs. destruct Hs; congruence.
  Qed.

  (** The location of a pointer is unique. *)
  Lemma at_loc_fun p l l' : at_loc p l -> at_loc p l' -> l = l'.
  Proof.
    intros (I1 & G1 & F1 & _) (I2 & G2 & F2 & _). destruct (go_string_inj _ _ p p I1 I2 G1 G2 eq_refl) as [E _]. destruct l, l'. cbn in *. congruence.
  Qed.

  Definition adds (w : ptr -> gty -> pmap -> res pmap) (A : ptr -> gty -> gty -> string -> Prop) (p : ptr) (e : gty) : Prop :=
    forall m m', w p e m = Ok m' -> forall T txt, registered m' T txt <-> registered m T txt \/ A p e T txt.
  Lemma walk_next_spec w A next : forall m m',
    (forall p e, In (p, e) next -> adds w A p e) ->
    (forall p i d np, In (p, TNamed i) next -> nth_error env i = Some d -> new_point (d_pkg d) (d_name d) = Ok np -> adds w A np (TNamed i)) ->
    walk_next env w next m = Ok m' -> forall T txt, registered m' T txt <-> registered m T txt \/
      exists p e, In (p, e) next /\ (A p e T txt \/ exists i d np, e = TNamed i /\ nth_error env i = Some d /\ new_point (d_pkg d) (d_name d) = Ok np /\ A np e T txt).
  Proof.
    induction next as [|[p e] next IH]; intros m m' H1 H2 H T txt.
    - injection H as <-. split; [tauto|]. intros [X|(p & e & [] & _)]. exact X.
    - cbn [walk_next] in H. apply bind_ok in H as (m1 & E1 & H). apply bind_ok in H as (m2 & E2 & H).
      assert (a1 : forall p e, In (p, e) next -> adds w A p e) by (intros; apply H1; now right).
      assert (a2 : forall p i d np, In (p, TNamed i) next -> nth_error env i = Some d -> new_point (d_pkg d) (d_name d) = Ok np -> adds w A np (TNamed i)) by (intros p0 i d np Hin Ei En; exact (H2 p0 i d np (or_intror Hin) Ei En)).
      rewrite (IH m2 m' a1 a2 H T txt). clear IH H a1 a2.
      pose proof (H1 p e (or_introl eq_refl) m m1 E1 T txt) as A1.
      assert (A2 : registered m2 T txt <-> registered m1 T txt \/ exists i d np, e = TNamed i /\ nth_error env i = Some d /\ new_point (d_pkg d) (d_name d) = Ok np /\ A np e T txt).
      { destruct e; try (injection E2 as <-; split; [tauto|]; intros [X|(i' & d' & np & [=] & _)]; exact X).
        destruct (nth_error env i) as [d|] eqn:Ei; [|injection E2 as <-; split; [tauto|]; intros [X|(i' & d' & np & [= <-] & X & _)]; [exact X | congruence]].
        apply bind_ok in E2 as (np & Enp & E2). pose proof (H2 p i d np (or_introl eq_refl) Ei Enp m1 m2 E2 T txt) as A3. rewrite A3. split.
        - intros [X|X]; [tauto|]. right. exists i, d, np. auto.
        - intros [X|(i' & d' & np' & [= <-] & Ei' & Enp' & X)]; [tauto|]. right. assert (d' = d) by congruence. subst d'. assert (np' = np) by congruence. now subst np'. }
      rewrite A2, A1. split.
      + intros [[[X|X]|X]|(p' & e' & Hin & X)]; [tauto| | |]; right.
        * exists p, e. split; [now left | now left].
        * exists p, e. split; [now left | now right].
        * exists p', e'. split; [now right | exact X].
      + intros [X|(p' & e' & [[= <- <-]|Hin] & X)]; [tauto| |].
        * tauto.
        * right. eauto.
  Qed.
  Theorem walk_spec fuel : forall path r t m m' l, at_loc r l -> field_names_ok t = true -> walk env fuel path r t m = Ok m' ->
    forall T txt, registered m' T txt <-> registered m T txt \/ exists l', reg path l t T l' /\ txt = loc_text (fst l') (snd l').
  Proof.
    induction fuel as [|fuel IH]; intros path r t m m' l Hl Ht H T txt; [discriminate|]. cbn [walk] in H.
    assert (B : registered (pm_append m (under env t) r) T txt <-> registered m T txt \/ (T = under env t /\ txt = loc_text (fst l) (snd l))).
    { rewrite registered_append. now rewrite (at_loc_text r l Hl). }
    destruct (existsb (fun x => gty_eqb x (under env t)) path) eqn:V.
    - injection H as <-. apply has_in in V. rewrite B. split.
      + intros [X|[-> ->]]; [tauto|]. right. exists l. split; [constructor | reflexivity].
      + intros [X|(l' & R & ->)]; [tauto|]. right. inversion R; subst; [auto | contradiction | contradiction].
    - apply has_not_in in V. apply bind_ok in H as (next & En & H). destruct (next_steps_spec r l t Hl Ht) as (next' & En' & N1 & N2).
      assert (next' = next) by congruence. subst next'. clear En'.
      set (A := fun p e T txt => exists l0, at_loc p l0 /\ exists l', reg (path ++ [under env t]) l0 e T l' /\ txt = loc_text (fst l') (snd l')).
      assert (K : forall p l0 e, at_loc p l0 -> field_names_ok e = true -> adds (walk env fuel (path ++ [under env t])) A p e).
      { intros p l0 e Hp He m1 m2 Hw T0 txt0. rewrite (IH _ _ _ _ _ _ Hp He Hw T0 txt0). unfold A. split.
        - intros [X|X]; [tauto|]. right. exists l0. auto.
        - intros [X|(l1 & Hl1 & X)]; [tauto|]. right. now rewrite (at_loc_fun p l0 l1 Hp Hl1). }
      assert (a1 : forall p e, In (p, e) next -> adds (walk env fuel (path ++ [under env t])) A p e).
      { intros p e Hin. destruct (N1 _ _ Hin) as (tok & Hs & Hp). apply (K p _ e Hp). now apply (names_step t tok e Ht). }
      assert (a2 : forall p i d np, In (p, TNamed i) next -> nth_error env i = Some d -> new_point (d_pkg d) (d_name d) = Ok np -> adds (walk env fuel (path ++ [under env t])) A np (TNamed i)).
      { intros p i d np Hin Ei Enp. destruct (d_pkg d) as [pk|] eqn:Ep; [|discriminate Enp]. destruct (decl_named i d pk Ei Ep) as [Hpk Hname].
        destruct (new_point_loc pk (d_name d) Hpk Hname) as (q & Eq & Hq). assert (q = np) by congruence. subst q. now apply (K np _ (TNamed i) Hq). }
      rewrite (walk_next_spec _ A next _ m' a1 a2 H T txt). clear a1 a2.
      rewrite B. split.
      + intros [[X|[-> ->]]|(p & e & Hin & [X|(i & d & np & -> & Ei & Enp & X)])]; [tauto | | |]; right.
        * exists l. split; [constructor | reflexivity].
        * destruct X as (l0 & Hl0 & l' & R & ->). destruct (N1 _ _ Hin) as (tok & Hs & Hp). rewrite (at_loc_fun p _ _ Hl0 Hp) in R. exists l'. split; [eapply reg_step; eauto | reflexivity].
        * destruct X as (l0 & Hl0 & l' & R & ->). destruct (N1 _ _ Hin) as (tok & Hs & Hp). destruct (d_pkg d) as [pk|] eqn:Ep; [|discriminate Enp].
          destruct (decl_named i d pk Ei Ep) as [Hpk Hname]. destruct (new_point_loc pk (d_name d) Hpk Hname) as (q & Eq & Hq). assert (q = np) by congruence. subst q.
          rewrite (at_loc_fun np _ _ Hl0 Hq) in R. exists l'. split; [eapply reg_named; eauto | reflexivity].
      + intros [X|(l' & R & ->)]; [tauto|]. inversion R as [? ? ?|? ? ? tok t1 ? ? _ Hs R'|? ? ? tok i d pk ? ? _ Hs Ei Ep R']; subst.
        * left. right. auto.
        * right. destruct (N2 _ _ Hs) as (p & Hin & Hp). exists p, t1. split; [exact Hin|]. left. exists (fst l, snd l ++ [tok]). split; [exact Hp|]. eauto.
        * right. destruct (N2 _ _ Hs) as (p & Hin & Hp). exists p, (TNamed i). split; [exact Hin|]. right. destruct (decl_named i d pk Ei Ep) as [Hpk Hname].
          destruct (new_point_loc pk (d_name d) Hpk Hname) as (q & Eq & Hq). exists i, d, q. split; [reflexivity|]. split; [exact Ei|]. split; [now rewrite Ep|]. exists (pk, [d_name d]). split; [exact Hq|]. eauto.
  Qed.
End Walk.
