From Coq Require Import String List Bool Arith Lia Wf_nat.
From Verif Require Import GoStr Json JsonFacts RouteCache.
Import ListNotations.
Local Open Scope list_scope.

Section Facts.
  Context {R : Type} (compile : string -> option R).
  Notation mstep := (mstep compile).

  Lemma set_pc_nth i (p : pc R) l : forall s p0, nth_error l i = Some (s, p0) -> nth_error (set_pc i p l) i = Some (s, p).
  Proof. revert i. induction l as [|[s' q] l IH]; intros [|i] s p0 H; try discriminate; cbn in *; [congruence | now apply IH with p0]. Qed.
  Lemma set_pc_other i j (p : pc R) l : i <> j -> nth_error (set_pc i p l) j = nth_error l j.
  Proof. revert i j. induction l as [|[s q] l IH]; intros [|i] [|j] H; cbn; auto; try congruence. apply IH. congruence. Qed.
  Lemma set_pc_fst i (p : pc R) l : map fst (set_pc i p l) = map fst l.
  Proof. revert i. induction l as [|[s q] l IH]; intros [|i]; cbn; auto. f_equal. apply IH. Qed.

  Definition holds (p : pc R) : Prop := match p with PStart | PDone _ => False | _ => True end.
  Definition pc_ok (s : string) (p : pc R) : Prop :=
    match p with
    | PStore r => compile s = Some r
    | PUnlock res | PDone res => res = compile s
    | _ => True
    end.
  Definition inv (st : mstate R) : Prop :=
    cache_ok compile (m_cache st) /\
    (forall i s p, nth_error (m_threads st) i = Some (s, p) -> pc_ok s p /\ (holds p -> m_lock st = Some i)) /\
    (forall i, m_lock st = Some i -> exists s p, nth_error (m_threads st) i = Some (s, p) /\ holds p).

  Lemma init_inv c pats : cache_ok compile c -> inv (minit c pats).
  Proof.
    intro Hc. split; [exact Hc|]. split; [|discriminate]. intros i s p H. cbn in H. rewrite nth_error_map in H.
    destruct (nth_error pats i); [|discriminate]. injection H as <- <-. split; [exact I | intros []].
  Qed.

  (** A step that keeps the lock with thread i and changes its program counter. *)
  Lemma keep_inv c c' i ts s p p' : inv {| m_cache := c; m_lock := Some i; m_threads := ts |} -> nth_error ts i = Some (s, p) ->
    cache_ok compile c' -> pc_ok s p' -> holds p' -> inv {| m_cache := c'; m_lock := Some i; m_threads := set_pc i p' ts |}.
  Proof.
    intros (H1 & H2 & H3) Hn Hc Hp Hh. split; [exact Hc|]. split.
    - intros j s' q Hj. cbn in *. destruct (Nat.eq_dec i j) as [<-|N].
      + rewrite (set_pc_nth i p' ts s p Hn) in Hj. injection Hj as <- <-. auto.
      + rewrite set_pc_other in Hj by exact N. destruct (H2 j s' q Hj) as [A B]. auto.
    - intros j E. injection E as <-. exists s, p'. cbn. split; [eapply set_pc_nth; eassumption | exact Hh].
  Qed.
  Lemma cache_oset c s r : cache_ok compile c -> compile s = Some r -> cache_ok compile (oset s r c).
  Proof.
    intros Hc Hs s' r' H. rewrite oget_oset in H. destruct (String.eqb_spec s' s) as [->|N]; [congruence|]. now apply Hc.
  Qed.

  Lemma step_inv i st st' : inv st -> mstep i st st' -> inv st'.
  Proof.
    intros Hi H. pose proof Hi as (H1 & H2 & H3). inversion H as [c ts s Hn|c k ts s Hn|c k ts s Hn|c k ts s r Hn|c k ts s res Hn]; subst; cbn in *.
    - (* lock *) split; [exact H1|]. split.
      + intros j s' q Hj. cbn in *. destruct (Nat.eq_dec i j) as [<-|N].
        * rewrite (set_pc_nth i PLocked ts s _ Hn) in Hj. injection Hj as <- <-. split; [exact I | auto].
        * rewrite set_pc_other in Hj by exact N. destruct (H2 j s' q Hj) as [A B]. split; [exact A|]. intro Hq. specialize (B Hq). discriminate.
      + intros j E. injection E as <-. exists s, PLocked. cbn. split; [eapply set_pc_nth; eassumption | exact I].
    - (* lookup *) destruct (H2 i s _ Hn) as [_ E]. specialize (E I). subst k.
      eapply keep_inv; [exact Hi | exact Hn | exact H1 | |]; destruct (oget s c) as [r|] eqn:Eg; cbn; auto. symmetry. now apply H1.
    - (* compile *) destruct (H2 i s _ Hn) as [_ E]. specialize (E I). subst k.
      eapply keep_inv; [exact Hi | exact Hn | exact H1 | |]; destruct (compile s) as [r|] eqn:Eg; cbn; auto.
    - (* store *) destruct (H2 i s _ Hn) as [Hp E]. specialize (E I). subst k. cbn in Hp.
      eapply keep_inv; [exact Hi | exact Hn | now apply cache_oset | cbn; congruence | exact I].
    - (* unlock *) destruct (H2 i s _ Hn) as [Hp E]. specialize (E I). subst k. split; [exact H1|]. split.
      + intros j s' q Hj. cbn in *. destruct (Nat.eq_dec i j) as [<-|N].
        * rewrite (set_pc_nth i (PDone res) ts s _ Hn) in Hj. injection Hj as <- <-. split; [exact Hp | intros []].
        * rewrite set_pc_other in Hj by exact N. destruct (H2 j s' q Hj) as [A B]. split; [exact A|]. intro Hq. specialize (B Hq). congruence.
      + discriminate.
  Qed.
  Lemma steps_inv st st' : msteps compile st st' -> inv st -> inv st'.
  Proof. induction 1; auto. intro Hi. apply IHmsteps. eapply step_inv; eassumption. Qed.
  Lemma steps_pats st st' : msteps compile st st' -> map fst (m_threads st') = map fst (m_threads st).
  Proof. induction 1 as [|s t u i H _ IH]; auto. rewrite IH. inversion H; subst; cbn; apply set_pc_fst. Qed.

  Theorem cache_transparent c pats st : cache_ok compile c -> msteps compile (minit c pats) st ->
    forall i res s, nth_error (m_threads st) i = Some (s, PDone res) -> nth_error pats i = Some s /\ res = compile s.
  Proof.
    intros Hc H i res s Hn. pose proof (steps_inv _ _ H (init_inv c pats Hc)) as (_ & H2 & _). split.
    - pose proof (steps_pats _ _ H) as E. cbn in E. rewrite map_map, map_id in E. rewrite <- E, nth_error_map, Hn. reflexivity.
    - apply (H2 i s (PDone res) Hn).
  Qed.
  Theorem cache_sound c pats st : cache_ok compile c -> msteps compile (minit c pats) st -> cache_ok compile (m_cache st).
  Proof. intros Hc H. apply (steps_inv _ _ H (init_inv c pats Hc)). Qed.
  Theorem map_exclusive c pats st : cache_ok compile c -> msteps compile (minit c pats) st ->
    forall i j s p t q, nth_error (m_threads st) i = Some (s, p) -> nth_error (m_threads st) j = Some (t, q) -> in_map p -> in_map q -> i = j.
  Proof.
    intros Hc H i j s p t q Hi Hj Hp Hq. pose proof (steps_inv _ _ H (init_inv c pats Hc)) as (_ & H2 & _).
    destruct (H2 i s p Hi) as [_ A]. destruct (H2 j t q Hj) as [_ B].
    assert (holds p) by (destruct p; cbn in *; tauto). assert (holds q) by (destruct q; cbn in *; tauto). specialize (A H0). specialize (B H1). congruence.
  Qed.

  (** Progress and termination. *)
  Definition rank (p : pc R) : nat := match p with PStart => 5 | PLocked => 4 | PCompile => 3 | PStore _ => 2 | PUnlock _ => 1 | PDone _ => 0 end.
  Definition measure (st : mstate R) : nat := list_sum (map (fun sp => rank (snd sp)) (m_threads st)).
  Lemma set_pc_measure i (p : pc R) ts : forall s p0, nth_error ts i = Some (s, p0) -> rank p < rank p0 ->
    list_sum (map (fun sp => rank (snd sp)) (set_pc i p ts)) < list_sum (map (fun sp => rank (snd sp)) ts).
  Proof.
    revert i. induction ts as [|[s' q] ts IH]; intros [|i] s p0 H Hr; try discriminate; cbn [nth_error] in H.
    - injection H as -> ->. cbn [set_pc map snd list_sum fold_right]. change (rank p + list_sum (map (fun sp => rank (snd sp)) ts) < rank p0 + list_sum (map (fun sp => rank (snd sp)) ts)). lia.
    - specialize (IH i s p0 H Hr). change (rank q + list_sum (map (fun sp => rank (snd sp)) (set_pc i p ts)) < rank q + list_sum (map (fun sp => rank (snd sp)) ts)). lia.
  Qed.
  Theorem step_decreases i st st' : mstep i st st' -> measure st' < measure st.
  Proof.
    intro H. inversion H; subst; unfold measure; cbn; eapply set_pc_measure; try eassumption; cbn; try lia.
    - destruct (oget s c); cbn; lia.
    - destruct (compile s); cbn; lia.
  Qed.
  Theorem steps_wf : well_founded (fun st' st => exists i, mstep i st st').
  Proof.
    assert (G : forall n st, measure st < n -> Acc (fun st' st => exists i, mstep i st st') st).
    { induction n as [|n IH]; intros st Hn; [lia|]. constructor. intros st' [i Hs]. apply IH. apply step_decreases in Hs. lia. }
    intro st. exact (G _ st (Nat.lt_succ_diag_r _)).
  Qed.
  Theorem progress c pats st : cache_ok compile c -> msteps compile (minit c pats) st ->
    (forall i s p, nth_error (m_threads st) i = Some (s, p) -> exists res, p = PDone res) \/ exists i st', mstep i st st'.
  Proof.
    intros Hc H. pose proof (steps_inv _ _ H (init_inv c pats Hc)) as (_ & H2 & H3). destruct st as [ca k ts]. cbn in *.
    destruct k as [i|].
    - right. exists i. destruct (H3 i eq_refl) as (s & p & Hn & Hh). destruct p; try destruct Hh.
      + eexists. eapply st_lookup; eassumption.
      + eexists. eapply st_compile; eassumption.
      + eexists. eapply st_store; eassumption.
      + eexists. eapply st_unlock; eassumption.
    - assert (Hall : forall i s p, nth_error ts i = Some (s, p) -> p = PStart \/ exists res, p = PDone res).
      { intros i s p Hn. destruct (H2 i s p Hn) as [_ A]. destruct p; auto; try (now specialize (A I)). eauto. }
      clear H H2 H3. assert ((exists i s, nth_error ts i = Some (s, PStart)) \/ (forall i s p, nth_error ts i = Some (s, p) -> exists res, p = PDone res)) as [(i & s & Hn)|Hd].
      { clear Hc. induction ts as [|[s p] ts IH].
        - right. intros [|i] s p Hn; discriminate.
        - destruct (Hall 0 s p eq_refl) as [->|[res ->]].
          + left. exists 0, s. reflexivity.
          + destruct IH as [(i & s' & Hn)|Hd].
            * intros i s' p Hn. exact (Hall (S i) s' p Hn).
            * left. exists (S i), s'. exact Hn.
            * right. intros [|i] s' p Hn; cbn in Hn; [injection Hn as _ <-; eauto | eauto]. }
      + right. exists i. eexists. eapply st_lock; eassumption.
      + left. exact Hd.
  Qed.
End Facts.
