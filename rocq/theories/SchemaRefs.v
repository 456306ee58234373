(** The references of a schema, and the registration of everything reachable. *)
From Coq Require Import String Ascii List Bool Arith ZArith Lia.
From Verif Require Import GoStr GoStrFacts Json JsonFacts MergeFacts Pointer Tag Spec_Tag TagFacts Types Spec_Types TypesFacts WalkFacts CollectFacts CollectApi DenoteFacts SimpleChain Spec_Schema FieldFacts FieldOutcome SchemaFacts SchemaOutcome.
Import ListNotations.
Local Open Scope string_scope.
Local Open Scope nat_scope.
Local Open Scope list_scope.

Section Refs.
  Context {F : Type}.
  Implicit Types s : schema F.
  Lemma has_ref_flat p s : has_ref p s <-> s_ref s = Some p \/ (exists k x, In (k, x) (s_props s) /\ has_ref p x) \/ (exists x, s_items s = Some x /\ has_ref p x) \/
    (exists x, s_addl s = Some x /\ has_ref p x) \/ (exists x, In x (s_oneof s) /\ has_ref p x).
  Proof.
    split.
    - intro H. destruct H as [s H|s k x H1 H2|s x H1 H2|s x H1 H2|s x H1 H2]; eauto 8.
    - intros [H|[(k & x & H1 & H2)|[(x & H1 & H2)|[(x & H1 & H2)|(x & H1 & H2)]]]]; [now apply hr_here | eapply hr_prop | eapply hr_items | eapply hr_addl | eapply hr_oneof]; eauto.
  Qed.
  Lemma has_ref_same p s s' : s_ref s = s_ref s' -> s_props s = s_props s' -> s_items s = s_items s' -> s_addl s = s_addl s' -> s_oneof s = s_oneof s' -> has_ref p s -> has_ref p s'.
  Proof. intros E1 E2 E3 E4 E5. rewrite !has_ref_flat, E1, E2, E3, E4, E5. auto. Qed.
  Lemma bare_no_ref p s : s_ref s = None -> s_props s = [] -> s_items s = None -> s_addl s = None -> s_oneof s = [] -> ~ has_ref p s.
  Proof. intros E1 E2 E3 E4 E5. rewrite has_ref_flat, E1, E2, E3, E4, E5. intros [H|[(k & x & [] & _)|[(x & H & _)|[(x & H & _)|(x & [] & _)]]]]; discriminate. Qed.
  Lemma map_ref p tg s : has_ref p (map_schema tg s) -> has_ref p s.
  Proof.
    rewrite has_ref_flat. unfold map_schema, if_some. intros [H|[(k & x & H & _)|[(x & H & _)|[(x & H & H2)|(x & H & _)]]]]; destruct (t_nullable tg); cbn in H; try discriminate; try contradiction; now injection H as <-.
  Qed.
  Lemma slice_ref p tg s : has_ref p (slice_schema tg s) -> has_ref p s.
  Proof.
    rewrite has_ref_flat. unfold slice_schema, if_some. intros [H|[(k & x & H & _)|[(x & H & H2)|[(x & H & _)|(x & H & _)]]]]; destruct (t_nullable tg); cbn in H; try discriminate; try contradiction; now injection H as <-.
  Qed.
  Lemma array_ref p n tg s : has_ref p (array_schema n tg s) -> has_ref p s.
  Proof.
    rewrite has_ref_flat. unfold array_schema, if_some. intros [H|[(k & x & H & _)|[(x & H & H2)|[(x & H & _)|(x & H & _)]]]]; destruct (t_nullable tg), (n >? 0)%Z; cbn in H; try discriminate; try contradiction; now injection H as <-.
  Qed.
  Lemma nullable_ref p b s : has_ref p (with_nullable b s) -> has_ref p s.
  Proof. apply has_ref_same; reflexivity. Qed.
  Lemma pointer_ref p tg s : has_ref p (pointer_schema tg s) -> has_ref p s.
  Proof.
    unfold pointer_schema. set (s1 := if_some (t_nullable tg) with_nullable (with_nullable true s)).
    assert (H1 : has_ref p s1 -> has_ref p s). { unfold s1, if_some. destruct (t_nullable tg); apply has_ref_same; reflexivity. }
    destruct (s_ref s1); [|exact H1]. destruct (negb (s_nullable s1)); [exact H1|]. rewrite has_ref_flat. intros [H|[(k & x & H & _)|[(x & H & _)|[(x & H & _)|(x & H & H2)]]]]; cbn in H; try discriminate; try contradiction.
    destruct H as [<- |[<- |[]]]; [apply nullable_ref in H2; auto|]. exfalso. revert H2. apply bare_no_ref; reflexivity.
  Qed.
  Lemma wrap_ref p tg u s : has_ref p (wrap tg u s) -> has_ref p s.
  Proof. destruct u; cbn [wrap]; [apply map_ref | apply map_ref | apply pointer_ref | apply slice_ref | apply array_ref | apply map_ref | apply map_ref | apply map_ref | apply map_ref]. Qed.
  Lemma basic_no_ref zero k (tg : tag F) s p : basic2schema zero k tg = Ok s -> ~ has_ref p s.
  Proof.
    unfold basic2schema. destruct (basic_base zero k) as [b|] eqn:E; [|discriminate]. intros [= <-].
    assert (B : s_ref b = None /\ s_props b = [] /\ s_items b = None /\ s_addl b = None /\ s_oneof b = []) by (destruct k; cbn in E; try discriminate; injection E as <-; cbn; auto).
    destruct B as (B1 & B2 & B3 & B4 & B5). apply bare_no_ref; (destruct (_ || _); [unfold number_bounds, if_some; destruct (t_min tg), (t_max tg), (t_emin tg), (t_emax tg), (t_mulof tg); cbn; assumption|]);
      (destruct (String.eqb _ _); [unfold string_bounds, if_some; destruct (t_maxlen tg), (t_minlen tg); cbn; assumption | assumption]).
  Qed.
  Lemma format_no_ref p f s : ~ has_ref p s -> ~ has_ref p (with_format f s).
  Proof. intros N H. apply N. revert H. apply has_ref_same; reflexivity. Qed.
  Lemma basic_string_no_ref zero t (tg : tag F) s p : basic_string2schema zero t tg = Ok s -> ~ has_ref p s.
  Proof.
    unfold basic_string2schema. repeat match goal with |- context [if ?b then _ else _] => destruct b end; try apply basic_no_ref; try discriminate;
      try (intro H; apply bind_ok in H as (x & Hx & [= <-]); apply format_no_ref; eapply basic_no_ref; exact Hx); intros [= <-]; now apply bare_no_ref.
  Qed.
  Lemma attrs_ref p tg s : has_ref p (field_attrs tg s) -> has_ref p s.
  Proof. unfold field_attrs. destruct (s_ref s) eqn:E; [auto|]. unfold if_some. destruct (t_nullable tg); apply has_ref_same; try reflexivity. Qed.
  Lemma struct_fields_ref p c l : forall n s s', struct_fields c n l s = Ok s' -> s_ref s = None -> s_items s = None -> s_addl s = None -> s_oneof s = [] ->
    has_ref p s' -> has_ref p s \/ exists k x ps, In x l /\ c k x = Ok ps /\ has_ref p ps.
  Proof.
    induction l as [|x l IH]; intros n s s' H E1 E2 E3 E4 Hr; cbn [struct_fields] in H; [injection H as <-; now left|]. apply bind_ok in H as (ps & Ep & H).
    assert (Q : forall A (f : schema F -> A), (forall v s, f (with_props v s) = f s) -> (forall v s, f (with_required v s) = f s) -> f (add_field x ps s) = f s).
    { intros A f G1 G2. unfold add_field. destruct (s_ref ps); [apply G1|]. destruct (t_required (sf_tag x)); [rewrite G2; apply G1 | apply G1]. }
    apply IH in H; [| rewrite (Q _ s_ref); auto | rewrite (Q _ s_items); auto | rewrite (Q _ s_addl); auto | rewrite (Q _ s_oneof); auto | exact Hr].
    destruct H as [H|(k & y & ps' & H1 & H2)]; [|right; exists k, y, ps'; split; [now right | exact H2]].
    apply has_ref_flat in H. rewrite (Q _ s_ref), (Q _ s_items), (Q _ s_addl), (Q _ s_oneof) in H by reflexivity. destruct H as [H|[(k & y & H & Hy)|[(y & H & _)|[(y & H & _)|(y & H & _)]]]]; try congruence; [|rewrite E4 in H; destruct H].
    assert (H' : In (k, y) (oset (field_name x) (field_attrs (sf_tag x) ps) (s_props s))).
    { revert H. unfold add_field. destruct (s_ref ps); [|destruct (t_required (sf_tag x))]; cbn; auto. }
    apply in_oset in H' as [[= _ ->]|H']; [|left; eapply hr_prop; eauto]. right. exists n, x, ps. split; [now left|]. split; [exact Ep | now apply attrs_ref in Hy].
  Qed.
End Refs.

Section Convert.
  Context {F : Type} (pf : string -> option F) (zero : F) (env : genv) (std : string -> option (schema F)) (pk : nat -> list ptr -> ptr).
  Context (Hflat : flat_env env) (Hpk : picks_shortest pk).
  Local Notation conv := (type2schema pf zero env std pk).

  Definition good_ref (m : pmap) (t : gty) (p : ptr) : Prop :=
    (exists t', reachable env t t' /\ In p (pm_at m (under env t')) /\ forall q, In q (pm_at m (under env t')) -> length (p_frag p) <= length (p_frag q)) \/
    (exists txt o, std txt = Some o /\ has_ref p o).
  Lemma good_reach m t t' p : reachable env t t' -> good_ref m t' p -> good_ref m t p.
  Proof. intros Hr [(t2 & H1 & H2)|H]; [left; exists t2; split; [eapply reach_trans; eauto | exact H2] | now right]. Qed.
  Lemma reference_ref n m t s p : reference2schema std pk n m (under env t) = Ok s -> has_ref p s -> good_ref m t p.
  Proof.
    intros H Hr. destruct (reference_cases std pk n m (under env t)) as [[_ E]|[N E]]; rewrite E in H; [discriminate|]. injection H as <-. destruct (std _) as [o|] eqn:Es; [right; eauto|].
    left. exists t. split; [exists [], []; constructor|]. apply has_ref_flat in Hr. cbn in Hr. destruct Hr as [[= <-]|[(k & x & [] & _)|[(x & X & _)|[(x & X & _)|(x & [] & _)]]]]; try discriminate. now apply Hpk.
  Qed.
  Lemma conv_in_refs m p : forall fuel fuel2 n tp t tg s, conv fuel fuel2 n m tp t tg = Ok s -> (tp <> [] \/ forall fs, under env t <> TStruct fs) -> has_ref p s -> good_ref m t p.
  Proof.
    induction fuel as [|fuel IH]; intros fuel2 n tp t tg s H Ntp Hr; [discriminate|].
    destruct (in_dec gty_dec (under env t) tp) as [V|V]; [rewrite conv_seen in H by exact V; eapply reference_ref; eauto|].
    destruct (conv_cases env t) as [(e & E & He & tok & Hs)|[[k E]|[[fs E]|(E & B & S & X)]]].
    - rewrite (conv_elem pf zero env std pk _ _ _ _ _ _ _ e V E) in H. apply bind_ok in H as (s' & H & [= <-]). apply wrap_ref in Hr. eapply good_reach; [eapply reach_step; eauto|]. eapply IH; eauto. left. destruct tp; discriminate.
    - rewrite (conv_basic pf zero env std pk _ _ _ _ _ _ _ k V E) in H. now apply basic_no_ref with (p := p) in H.
    - destruct Ntp as [Ntp|N]; [|now destruct (N fs)]. rewrite (conv_struct_in pf zero env std pk _ _ _ _ _ _ _ fs Ntp E) in H. eapply reference_ref; eauto.
    - rewrite (conv_other pf zero env std pk _ _ _ _ _ _ _ V E B S) in H. discriminate.
  Qed.
  Lemma good_under m t p : good_ref m (under env t) p -> good_ref m t p.
  Proof.
    intros [(t2 & (toks & ts & H1) & H2)|H]; [|now right]. left. destruct (trail_under env _ t _ _ _ (under_flat env Hflat t) H1) as (c & Hc & E). exists c. split; [eexists _, _; exact Hc|]. now rewrite E.
  Qed.
  Theorem conv_refs m p fuel fuel2 n t tg s : conv fuel fuel2 n m [] t tg = Ok s -> has_ref p s -> good_ref m t p.
  Proof.
    intros H Hr. destruct (under env t) eqn:Eu; try (eapply conv_in_refs; [exact H | right; intros; congruence | exact Hr]).
    destruct fuel as [|fuel]; [discriminate|]. rewrite (conv_struct pf zero env std pk _ _ _ _ _ _ fs Eu) in H. apply bind_ok in H as (l & El & H).
    apply (struct_fields_ref p) in H as [H|(k & x & ps & Hx & Hc & Hp)]; try reflexivity; [exfalso; revert H; now apply bare_no_ref | | exact Hr].
    apply (collect_fields_visible pf env _ _ _ El) in Hx. assert (R : reachable env t (sf_type x)) by (apply reach1_reach; eapply reach1_under; [|apply (visible_reach pf env _ _ Hx)]; now rewrite Eu).
    eapply good_reach; [exact R|]. unfold field_conv in Hc. destruct (negb _); [now apply basic_string_no_ref with (p := p) in Hc|].
    assert (G : conv fuel fuel2 k m [TStruct fs] (under env (sf_type x)) (sf_tag x) = Ok ps -> good_ref m (sf_type x) p).
    { intro G. apply good_under. eapply conv_in_refs; [exact G | left; discriminate | exact Hp]. }
    destruct (under env (sf_type x)) eqn:Ex; auto. eapply reference_ref; [rewrite Ex; exact Hc | exact Hp].
  Qed.
End Convert.

(** *** Everything reachable is registered *)
Section Registered.
  Context (env : genv) (Henv : env_ok env).
  Definition ustep (a b : gty) : Prop := exists t tok e, under env t = a /\ step env t tok e /\ under env e = b.
  Lemma trail_chain t toks ts t' : trail env t toks ts t' -> rchain ustep (under env t) ts (under env t').
  Proof. induction 1 as [t|t tok t1 toks ts t' Hs Ht IH]; [constructor|]. econstructor; [|exact IH]. exists t, tok, t1. auto. Qed.
  Lemma chain_trail a c b : rchain ustep a c b -> forall t, under env t = a -> exists toks t', trail env t toks c t' /\ under env t' = b.
  Proof.
    induction 1 as [a|a b c d (t0 & tok & e & E1 & Hs & E2) Hc IH]; intros t E; [exists [], t; split; [constructor | exact E]|]. destruct (IH e E2) as (toks & t' & Ht & E'). exists (tok :: toks), t'. split; [|exact E'].
    rewrite <- E. econstructor; [|exact Ht]. eapply step_under; [|exact Hs]. congruence.
  Qed.
  Theorem simple_trail t t' : reachable env t t' -> exists toks ts t2, trail env t toks ts t2 /\ NoDup ts /\ under env t2 = under env t'.
  Proof.
    intros (toks & ts & H). apply trail_chain in H. destruct (simple_chain gty_dec ustep _ _ _ H) as (c & Hc & ND & _). destruct (chain_trail _ _ _ Hc t eq_refl) as (toks' & t2 & Ht & E). eauto 6.
  Qed.
  Theorem collect_all_reg fuel os m : Forall obj_ok os -> collect_all env fuel os [] = Ok m ->
    (forall o t', In o os -> reachable env (o_type o) t' -> pm_at m (under env t') <> []) /\
    (forall T txt, registered m T txt -> exists t', T = under env t' /\ all_reg env m t').
  Proof.
    intros Hos H. pose proof (collect_all_exact env Henv fuel os [] m Hos H) as X.
    assert (G : forall o t', In o os -> reachable env (o_type o) t' -> pm_at m (under env t') <> []).
    { intros o t' Ho Hr. destruct (simple_trail _ _ Hr) as (toks & ts & t2 & Ht & ND & E). destruct (o_pkg o) as [pkg|] eqn:Ep.
      - assert (R : registered m (under env t') (loc_text pkg (o_name o :: toks))).
        { apply X. right. exists o. split; [exact Ho|]. exists pkg. split; [exact Ep|]. left. exists toks, ts, t2. auto. }
        destruct R as (p & Hp & _). intro E0. rewrite E0 in Hp. destruct Hp.
      - exfalso. clear -H Ho Ep. revert H. generalize (@nil (gty * list ptr)). induction os as [|o' os IH]; [destruct Ho|]. intros m0 H. cbn [collect_all] in H. apply bind_ok in H as (m1 & H1 & H2).
        destruct Ho as [-> |Ho]; [rewrite collect_no_package in H1 by exact Ep; discriminate | eapply IH; eauto]. }
    split; [exact G|]. intros T txt Hr. apply X in Hr. destruct Hr as [(p & [] & _)|(o & Ho & pkg & Ep & Hl)].
    assert (K : exists t', T = under env t' /\ reachable env (o_type o) t').
    { destruct Hl as [(toks & ts & t' & Ht & _ & E & _)|(s1 & ts1 & tn & pkn & n & s2 & ts2 & t' & H1 & _ & _ & H2 & _ & E & _)]; exists t'; (split; [exact E|]); [eexists _, _; exact Ht | eexists _, _; eapply trail_app; eauto]. }
    destruct K as (t' & E & Hrt). exists t'. split; [exact E|]. intros t2 Hr2. apply (G o _ Ho). eapply reach_trans; eauto.
  Qed.
End Registered.
