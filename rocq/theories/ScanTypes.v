(** Scan: the schemas of the scanned types are canonical documents. *)
From Coq Require Import String Ascii List Bool Arith ZArith Lia Permutation.
From Verif Require Import GoStr GoStrFacts Json JsonFacts MergeFacts Url Pointer Tag Types Spec_Types TypesFacts CollectFacts SimpleChain Spec_Tag Spec_Schema
  FieldFacts FieldOutcome SchemaFacts SchemaOutcome SchemaRefs SchemaShape JsonText SchemaJson Spec_Loc LocFacts SchemaJsonFacts Spec_Resolve Root Scan Spec_Scan.
Import ListNotations.
Local Open Scope string_scope.
Local Open Scope nat_scope.
Local Open Scope list_scope.

Section Ok.
  Context {F : Type}.
  Implicit Types s : schema F.
  Lemma sch_ok_same s s' : sch_ok s -> s_props s' = s_props s -> s_items s' = s_items s -> s_addl s' = s_addl s -> s_oneof s' = s_oneof s -> s_required s' = s_required s -> sch_ok s'.
  Proof. intros H E1 E2 E3 E4 E5. destruct H. constructor; rewrite ?E1, ?E2, ?E3, ?E4, ?E5; assumption. Qed.
  Lemma sch_ok_bare s : s_props s = [] -> s_items s = None -> s_addl s = None -> s_oneof s = [] -> s_required s = [] -> sch_ok s.
  Proof. intros E1 E2 E3 E4 E5. constructor; rewrite ?E1, ?E2, ?E3, ?E4, ?E5; try (now intros); try (cbn; lia); easy. Qed.
  Lemma nullable_ok b s : sch_ok s -> sch_ok (with_nullable b s).
  Proof. intro H. eapply sch_ok_same; [exact H|..]; reflexivity. Qed.
  Lemma map_ok tg s : sch_ok s -> sch_ok (map_schema tg s).
  Proof.
    intro H. unfold map_schema, if_some. destruct (t_nullable tg); (constructor; cbn; try easy; try lia); intros x [= <-]; exact H.
  Qed.
  Lemma slice_ok tg s : sch_ok s -> sch_ok (slice_schema tg s).
  Proof.
    intro H. unfold slice_schema, if_some. destruct (t_nullable tg); (constructor; cbn; try easy; try lia); intros x [= <-]; exact H.
  Qed.
  Lemma array_ok n tg s : sch_ok s -> sch_ok (array_schema n tg s).
  Proof.
    intro H. unfold array_schema, if_some. destruct (t_nullable tg), (n >? 0)%Z; (constructor; cbn; try easy; try lia); intros x [= <-]; exact H.
  Qed.
  Lemma pointer_ok tg s : sch_ok s -> sch_ok (pointer_schema tg s).
  Proof.
    intro H. unfold pointer_schema. set (s1 := if_some (t_nullable tg) with_nullable (with_nullable true s)).
    assert (H1 : sch_ok s1) by (unfold s1, if_some; destruct (t_nullable tg); repeat apply nullable_ok; exact H).
    destruct (s_ref s1); [|exact H1]. destruct (negb (s_nullable s1)); [exact H1|]. constructor; cbn; try easy; try lia.
    intros x [<-|[<-|[]]]; [apply nullable_ok, H1 | apply sch_ok_bare; reflexivity].
  Qed.
  Lemma wrap_ok tg u s : sch_ok s -> sch_ok (wrap tg u s).
  Proof. destruct u; cbn [wrap]; auto using map_ok, slice_ok, array_ok, pointer_ok. Qed.
  Lemma basic_bare zero k (tg : tag F) s : basic2schema zero k tg = Ok s -> s_ref s = None /\ s_props s = [] /\ s_items s = None /\ s_addl s = None /\ s_oneof s = [] /\ s_required s = [].
  Proof.
    unfold basic2schema. destruct (basic_base zero k) as [b|] eqn:E; [|discriminate]. intros [= <-].
    assert (B : s_ref b = None /\ s_props b = [] /\ s_items b = None /\ s_addl b = None /\ s_oneof b = [] /\ s_required b = []) by (destruct k; cbn in E; try discriminate; injection E as <-; cbn; auto 10).
    destruct B as (B1 & B2 & B3 & B4 & B5 & B6). destruct (_ || _).
    - unfold number_bounds, if_some. destruct (t_min tg), (t_max tg), (t_emin tg), (t_emax tg), (t_mulof tg); cbn; auto 10.
    - destruct (String.eqb _ _); [unfold string_bounds, if_some; destruct (t_maxlen tg), (t_minlen tg); cbn; auto 10 | auto 10].
  Qed.
  Lemma basic_ok' zero k (tg : tag F) s : basic2schema zero k tg = Ok s -> sch_ok s.
  Proof. intro H. apply basic_bare in H as (_ & B2 & B3 & B4 & B5 & B6). now apply sch_ok_bare. Qed.
  Lemma basic_string_ok' zero t (tg : tag F) s : basic_string2schema zero t tg = Ok s -> sch_ok s.
  Proof.
    unfold basic_string2schema. repeat match goal with |- context [if ?b then _ else _] => destruct b end; try apply basic_ok'; try discriminate;
      try (intro H; apply bind_ok in H as (x & Hx & [= <-]); apply basic_ok' in Hx; eapply sch_ok_same; [exact Hx|..]; reflexivity); intros [= <-]; now apply sch_ok_bare.
  Qed.
  Lemma attrs_ok tg s : sch_ok s -> sch_ok (field_attrs tg s).
  Proof.
    intro H. unfold field_attrs. destruct (s_ref s); [exact H|]. unfold if_some. destruct (t_nullable tg); (eapply sch_ok_same; [exact H|..]; reflexivity).
  Qed.
End Ok.

Section Convert.
  Context {F : Type} (pf : string -> option F) (zero : F) (env : genv) (std : string -> option (schema F)) (pk : nat -> list ptr -> ptr).
  Local Notation conv := (type2schema pf zero env std pk).
  Hypothesis Hstd : forall t s, std t = Some s -> sch_ok s /\ s_ref s = None.
  Lemma reference_sch n m t s : reference2schema std pk n m t = Ok s -> sch_ok s.
  Proof.
    unfold reference2schema. destruct (pm_at m t) as [|p l]; [discriminate|]. destruct (std _) as [x|] eqn:E; intros [= <-]; [now apply Hstd in E|]. apply sch_ok_bare; reflexivity.
  Qed.
  Lemma conv_in_sch m : forall fuel fuel2 n tp t tg s, conv fuel fuel2 n m tp t tg = Ok s -> (tp <> [] \/ forall fs, under env t <> TStruct fs) -> sch_ok s.
  Proof.
    induction fuel as [|fuel IH]; intros fuel2 n tp t tg s H Ntp; [discriminate|].
    destruct (in_dec gty_dec (under env t) tp) as [V|V]; [rewrite conv_seen in H by exact V; eapply reference_sch; eauto|].
    destruct (conv_cases env t) as [(e & E & He & tok & Hs)|[[k E]|[[fs E]|(E & B & S & X)]]].
    - rewrite (conv_elem pf zero env std pk _ _ _ _ _ _ _ e V E) in H. apply bind_ok in H as (s' & H & [= <-]). apply wrap_ok. eapply IH; eauto. left. destruct tp; discriminate.
    - rewrite (conv_basic pf zero env std pk _ _ _ _ _ _ _ k V E) in H. now apply basic_ok' in H.
    - destruct Ntp as [Ntp|N]; [|now destruct (N fs)]. rewrite (conv_struct_in pf zero env std pk _ _ _ _ _ _ _ fs Ntp E) in H. eapply reference_sch; eauto.
    - rewrite (conv_other pf zero env std pk _ _ _ _ _ _ _ V E B S) in H. discriminate.
  Qed.
  Lemma filter_len {A} (f : A -> bool) l : length (filter f l) <= length l.
  Proof. induction l as [|x l IH]; [reflexivity|]. cbn. destruct (f x); cbn; lia. Qed.
  Theorem conv_sch m fuel fuel2 n t tg s : conv fuel fuel2 n m [] t tg = Ok s -> (forall fs, under env t = TStruct fs -> handy pf env fs) -> sch_ok s.
  Proof.
    intros H Hh. destruct (conv_cases env t) as [(e & E & _)|[[k E]|[[fs E]|(E & B & S & X)]]];
      try (eapply conv_in_sch; [exact H|]; right; intros fs' E'; rewrite E' in E; discriminate); [|eapply conv_in_sch; [exact H | right; exact S]].
    destruct (Hh fs E) as (Hn & Hl). destruct (struct_schema pf zero env std pk _ _ _ _ _ _ fs s E H) as (xs & Hp & Hv & Hs & Ep & Er & Eo).
    assert (PE : forall k p, In (k, p) (s_props s) -> exists x a, In (x, a) xs /\ k = prop_name x /\ p = field_attrs (sf_tag x) a).
    { intros k p I. rewrite Ep in I. apply fold_in in I as [[]|(x & a & I & E1 & E2)]. eauto. }
    constructor.
    - rewrite Ep. apply fold_sorted. exact I.
    - intros k p I. destruct (PE k p I) as (x & a & Ix & -> & _). apply Hn, Hv. now apply (in_map fst) in Ix.
    - intros k p I. destruct (PE k p I) as (x & a & Ix & _ & ->). apply attrs_ok. destruct (Hs x a Ix) as [(_ & Hb)|(_ & f & k' & Hc)]; [now apply basic_string_ok' in Hb|].
      eapply conv_in_sch; [exact Hc|]. left. discriminate.
    - intros x Ex. rewrite (Eo _ s_items) in Ex by reflexivity. discriminate.
    - intros x Ex. rewrite (Eo _ s_addl) in Ex by reflexivity. discriminate.
    - intros x Ex. rewrite (Eo _ s_oneof) in Ex by reflexivity. destruct Ex.
    - rewrite (Eo _ s_oneof) by reflexivity. cbn. lia.
    - rewrite Er, map_length. specialize (Hl _ Hp). rewrite map_length in Hl. pose proof (filter_len (fun xp => listed (fst xp) (snd xp)) xs). lia.
  Qed.
  (** A schema asked for by its own pointer is never a bare reference. *)
  Theorem conv_noref m fuel fuel2 n t s : conv fuel fuel2 n m [] t tag_zero = Ok s -> s_ref s = None.
  Proof.
    intro H. destruct fuel as [|fuel]; [discriminate|]. assert (V : ~ In (under env t) []) by intros [].
    destruct (conv_cases env t) as [(e & E & _)|[[k E]|[[fs E]|(E & B & S & X)]]].
    - rewrite (conv_elem pf zero env std pk _ _ _ _ _ _ _ e V E) in H. apply bind_ok in H as (s' & H & [= <-]). destruct (under env t); cbn in E; try discriminate; cbn [wrap]; try reflexivity.
      + unfold pointer_schema, if_some. cbn. destruct (s_ref s') eqn:Er; [reflexivity | exact Er].
      + unfold array_schema, if_some. cbn. destruct (n0 >? 0)%Z; reflexivity.
    - rewrite (conv_basic pf zero env std pk _ _ _ _ _ _ _ k V E) in H. now apply basic_bare in H.
    - destruct (struct_schema pf zero env std pk _ _ _ _ _ _ fs s E H) as (xs & _ & _ & _ & _ & _ & Eo). now rewrite (Eo _ s_ref) by reflexivity.
    - rewrite (conv_other pf zero env std pk _ _ _ _ _ _ _ V E B S) in H. discriminate.
  Qed.
End Convert.

(** *** The types registered by a walk are reachable *)
Section Walk.
  Context (env : genv).
  Lemma in_pm_append m u p T : In T (map fst (pm_append m u p)) -> T = u \/ In T (map fst m).
  Proof.
    unfold pm_append. generalize (pm_at m u) as l. intro l. destruct (pt_has l p); [auto|]. generalize (l ++ [p]) as l'. clear l. intro l. induction m as [|[t l'] m IH]; cbn [pm_set].
    - cbn. intros [<-|[]]. now left.
    - cbn [fst]. destruct (gty_eqb t u) eqn:E; cbn [map fst In]; [intros [<-|I]; auto|]. intros [<-|I]; [auto|]. destruct (IH I); auto.
  Qed.
  Lemma next_steps_step r t next p e : next_steps r (under env t) = Ok next -> In (p, e) next -> exists tok, Spec_Types.step env t tok e.
  Proof.
    unfold next_steps. destruct (under env t) as [k|i|x|x|n x|k x|d x|fs|i] eqn:E; intros H I; try (injection H as <-; now destruct I).
    - apply bind_ok in H as (p' & _ & H); injection H as <-; destruct I as [[= <- <-]|[]]; eexists; eapply step_ptr; eassumption.
    - apply bind_ok in H as (p' & _ & H); injection H as <-; destruct I as [[= <- <-]|[]]; eexists; eapply step_slice; eassumption.
    - apply bind_ok in H as (p' & _ & H); injection H as <-; destruct I as [[= <- <-]|[]]; eexists; eapply step_array; eassumption.
    - apply bind_ok in H as (p' & _ & H); injection H as <-; destruct I as [[= <- <-]|[]]; eexists; eapply step_map; eassumption.
    - apply bind_ok in H as (p' & _ & H); injection H as <-; destruct I as [[= <- <-]|[]]; eexists; eapply step_chan; eassumption.
    - assert (G : forall l next, (fix go (l : list (finfo * gty)) : res (list (ptr * gty)) :=
        match l with [] => Ok [] | (i, t) :: l' => if negb (exported (f_name i)) then go l' else do p <- with_desc r (f_name i) ; do n <- go l' ; Ok ((p, t) :: n) end) l = Ok next ->
        In (p, e) next -> exists i, In (i, e) l /\ exported (f_name i) = true).
      { clear. induction l as [|[i t] l IH]; intros next H I; [injection H as <-; destruct I|]. destruct (exported (f_name i)) eqn:Ex; cbn [negb] in H.
        - apply bind_ok in H as (q & _ & H). apply bind_ok in H as (n & Hn & H). injection H as <-. destruct I as [[= <- <-]|I]; [exists i; split; [now left | exact Ex]|]. destruct (IH n Hn I) as (j & Ij & Ej). exists j. split; [now right | exact Ej].
        - destruct (IH next H I) as (j & Ij & Ej). exists j. split; [now right | exact Ej]. }
      destruct (G fs next H I) as (i & Ii & Ex). eexists. eapply step_field; eassumption.
  Qed.
  Lemma walk_keys : forall fuel path r t m m', walk env fuel path r t m = Ok m' ->
    forall T, In T (map fst m') -> In T (map fst m) \/ exists t', reachable env t t' /\ under env t' = T.
  Proof.
    induction fuel as [|fuel IH]; intros path r t m m' H T I; [discriminate|]. cbn [walk] in H.
    assert (G : (T = under env t \/ In T (map fst m) -> In T (map fst m) \/ exists t', reachable env t t' /\ under env t' = T)).
    { intros [->|I']; [right; exists t; split; [exists [], []; constructor | reflexivity] | now left]. }
    destruct (existsb _ path); [injection H as <-; apply in_pm_append in I; auto|].
    apply bind_ok in H as (next & Hn & H).
    assert (S : forall p e, In (p, e) next -> exists tok, Spec_Types.step env t tok e) by (intros p e Hi; eapply next_steps_step; eassumption). clear Hn.
    cut (In T (map fst (pm_append m (under env t) r)) \/ exists t', reachable env t t' /\ under env t' = T).
    { intros [I'|X]; [apply in_pm_append in I'; auto | now right]. }
    revert H. generalize (pm_append m (under env t) r) as m0. intros m0 H. revert m0 H. induction next as [|[p e] next IHn]; intros m0 H; cbn [walk_next] in H; [injection H as <-; now left|].
    apply bind_ok in H as (m1 & H1 & H). apply bind_ok in H as (m2 & H2 & H).
    destruct (S p e (or_introl eq_refl)) as (tok & St).
    assert (ST : forall r' x y, walk env fuel (path ++ [under env t]) r' e x = Ok y -> In T (map fst y) -> In T (map fst x) \/ exists t', reachable env t t' /\ under env t' = T).
    { intros r' x y Hw Iy. destruct (IH _ _ _ _ _ Hw T Iy) as [L|(t' & Ht & E)]; [now left|]. right. exists t'. split; [|exact E]. eapply reach_trans; [eapply reach_step; exact St | exact Ht]. }
    destruct (IHn (fun p' e' Hi => S p' e' (or_intror Hi)) m2 H) as [I2|X]; [|now right].
    assert (I1 : In T (map fst m1) \/ exists t', reachable env t t' /\ under env t' = T).
    { destruct e as [|i| | | | | | |]; try (injection H2 as <-; now left). destruct (nth_error env i) as [d|]; [|injection H2 as <-; now left]. apply bind_ok in H2 as (np & _ & H2). eapply ST; [exact H2 | exact I2]. }
    destruct I1 as [I1|X]; [|now right]. eapply ST; eassumption.
  Qed.
End Walk.
