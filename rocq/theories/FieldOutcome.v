(** When collecting the fields of a struct succeeds, and in which order they come. *)
From Coq Require Import String Ascii List Bool Arith ZArith Lia.
From Verif Require Import GoStr GoStrFacts Json JsonFacts MergeFacts Pointer Tag Spec_Tag TagFacts Types Spec_Types TypesFacts CollectFacts SimpleChain Spec_Schema FieldFacts.
Import ListNotations.
Local Open Scope string_scope.
Local Open Scope nat_scope.
Local Open Scope list_scope.

Section Fields.
  Context {F : Type} (pf : string -> option F) (env : genv).
  Local Notation collect_fields := (collect_fields pf env).
  Local Notation collect_each := (collect_each pf env).
  Local Notation inlined := (inlined env).
  Local Notation kept := (kept pf).
  Local Notation in_place := (in_place pf env).
  Local Notation looked_at := (looked_at pf env).

  Lemma collect_each_place c p fs : (forall fs' z, c fs' = Ok z -> (In (TStruct fs') p /\ z = []) \/ (~ In (TStruct fs') p /\ in_place (p ++ [TStruct fs']) fs' z)) ->
    forall l, collect_each c fs = Ok l -> in_place p fs l.
  Proof.
    intros Hc. induction fs as [|[i t] fs IH]; intros l H; cbn [Types.collect_each] in H.
    - injection H as <-. constructor.
    - apply bind_ok in H as (tg & Et & H). pose proof (keep_cases pf i) as K. rewrite Et in K. destruct K as [[Eb Nk]|[Eb Hk]]; rewrite Eb in H.
      + apply ip_skip; auto.
      + apply bind_ok in H as (a & Ea & H). apply bind_ok in H as (z & Ez & H). injection H as <-. specialize (IH z Ez). destruct (cast_inline env i t tg) as [fs'|] eqn:Ec.
        * pose proof Ec as Hi. apply cast_inline_spec in Hi. destruct (Hc _ _ Ea) as [[Hin ->]|[Nin Hp]]; [eapply ip_again; eauto | eapply ip_inline; eauto].
        * injection Ea as <-. pose proof (proj1 (cast_none env i t tg) Ec). now apply ip_own.
  Qed.
  Theorem collect_fields_place fuel : forall path fs l, collect_fields fuel path fs = Ok l ->
    (In (TStruct fs) path /\ l = []) \/ (~ In (TStruct fs) path /\ in_place (path ++ [TStruct fs]) fs l).
  Proof.
    induction fuel as [|fuel IH]; intros path fs l H; [discriminate|]. cbn [Types.collect_fields] in H. destruct (existsb _ path) eqn:V.
    - injection H as <-. apply has_in in V. auto.
    - apply has_not_in in V. right. split; [exact V|]. eapply collect_each_place; [|exact H]. intros fs' z. apply IH.
  Qed.

  (** Fuel. *)
  Definition inl_closed (L : list gty) : Prop := forall fs i t tg fs', In (TStruct fs) L -> In (i, t) fs -> kept i tg -> inlined i t tg fs' -> In (TStruct fs') L.
  Definition same_failure {A B} (a : res A) (b : res B) : Prop :=
    match a, b with Err, Err | Panic, Panic | OutOfFuel, OutOfFuel => True | _, _ => False end.
  Lemma bind_fails {A B C} (a : res A) (f : A -> res B) (r : res C) : same_failure (bind a f) r -> same_failure a r \/ exists x, a = Ok x /\ same_failure (f x) r.
  Proof. destruct a; cbn; eauto. Qed.
  Lemma collect_each_fails {C} c fs (r : res C) : same_failure (collect_each c fs) r ->
    (exists i t, In (i, t) fs /\ same_failure (tag_parse pf (f_tag i)) r) \/ (exists i t tg fs', In (i, t) fs /\ kept i tg /\ inlined i t tg fs' /\ same_failure (c fs') r).
  Proof.
    induction fs as [|[i t] fs IH]; cbn [Types.collect_each]; [intros []|].
    assert (IH' : same_failure (collect_each c fs) r -> (exists i0 t0, In (i0, t0) ((i, t) :: fs) /\ same_failure (tag_parse pf (f_tag i0)) r) \/
      (exists i0 t0 tg fs', In (i0, t0) ((i, t) :: fs) /\ kept i0 tg /\ inlined i0 t0 tg fs' /\ same_failure (c fs') r)).
    { intro H. destruct (IH H) as [(i0 & t0 & Hin & X)|(i0 & t0 & tg & fs' & Hin & X)]; [left; exists i0, t0 | right; exists i0, t0, tg, fs']; (split; [now right | exact X]). }
    clear IH. intro H. apply bind_fails in H as [H|(tg & Et & H)]; [left; exists i, t; split; [now left | exact H]|].
    pose proof (keep_cases pf i) as K. rewrite Et in K. destruct K as [[Eb Nk]|[Eb Hk]]; rewrite Eb in H; [auto|].
    apply bind_fails in H as [H|(a & Ea & H)].
    - destruct (cast_inline env i t tg) as [fs'|] eqn:Ec; [|destruct H]. apply cast_inline_spec in Ec. right. exists i, t, tg, fs'. split; [now left | auto].
    - apply bind_fails in H as [H|(z & Ez & [])]. auto.
  Qed.
  Theorem collect_fields_fails {C} L (r : res C) : inl_closed L -> forall fuel path fs, In (TStruct fs) L -> NoDup path -> incl path L -> length L < fuel + length path ->
    same_failure (collect_fields fuel path fs) r -> exists fs' i t, looked_at fs fs' /\ In (i, t) fs' /\ same_failure (tag_parse pf (f_tag i)) r.
  Proof.
    intros Hcl. induction fuel as [|fuel IH]; intros path fs Hin ND Hi Hl H.
    - pose proof (NoDup_incl_length ND Hi). lia.
    - cbn [Types.collect_fields] in H. destruct (existsb _ path) eqn:V; [destruct H|]. apply has_not_in in V.
      apply collect_each_fails in H as [(i & t & Hf & Hr)|(i & t & tg & fs' & Hf & Hk & Hn & Hr)]; [exists fs, i, t; split; [constructor | auto]|].
      apply IH in Hr as (fs2 & i2 & t2 & Hla & X).
      + exists fs2, i2, t2. split; [|exact X]. eapply la_inline; eauto.
      + eapply Hcl; eauto.
      + apply NoDup_snoc; assumption.
      + intros x Hx. apply in_app_iff in Hx as [Hx|[<- |[]]]; auto.
      + rewrite app_length. cbn. lia.
  Qed.
  (** Success means that every tag looked at is fine. *)
  Definition inl (fs fs' : list (finfo * gty)) : Prop := exists i t tg, In (i, t) fs /\ kept i tg /\ inlined i t tg fs'.
  Lemma looked_chain fs fs' : looked_at fs fs' -> exists c, rchain inl fs c fs'.
  Proof. induction 1 as [fs|fs i t tg fs1 fs' Hin Hk Hi Hl [c IH]]; [exists []; constructor | exists (fs :: c); econstructor; eauto]. exists i, t, tg. auto. Qed.
  Lemma collect_each_tags c fs l : collect_each c fs = Ok l -> forall i t, In (i, t) fs -> exists tg, tag_parse pf (f_tag i) = Ok tg.
  Proof.
    revert l. induction fs as [|[i0 t0] fs IH]; intros l H i t Hin; [destruct Hin|]. cbn [Types.collect_each] in H. apply bind_ok in H as (tg & Et & H).
    destruct Hin as [E|Hin]; [assert (i0 = i) by congruence; subst; eauto|]. destruct (t_ignore tg || negb (exported (f_name i0))); [eauto|].
    apply bind_ok in H as (a & _ & H). apply bind_ok in H as (z & Ez & _). eauto.
  Qed.
  Lemma collect_fields_chain fs0 c fs' : rchain inl fs0 c fs' -> forall fuel path l, NoDup c -> ~ In fs' c -> (forall x, In x (fs' :: c) -> ~ In (TStruct x) path) -> collect_fields fuel path fs0 = Ok l ->
    forall i t, In (i, t) fs' -> exists tg, tag_parse pf (f_tag i) = Ok tg.
  Proof.
    induction 1 as [fs|fs fs1 c fs' (i0 & t0 & tg0 & Hin & Hk & Hi) Hc IH]; intros fuel path l ND Nl Hp H.
    - destruct fuel; [discriminate|]. cbn [Types.collect_fields] in H. assert (V : ~ In (TStruct fs) path) by (apply Hp; now left). apply has_not_in in V. rewrite V in H. eapply collect_each_tags; eauto.
    - destruct fuel; [discriminate|]. cbn [Types.collect_fields] in H. assert (V : ~ In (TStruct fs) path) by (apply Hp; right; now left). apply has_not_in in V. rewrite V in H.
      destruct (collect_each_sub pf env _ _ _ H i0 t0 tg0 fs1 Hin Hk Hi) as (z & Ez). inversion ND as [|? ? Nc NDc]; subst. refine (IH _ _ _ NDc (fun X => Nl (or_intror X)) _ Ez).
      intros x Hx Hb. apply in_app_iff in Hb as [Hb|[Hb|[]]].
      + apply (Hp x); [destruct Hx as [-> |Hx]; [now left | right; now right] | exact Hb].
      + injection Hb as <-. destruct Hx as [-> |Hx]; [apply Nl; now left | contradiction].
  Qed.
  Theorem collect_fields_tags fuel fs l : collect_fields fuel [] fs = Ok l -> tags_fine pf env fs.
  Proof.
    intros H fs' i t Hl Hin. destruct (looked_chain _ _ Hl) as (c & Hc).
    assert (exists c', rchain inl fs c' fs' /\ NoDup c' /\ ~ In fs' c') as (c' & Hc' & ND & N).
    { clear -Hc. destruct (simple_chain fields_dec inl _ _ _ Hc) as (c1 & H1 & ND & _). clear Hc c.
      assert (G : forall n fs0 c0, length c0 <= n -> rchain inl fs0 c0 fs' -> NoDup c0 -> exists c', rchain inl fs0 c' fs' /\ NoDup c' /\ ~ In fs' c' /\ incl c' c0).
      { induction n as [|n IH]; intros fs0 c0 L H0 ND0; (inversion H0 as [|? b c2 ? Hr Hc2]; subst; [exists []; repeat split; [constructor | constructor | intros [] | intros x []]|]); [cbn in L; lia|].
        destruct (fields_dec fs' fs0) as [-> |Nd]; [exists []; repeat split; [constructor | constructor | intros [] | intros x []]|].
        inversion ND0 as [|? ? Na NDc]; subst. destruct (IH b c2) as (c' & X1 & X2 & X3 & X4); [cbn in L; lia | exact Hc2 | exact NDc|].
        exists (fs0 :: c'). repeat split; [econstructor; eauto | constructor; [intro Hin; apply Na; auto | exact X2] | intros [E|Hin]; [congruence | contradiction] | intros x [<- |Hx]; [now left | right; auto]]. }
      destruct (G _ _ _ (le_n _) H1 ND) as (c' & X1 & X2 & X3 & _). eauto. }
    refine (collect_fields_chain _ _ _ Hc' fuel [] l ND N _ H i t Hin). intros x _ [].
  Qed.
End Fields.
