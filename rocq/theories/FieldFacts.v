(** The fields of a struct schema. *)
From Coq Require Import String Ascii List Bool Arith ZArith Lia.
From Verif Require Import GoStr GoStrFacts Json JsonFacts MergeFacts Pointer Tag Spec_Tag TagFacts Types Spec_Types TypesFacts SimpleChain Spec_Schema.
Import ListNotations.
Local Open Scope string_scope.
Local Open Scope nat_scope.
Local Open Scope list_scope.

Lemma fields_dec (a b : list (finfo * gty)) : {a = b} + {a <> b}.
Proof. destruct (gty_dec (TStruct a) (TStruct b)) as [E|N]; [left; congruence | right; congruence]. Qed.

Section Fields.
  Context {F : Type} (pf : string -> option F) (env : genv).
  Local Notation collect_fields := (collect_fields pf env).
  Local Notation visible := (visible pf env).
  Local Notation inlined := (inlined env).

  Lemma cast_inline_spec i t (tg : tag F) fs : cast_inline env i t tg = Some fs <-> inlined i t tg fs.
  Proof.
    unfold cast_inline, Spec_Schema.inlined. assert (B : (if match t_inline tg with Some b => b | None => f_emb i end then Some fs else None) = Some fs <-> t_inline tg = Some true \/ t_inline tg = None /\ f_emb i = true).
    { destruct (t_inline tg) as [[]|]; [|split; [discriminate | intros [X|[X _]]; discriminate] |]; [tauto|]. destruct (f_emb i); [tauto|]. split; [discriminate | intros [X|[_ X]]; discriminate]. }
    assert (G : forall u, match u with TStruct fs0 => if match t_inline tg with Some b => b | None => f_emb i end then Some fs0 else None | _ => None end = Some fs <-> u = TStruct fs /\ (t_inline tg = Some true \/ t_inline tg = None /\ f_emb i = true)).
    { intros [ | | | | | | |fs0| ]; try (split; [discriminate | intros [X _]; discriminate]). rewrite <- B. split.
      - destruct (match t_inline tg with Some b => b | None => f_emb i end); [|discriminate]. intros [= ->]. auto.
      - intros [[= ->] X]. exact X. }
    rewrite G. destruct (under env t) as [ | |e| | | | |fs0| ]; (split; intros [X Y]; (split; [|exact Y])); try (destruct X as [X|(e' & X & X')]; congruence); try discriminate; eauto.
  Qed.
  Lemma cast_none i t (tg : tag F) : cast_inline env i t tg = None <-> forall fs, ~ inlined i t tg fs.
  Proof.
    split.
    - intros E fs H. apply cast_inline_spec in H. congruence.
    - intro H. destruct (cast_inline env i t tg) as [fs|] eqn:E; [|reflexivity]. apply cast_inline_spec in E. now destruct (H fs).
  Qed.

  (** With the structs on the way. *)
  Inductive vis : list gty -> list (finfo * gty) -> sfield F -> Prop :=
  | v_own path fs i t tg : ~ In (TStruct fs) path -> In (i, t) fs -> kept pf i tg -> (forall fs', ~ inlined i t tg fs') -> vis path fs {| sf_info := i; sf_type := t; sf_tag := tg |}
  | v_inline path fs i t tg fs' x : ~ In (TStruct fs) path -> In (i, t) fs -> kept pf i tg -> inlined i t tg fs' -> vis (path ++ [TStruct fs]) fs' x -> vis path fs x.
  Lemma vis_visible path fs x : vis path fs x -> visible fs x.
  Proof. induction 1; [eapply vis_own | eapply vis_inline]; eauto. Qed.
  (** Chains of inlined structs. *)
  Inductive chain : list (finfo * gty) -> list (list (finfo * gty)) -> sfield F -> Prop :=
  | ch_own fs i t tg : In (i, t) fs -> kept pf i tg -> (forall fs', ~ inlined i t tg fs') -> chain fs [fs] {| sf_info := i; sf_type := t; sf_tag := tg |}
  | ch_inline fs i t tg fs' c x : In (i, t) fs -> kept pf i tg -> inlined i t tg fs' -> chain fs' c x -> chain fs (fs :: c) x.
  Lemma visible_chain fs x : visible fs x -> exists c, chain fs c x.
  Proof. induction 1 as [|? ? ? ? ? ? ? ? ? ? [c IH]]; eexists; [eapply ch_own | eapply ch_inline]; eauto. Qed.
  Lemma chain_suffix fs c x : chain fs c x -> forall l1 a l2, c = l1 ++ a :: l2 -> chain a (a :: l2) x.
  Proof.
    induction 1 as [fs i t tg Hin Hk Hn|fs i t tg fs' c x Hin Hk Hi Hc IH]; intros l1 a l2 E.
    - destruct l1 as [|b l1]; [|destruct l1; discriminate]. injection E as <- <-. eapply ch_own; eauto.
    - destruct l1 as [|b l1]; cbn in E.
      + injection E as <- <-. eapply ch_inline; eauto.
      + injection E as _ E. eapply IH; eauto.
  Qed.
  Lemma chain_vis n : forall path fs c x, length c <= n -> chain fs c x -> (forall a, In a c -> ~ In (TStruct a) path) -> vis path fs x.
  Proof.
    induction n as [|n IH]; intros path fs c x L H Hp; [inversion H; subst; cbn in L; lia|].
    assert (Hc : In fs c) by (inversion H; subst; now left). destruct (last_occurrence fields_dec fs c Hc) as (l1 & l2 & E & N).
    pose proof (chain_suffix fs c x H l1 fs l2 E) as H2. subst c. inversion H2 as [? i t tg Hin Hk Hn|? i t tg fs' c' ? Hin Hk Hi Hc']; subst.
    - eapply v_own; eauto.
    - eapply v_inline; eauto. apply (IH _ fs' l2 x); [rewrite app_length in L; cbn in L; lia | exact Hc'|]. intros a Ha Hb. apply in_app_iff in Hb as [Hb|[Hb|[]]].
      + apply (Hp a); [apply in_app_iff; right; now right | exact Hb].
      + injection Hb as <-. contradiction.
  Qed.
  Theorem visible_vis fs x : visible fs x <-> vis [] fs x.
  Proof. split; [|apply vis_visible]. intro H. destruct (visible_chain fs x H) as [c Hc]. eapply chain_vis; [apply le_n | exact Hc | intros a _ []]. Qed.

  Lemma keep_cases i : match tag_parse pf (f_tag i) with
    | Ok tg => (t_ignore tg || negb (exported (f_name i)) = true /\ forall tg', ~ kept pf i tg') \/ (t_ignore tg || negb (exported (f_name i)) = false /\ kept pf i tg)
    | _ => forall tg', ~ kept pf i tg' end.
  Proof.
    unfold kept. destruct (tag_parse pf (f_tag i)) as [tg| | |]; try (intros tg' (X & _); discriminate).
    destruct (t_ignore tg) eqn:A; [left; split; [reflexivity|]; intros tg' ([= <-] & X & _); congruence|].
    destruct (exported (f_name i)) eqn:B; [right; auto|]. left. split; [reflexivity|]. intros tg' (_ & _ & X). congruence.
  Qed.
  Lemma collect_each_spec c fs : forall l, collect_each pf env c fs = Ok l ->
    forall x, In x l <-> (exists i t tg, In (i, t) fs /\ kept pf i tg /\
      ((exists fs', inlined i t tg fs' /\ exists z, c fs' = Ok z /\ In x z) \/ ((forall fs', ~ inlined i t tg fs') /\ x = {| sf_info := i; sf_type := t; sf_tag := tg |}))).
  Proof.
    induction fs as [|[i t] fs IH]; intros l H x; cbn [collect_each] in H.
    - injection H as <-. split; [intros []|]. intros (i & t & tg & [] & _).
    - apply bind_ok in H as (tg & Et & H). pose proof (keep_cases i) as K. rewrite Et in K. destruct K as [[Eb Nk]|[Eb Hk]]; rewrite Eb in H.
      + rewrite (IH l H x). split; intros (i' & t' & tg' & Hin & Hk & R); exists i', t', tg'; (split; [|split; [exact Hk | exact R]]); [now right|]. destruct Hin as [[= <- <-]|Hin]; [now destruct (Nk tg') | exact Hin].
      + apply bind_ok in H as (a & Ea & H). apply bind_ok in H as (z & Ez & H). injection H as <-. rewrite in_app_iff, (IH z Ez x). clear IH.
        assert (Ha : In x a <-> (exists fs', inlined i t tg fs' /\ exists z, c fs' = Ok z /\ In x z) \/ ((forall fs', ~ inlined i t tg fs') /\ x = {| sf_info := i; sf_type := t; sf_tag := tg |})).
        { destruct (cast_inline env i t tg) as [fs'|] eqn:Ec.
          - pose proof Ec as Ec'. apply cast_inline_spec in Ec'. split; [intro Hx; left; eauto|]. intros [(fs'' & Hi & z' & Ez' & Hx)|[Hn _]]; [|now destruct (Hn fs')].
            apply cast_inline_spec in Hi. assert (fs'' = fs') by congruence. subst fs''. assert (z' = a) by congruence. now subst.
          - injection Ea as <-. pose proof (proj1 (cast_none i t tg) Ec) as Hn. split; [intros [<- |[]]; right; auto|]. intros [(fs' & Hi & _)|[_ ->]]; [now destruct (Hn fs') | now left]. }
        rewrite Ha. split.
        * intros [R|(i' & t' & tg' & Hin & Hk' & R)]; [exists i, t, tg; split; [now left | auto] | exists i', t', tg'; split; [now right | auto]].
        * intros (i' & t' & tg' & [[= <- <-]|Hin] & Hk' & R); [|right; exists i', t', tg'; auto]. left. assert (tg' = tg) by (destruct Hk as [E1 _], Hk' as [E2 _]; congruence). now subst.
  Qed.
  Lemma collect_each_sub c fs : forall l, collect_each pf env c fs = Ok l ->
    forall i t tg fs', In (i, t) fs -> kept pf i tg -> inlined i t tg fs' -> exists z, c fs' = Ok z.
  Proof.
    induction fs as [|[i0 t0] fs IH]; intros l H i t tg fs' Hin Hk Hi; [destruct Hin|]. cbn [collect_each] in H.
    apply bind_ok in H as (tg0 & Et & H). pose proof (keep_cases i0) as K. rewrite Et in K. destruct K as [[Eb Nk]|[Eb Hk0]]; rewrite Eb in H.
    - destruct Hin as [E|Hin]; [|eapply IH; eauto]. exfalso. assert (i0 = i) by congruence. subst. now apply (Nk tg).
    - apply bind_ok in H as (a & Ea & H). apply bind_ok in H as (z & Ez & H). destruct Hin as [E|Hin]; [|eapply IH; eauto].
      assert (i0 = i /\ t0 = t) as [-> ->] by (split; congruence). assert (tg0 = tg) by (destruct Hk as [E1 _]; congruence). subst tg0.
      apply cast_inline_spec in Hi. rewrite Hi in Ea. eauto.
  Qed.
  Theorem collect_fields_vis fuel : forall path fs l, collect_fields fuel path fs = Ok l -> forall x, In x l <-> vis path fs x.
  Proof.
    induction fuel as [|fuel IH]; intros path fs l H x; [discriminate|]. cbn [Types.collect_fields] in H. destruct (existsb _ path) eqn:V.
    - injection H as <-. apply has_in in V. split; [intros []|]. intro X. inversion X; contradiction.
    - apply has_not_in in V. rewrite (collect_each_spec _ _ _ H x). split.
      + intros (i & t & tg & Hin & Hk & [(fs' & Hi & z & Ez & Hx)|[Hn ->]]); [|now eapply v_own]. eapply v_inline; eauto. now apply (IH _ _ _ Ez).
      + intro X. inversion X as [? ? i t tg _ Hin Hk Hn|? ? i t tg fs' ? _ Hin Hk Hi X']; subst; exists i, t, tg; (split; [exact Hin|]); (split; [exact Hk|]); [right; auto|]. left. exists fs'. split; [exact Hi|].
        destruct (collect_each_sub _ _ _ H i t tg fs' Hin Hk Hi) as (z & Ez). exists z; split; [exact Ez | now apply (IH _ _ _ Ez)].
  Qed.
  Theorem collect_fields_visible fuel fs l : collect_fields fuel [] fs = Ok l -> forall x, In x l <-> visible fs x.
  Proof. intros H x. rewrite (collect_fields_vis _ _ _ _ H x). symmetry. apply visible_vis. Qed.
End Fields.
