(** Converting types to schemas: termination, outcome, references. *)
From Coq Require Import String Ascii List Bool Arith ZArith Lia.
From Verif Require Import GoStr GoStrFacts Json JsonFacts MergeFacts Pointer Tag Spec_Tag TagFacts Types Spec_Types TypesFacts CollectFacts SimpleChain Spec_Schema FieldFacts FieldOutcome.
Import ListNotations.
Local Open Scope string_scope.
Local Open Scope nat_scope.
Local Open Scope list_scope.

Lemma ptr_self e : TPtr e <> e. Proof. induction e; congruence. Qed.
Lemma slice_self e : TSlice e <> e. Proof. induction e; congruence. Qed.
Lemma array_self e : forall n, TArray n e <> e. Proof. induction e; intros kk; try congruence. Qed.
Lemma map_self e : forall k, TMap k e <> e. Proof. induction e; intros kk; try congruence. Qed.
Lemma self_check a b : a <> b -> gty_eqb a b = false.
Proof. intro N. destruct (gty_eqb a b) eqn:E; [|reflexivity]. apply gty_eqb_spec in E. contradiction. Qed.

Section Convert.
  Context {F : Type} (pf : string -> option F) (zero : F) (env : genv) (std : string -> option (schema F)) (pk : nat -> list ptr -> ptr).
  Context (Hflat : flat_env env).
  Local Notation conv := (type2schema pf zero env std pk).

  Lemma under_flat t : under env (under env t) = under env t.
  Proof.
    destruct t as [| i | | | | | | |]; try reflexivity. cbn [under]. destruct (nth_error env i) as [d|] eqn:E; [|reflexivity]. pose proof Hflat as G. unfold flat_env in G. rewrite Forall_forall in G.
    specialize (G d (nth_error_In _ _ E)). destruct (d_under d); try reflexivity. now destruct (G i0).
  Qed.
  Lemma under_struct t fs : under env t = TStruct fs -> under env (TStruct fs) = TStruct fs. Proof. reflexivity. Qed.

  (** The conversion of an element: the check for self reference never fires. *)
  Definition elem_of (u : gty) : option gty := match u with TPtr e | TSlice e | TArray _ e | TMap _ e => Some e | _ => None end.
  Lemma elem_self u e : elem_of u = Some e -> gty_eqb u e = false.
  Proof.
    intro H. apply self_check. destruct u; cbn in H; try discriminate; injection H as ->; [apply ptr_self | apply slice_self | apply array_self | apply map_self].
  Qed.
  Definition wrap (tg : tag F) (u : gty) (s : schema F) : schema F :=
    match u with TPtr _ => pointer_schema tg s | TSlice _ => slice_schema tg s | TArray n _ => array_schema n tg s | _ => map_schema tg s end.
  Definition field_conv fuel fuel2 m tp' k (x : sfield F) : res (schema F) :=
    if negb (String.eqb (t_type (sf_tag x)) "") then basic_string2schema zero (t_type (sf_tag x)) (sf_tag x)
    else match under env (sf_type x) with
         | TStruct z => reference2schema std pk k m (TStruct z)
         | z => conv fuel fuel2 k m tp' z (sf_tag x)
         end.
  (** One step of the conversion. *)
  Lemma conv_seen fuel fuel2 n m tp t tg : In (under env t) tp -> conv (S fuel) fuel2 n m tp t tg = reference2schema std pk n m (under env t).
  Proof. intro H. cbn [type2schema]. apply has_in in H. now rewrite H. Qed.
  Lemma conv_elem fuel fuel2 n m tp t tg e : ~ In (under env t) tp -> elem_of (under env t) = Some e ->
    conv (S fuel) fuel2 n m tp t tg = bind (conv fuel fuel2 n m (tp ++ [under env t]) e tg) (fun s => Ok (wrap tg (under env t) s)).
  Proof.
    intros V E. cbn [type2schema]. apply has_not_in in V. rewrite V. pose proof (elem_self _ _ E) as S.
    destruct (under env t); cbn in E; try discriminate; injection E as ->; rewrite S; reflexivity.
  Qed.
  Lemma conv_basic fuel fuel2 n m tp t tg k : ~ In (under env t) tp -> under env t = TBasic k -> conv (S fuel) fuel2 n m tp t tg = basic2schema zero k tg.
  Proof. intros V E. cbn [type2schema]. apply has_not_in in V. now rewrite V, E. Qed.
  Lemma conv_struct_in fuel fuel2 n m tp t tg fs : tp <> [] -> under env t = TStruct fs -> conv (S fuel) fuel2 n m tp t tg = reference2schema std pk n m (under env t).
  Proof. intros N E. cbn [type2schema]. destruct (existsb _ tp); [reflexivity|]. rewrite E. destruct tp; [contradiction | reflexivity]. Qed.
  Lemma conv_struct fuel fuel2 n m t tg fs : under env t = TStruct fs -> conv (S fuel) fuel2 n m [] t tg =
    bind (collect_fields pf env fuel2 [] fs) (fun l => struct_fields (field_conv fuel fuel2 m [TStruct fs]) 1 l (with_type "object" schema_zero)).
  Proof. intros E. cbn [type2schema existsb]. rewrite E. reflexivity. Qed.
  Lemma conv_other fuel fuel2 n m tp t tg : ~ In (under env t) tp -> elem_of (under env t) = None -> (forall k, under env t <> TBasic k) -> (forall fs, under env t <> TStruct fs) ->
    conv (S fuel) fuel2 n m tp t tg = Err.
  Proof. intros V E B S. cbn [type2schema]. apply has_not_in in V. rewrite V. destruct (under env t); try reflexivity; cbn in E; try discriminate; [now destruct (B k) | now destruct (S fs)]. Qed.
  Lemma conv_cases t : (exists e, elem_of (under env t) = Some e /\ elem_step env t e /\ exists tok, step env t tok e) \/ (exists k, under env t = TBasic k) \/ (exists fs, under env t = TStruct fs) \/
    (elem_of (under env t) = None /\ (forall k, under env t <> TBasic k) /\ (forall fs, under env t <> TStruct fs) /\ ~ elem_ok (under env t)).
  Proof.
    clear pk. destruct (under env t) eqn:E; cbn; eauto 7; try (right; right; right; repeat split; [congruence | congruence | tauto]).
    - left. exists g. split; [reflexivity|]. split; [now apply es_ptr|]. exists "*". now apply step_ptr.
    - left. exists g. split; [reflexivity|]. split; [now apply es_slice|]. exists "[]". now apply step_slice.
    - left. exists g. split; [reflexivity|]. split; [now eapply es_array; eauto|]. exists "[]". eapply step_array; eauto.
    - left. exists g2. split; [reflexivity|]. split; [now eapply es_map; eauto|]. exists "[]". eapply step_map; eauto.
  Qed.

  (** Closure. *)
  Definition step_closed (L : list gty) : Prop := forall t1 tok t2, In (under env t1) L -> step env t1 tok t2 -> In (under env t2) L.
  Lemma inlined_step fs i t tg fs' : In (i, t) fs -> kept pf i tg -> inlined env i t tg fs' -> exists tx toks ts, under env tx = TStruct fs' /\ trail env (TStruct fs) toks ts tx.
  Proof.
    intros Hin (_ & _ & Hx) [[E|(e & E & E2)] _].
    - exists t, [f_name i], [TStruct fs]. split; [exact E|]. apply (trail_cons env (TStruct fs) (f_name i) t [] [] t); [eapply step_field; eauto; reflexivity | constructor].
    - exists e, [f_name i; "*"], [TStruct fs; under env t]. split; [exact E2|]. apply (trail_cons env (TStruct fs) (f_name i) t ["*"] [under env t] e); [eapply step_field; eauto; reflexivity|].
      apply (trail_cons env t "*" e [] [] e); [now apply step_ptr | constructor].
  Qed.
  Lemma trail_closed L : step_closed L -> forall t toks ts t', trail env t toks ts t' -> In (under env t) L -> In (under env t') L.
  Proof. intros Hc t toks ts t'. induction 1; eauto. Qed.
  Lemma closed_inl L : step_closed L -> inl_closed pf env L.
  Proof. intros Hc fs i t tg fs' Hin Hf Hk Hi. destruct (inlined_step fs i t tg fs' Hf Hk Hi) as (tx & toks & ts & E & Ht). rewrite <- E. eapply trail_closed; eauto. Qed.
  Lemma reach_trans a b c : reachable env a b -> reachable env b c -> reachable env a c.
  Proof. intros (x & tx & H1) (y & ty & H2). exists (x ++ y), (tx ++ ty). eapply trail_app; eauto. Qed.
  Lemma reach_step a tok b : step env a tok b -> reachable env a b.
  Proof. intro H. exists [tok], [under env a]. econstructor; [exact H | constructor]. Qed.
  Lemma step_under a b tok e : under env a = under env b -> step env a tok e -> step env b tok e.
  Proof. intros E H. inversion H; subst; try (econstructor; rewrite <- ?E; eauto; fail). Qed.
  Lemma trail_under a b toks ts c : under env a = under env b -> trail env a toks ts c -> exists c', trail env b toks ts c' /\ under env c' = under env c.
  Proof.
    intros E H. inversion H as [|? tok t1 toks1 ts1 ? Hs Ht]; subst; [exists b; split; [constructor | auto]|]. exists c. split; [|reflexivity]. rewrite E. econstructor; [|exact Ht]. eapply step_under; eauto.
  Qed.
  Definition reach1 (a b : gty) : Prop := exists tok t1, step env a tok t1 /\ reachable env t1 b.
  Lemma reach1_under a b c : under env a = under env b -> reach1 a c -> reach1 b c.
  Proof. intros E (tok & t1 & Hs & Hr). exists tok, t1. split; [eapply step_under; eauto | exact Hr]. Qed.
  Lemma reach1_reach a b : reach1 a b -> reachable env a b.
  Proof. intros (tok & t1 & Hs & Hr). eapply reach_trans; [eapply reach_step; eauto | exact Hr]. Qed.
  Lemma reach_reach1 a b c : reachable env a b -> reach1 b c -> reach1 a c.
  Proof.
    intros (toks & ts & H) H1. inversion H as [|? tok t1 toks1 ts1 ? Hs Ht]; subst; [exact H1|]. exists tok, t1. split; [exact Hs|]. eapply reach_trans; [|apply reach1_reach, H1]. eexists _, _. exact Ht.
  Qed.
  Lemma visible_reach fs x : visible pf env fs x -> reach1 (TStruct fs) (sf_type x).
  Proof.
    induction 1 as [fs i t tg Hin Hk Hn|fs i t tg fs' x Hin Hk Hi Hv IH].
    - cbn. exists (f_name i), t. split; [eapply step_field; [reflexivity | exact Hin | apply Hk]|]. exists [], []. constructor.
    - destruct (inlined_step fs i t tg fs' Hin Hk Hi) as (tx & toks & ts & E & Ht). eapply reach_reach1; [eexists _, _; exact Ht|]. eapply reach1_under; [|exact IH]. rewrite E. reflexivity.
  Qed.
  Lemma reach_closed L a b : step_closed L -> reachable env a b -> In (under env a) L -> In (under env b) L.
  Proof. intros Hc (toks & ts & H). eapply trail_closed; eauto. Qed.

  (** Failures other than errors come from the tags alone. *)
  Lemma struct_fields_fails {C} (c : nat -> sfield F -> res (schema F)) (r : res C) l : forall n s, same_failure (struct_fields c n l s) r -> exists k x, In x l /\ same_failure (c k x) r.
  Proof.
    induction l as [|x l IH]; intros n s H; cbn [struct_fields] in H; [destruct H|]. apply bind_fails in H as [H|(ps & _ & H)]; [exists n, x; split; [now left | exact H]|].
    destruct (IH _ _ H) as (k & y & Hin & Hy). exists k, y. split; [now right | exact Hy].
  Qed.
  Lemma reference_cases n m t : (pm_at m t = [] /\ reference2schema std pk n m t = Err) \/ (pm_at m t <> [] /\
    reference2schema std pk n m t = Ok (match std (ptr_string (pk n (pm_at m t))) with Some s => s | None => with_ref (Some (pk n (pm_at m t))) schema_zero end)).
  Proof. unfold reference2schema. destruct (pm_at m t) as [|p l]; [now left|]. right. split; [discriminate|]. now destruct (std _). Qed.
  Lemma reference_err {C} n m t (r : res C) : same_failure (reference2schema std pk n m t) r -> r = Err.
  Proof. destruct (reference_cases n m t) as [[_ ->]|[_ ->]]; [|intros []]. destruct r; cbn; tauto. Qed.
  Lemma basic_err {C} k (tg : tag F) (r : res C) : same_failure (basic2schema zero k tg) r -> r = Err.
  Proof. unfold basic2schema. destruct (basic_base zero k); [intros []|]. destruct r; cbn; tauto. Qed.
  Lemma basic_string_err {C} t (tg : tag F) (r : res C) : same_failure (basic_string2schema zero t tg) r -> r = Err.
  Proof.
    unfold basic_string2schema. repeat match goal with |- context [if ?b then _ else _] => destruct b end; try apply basic_err;
      try (intro H; apply bind_fails in H as [H|(x & _ & [])]; now apply basic_err in H); try (intros []; fail). destruct r; cbn; tauto.
  Qed.
  Lemma conv_in_fails {C} L (r : res C) : step_closed L -> r <> Err -> forall fuel fuel2 n m tp t tg, In (under env t) L -> NoDup tp -> incl tp L -> length L < fuel + length tp -> tp <> [] ->
    ~ same_failure (conv fuel fuel2 n m tp t tg) r.
  Proof.
    intros Hc Hr. induction fuel as [|fuel IH]; intros fuel2 n m tp t tg Hin ND Hi Hl Ntp H; [pose proof (NoDup_incl_length ND Hi); lia|].
    destruct (in_dec gty_dec (under env t) tp) as [V|V]; [rewrite conv_seen in H by exact V; now apply reference_err in H|].
    destruct (conv_cases t) as [(e & E & _ & tok & Hs)|[[k E]|[[fs E]|(E & B & S & _)]]].
    - rewrite (conv_elem _ _ _ _ _ _ _ e V E) in H. apply bind_fails in H as [H|(x & _ & [])]. revert H. apply IH; [eauto | apply NoDup_snoc; auto | | rewrite app_length; cbn; lia | destruct tp; discriminate].
      intros y Hy. apply in_app_iff in Hy as [Hy|[<- |[]]]; auto.
    - rewrite (conv_basic _ _ _ _ _ _ _ k V E) in H. now apply basic_err in H.
    - rewrite (conv_struct_in _ _ _ _ _ _ _ fs Ntp E) in H. now apply reference_err in H.
    - rewrite (conv_other _ _ _ _ _ _ _ V E B S) in H. destruct r; cbn in H; tauto.
  Qed.
  Theorem conv_fails {C} L (r : res C) : step_closed L -> r <> Err -> forall fuel fuel2 n m t tg, In (under env t) L -> length L < fuel -> length L < fuel2 ->
    same_failure (conv fuel fuel2 n m [] t tg) r ->
    exists fs fs' i t1, under env t = TStruct fs /\ looked_at pf env fs fs' /\ In (i, t1) fs' /\ same_failure (tag_parse pf (f_tag i)) r.
  Proof.
    intros Hc Hr fuel fuel2 n m t tg Hin Hl Hl2 H. destruct fuel as [|fuel]; [lia|]. assert (V : ~ In (under env t) []) by auto.
    destruct (conv_cases t) as [(e & E & _ & tok & Hs)|[[k E]|[[fs E]|(E & B & S & _)]]].
    - exfalso. rewrite (conv_elem _ _ _ _ _ _ _ e V E) in H. apply bind_fails in H as [H|(x & _ & [])]. revert H. apply (conv_in_fails L r Hc Hr); cbn; [eauto | repeat constructor; auto | intros y [<- |[]]; auto | lia | discriminate].
    - rewrite (conv_basic _ _ _ _ _ _ _ k V E) in H. now apply basic_err in H.
    - rewrite (conv_struct _ _ _ _ _ _ fs E) in H. assert (HL : In (TStruct fs) L) by now rewrite <- E. apply bind_fails in H as [H|(l & El & H)].
      + destruct (collect_fields_fails pf env L r (closed_inl L Hc) fuel2 [] fs HL) as (fs' & i & t1 & X); [constructor | intros y [] | cbn; lia | exact H|]. exists fs, fs', i, t1. auto.
      + exfalso. apply struct_fields_fails in H as (k & x & Hx & H). apply (collect_fields_visible pf env _ _ _ El) in Hx. pose proof (reach_closed L _ _ Hc (reach1_reach _ _ (visible_reach _ _ Hx)) HL) as HxL.
        unfold field_conv in H. destruct (negb _); [now apply basic_string_err in H|].
        assert (G : ~ same_failure (conv fuel fuel2 k m [TStruct fs] (under env (sf_type x)) (sf_tag x)) r).
        { apply (conv_in_fails L r Hc Hr); cbn; [now rewrite under_flat | repeat constructor; auto | intros y [<- |[]]; auto | lia | discriminate]. }
        destruct (under env (sf_type x)); try contradiction. now apply reference_err in H.
    - rewrite (conv_other _ _ _ _ _ _ _ V E B S) in H. destruct r; cbn in H; tauto.
  Qed.
End Convert.
