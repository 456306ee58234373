(** When the conversion succeeds, and what its references are. *)
From Coq Require Import String Ascii List Bool Arith ZArith Lia.
From Verif Require Import GoStr GoStrFacts Json JsonFacts MergeFacts Pointer Tag Spec_Tag TagFacts Types Spec_Types TypesFacts CollectFacts SimpleChain Spec_Schema FieldFacts FieldOutcome SchemaFacts.
Import ListNotations.
Local Open Scope string_scope.
Local Open Scope nat_scope.
Local Open Scope list_scope.

Section Convert.
  Context {F : Type} (pf : string -> option F) (zero : F) (env : genv) (std : string -> option (schema F)) (pk : nat -> list ptr -> ptr).
  Context (Hflat : flat_env env).
  Local Notation conv := (type2schema pf zero env std pk).

  Lemma basic_ok k (tg : tag F) : (exists s, basic2schema zero k tg = Ok s) <-> In k supported_kinds.
  Proof. clear pf std pk env Hflat. unfold basic2schema. destruct k; cbn; (split; [intros [s H]; try discriminate; tauto | intro H; try (eexists; reflexivity); exfalso; repeat (destruct H as [H|H]; [discriminate|]); exact H]). Qed.
  Lemma basic_string_ok t (tg : tag F) : (exists s, basic_string2schema zero t tg = Ok s) <-> In (trim is_sp t) known_types.
  Proof.
    clear pf std pk env Hflat. unfold basic_string2schema. set (y := trim is_sp t).
    assert (B : forall k, In k supported_kinds -> exists s, basic2schema zero k tg = Ok s) by (intros k Hk; now apply basic_ok).
    assert (B2 : forall f, exists s, bind (basic2schema zero KString tg) (fun s : schema F => Ok (with_format f s)) = Ok s).
    { intro f. destruct (B KString) as [s ->]; [cbn; tauto|]. cbn. eauto. }
    split.
    - intros [s H]. unfold known_types. repeat (match type of H with context [String.eqb y ?x] => destruct (String.eqb_spec y x) as [-> |?] end; [cbn; tauto|]; cbn [orb] in H). discriminate.
    - intro H. cbn in H. repeat (destruct H as [<- |H]; [cbn [String.eqb Ascii.eqb Bool.eqb orb]; first [apply B; cbn; tauto | apply B2 | eexists; reflexivity]|]). destruct H.
  Qed.

  (** *** Success *)
  Lemma elems_step t e : elem_step env t e -> elems_ok env t -> elems_ok env e.
  Proof. intros Hs H t' Hr. apply H. eapply er_step; eauto. Qed.
  Lemma elem_of_step t e : elem_of (under env t) = Some e -> elem_step env t e.
  Proof. intro H. destruct (under env t) eqn:E; cbn in H; try discriminate; injection H as ->; [now apply es_ptr | now apply es_slice | eapply es_array; eauto | eapply es_map; eauto]. Qed.
  Lemma step_elem_of t e : elem_step env t e -> elem_of (under env t) = Some e.
  Proof. intro H. inversion H as [? ? E|? ? E|? ? ? E|? ? ? E]; subst; now rewrite E. Qed.
  Definition all_reg (m : pmap) (t : gty) : Prop := forall t', reachable env t t' -> pm_at m (under env t') <> [].
  Lemma all_reg_step m t tok e : step env t tok e -> all_reg m t -> all_reg m e.
  Proof. intros Hs H t' Hr. apply H. eapply reach_trans; [eapply reach_step; eauto | exact Hr]. Qed.
  Lemma all_reg_self m t : all_reg m t -> pm_at m (under env t) <> [].
  Proof. intro H. apply H. exists [], []. constructor. Qed.
  Lemma reference_ok n m t : pm_at m t <> [] -> exists s, reference2schema std pk n m t = Ok s.
  Proof. intro N. destruct (reference_cases std pk n m t) as [[E _]|[_ ->]]; [contradiction | eauto]. Qed.
  Lemma elems_self t : elems_ok env t -> elem_ok (under env t). Proof. intro H. apply H. constructor. Qed.

  Lemma conv_in_ok L m : step_closed env L -> forall fuel fuel2 n tp t tg, In (under env t) L -> NoDup tp -> incl tp L -> length L < fuel + length tp ->
    (tp <> [] \/ forall fs, under env t <> TStruct fs) -> elems_ok env t -> all_reg m t -> exists s, conv fuel fuel2 n m tp t tg = Ok s.
  Proof.
    intros Hc. induction fuel as [|fuel IH]; intros fuel2 n tp t tg Hin ND Hi Hl Ntp Hok Hreg; [pose proof (NoDup_incl_length ND Hi); lia|].
    destruct (in_dec gty_dec (under env t) tp) as [V|V]; [rewrite conv_seen by exact V; now apply reference_ok, all_reg_self|].
    destruct (conv_cases env t) as [(e & E & He & tok & Hs)|[[k E]|[[fs E]|(E & B & S & X)]]].
    - rewrite (conv_elem pf zero env std pk _ _ _ _ _ _ _ e V E). destruct (IH fuel2 n (tp ++ [under env t]) e tg) as [s ->].
      + eauto.
      + apply NoDup_snoc; auto.
      + intros y Hy. apply in_app_iff in Hy as [Hy|[<- |[]]]; auto.
      + rewrite app_length; cbn; lia.
      + left. destruct tp; discriminate.
      + eapply elems_step; eauto.
      + eapply all_reg_step; eauto.
      + eexists. reflexivity.
    - rewrite (conv_basic pf zero env std pk _ _ _ _ _ _ _ k V E). apply basic_ok. apply elems_self in Hok. now rewrite E in Hok.
    - destruct Ntp as [Ntp|N]; [|now destruct (N fs)]. rewrite (conv_struct_in pf zero env std pk _ _ _ _ _ _ _ fs Ntp E). now apply reference_ok, all_reg_self.
    - now apply elems_self in Hok.
  Qed.
  Lemma conv_in_inv m : forall fuel fuel2 n tp t tg s, conv fuel fuel2 n m tp t tg = Ok s -> (tp <> [] \/ forall fs, under env t <> TStruct fs) ->
    (forall x, In x tp -> elem_ok x /\ under env x = x) -> (forall x e, In x tp -> elem_step env x e -> In (under env e) tp \/ under env e = under env t) ->
    exists V, In (under env t) V /\ incl tp V /\ (forall x, In x V -> elem_ok x /\ under env x = x) /\ (forall x e, In x V -> elem_step env x e -> In (under env e) V).
  Proof.
    induction fuel as [|fuel IH]; intros fuel2 n tp t tg s H Ntp Hok Hst; [discriminate|].
    destruct (in_dec gty_dec (under env t) tp) as [V|V].
    { exists tp. repeat split; [exact V | apply incl_refl | now apply Hok | now apply Hok|]. intros x e Hx He. destruct (Hst x e Hx He) as [A|A]; [exact A | now rewrite A]. }
    assert (Hno : elem_of (under env t) = None -> elem_ok (under env t) -> exists V, In (under env t) V /\ incl tp V /\ (forall x, In x V -> elem_ok x /\ under env x = x) /\ (forall x e, In x V -> elem_step env x e -> In (under env e) V)).
    { intros En Ee. exists (under env t :: tp). split; [now left|]. split; [now apply incl_tl, incl_refl|]. split.
      - intros x [<- |Hx]; [split; [exact Ee | now apply under_flat] | auto].
      - intros x e [<- |Hx] He; [apply step_elem_of in He; rewrite under_flat in He by exact Hflat; congruence|]. destruct (Hst x e Hx He) as [A|A]; [now right | rewrite A; now left]. }
    destruct (conv_cases env t) as [(e & E & He & tok & Hs)|[[k E]|[[fs E]|(E & B & S & X)]]].
    - rewrite (conv_elem pf zero env std pk _ _ _ _ _ _ _ e V E) in H. apply bind_ok in H as (s' & H & _). apply IH in H as (W & W1 & W2 & W3 & W4).
      + exists W. split; [apply W2, in_app_iff; right; now left|]. split; [intros x Hx; apply W2, in_app_iff; now left | auto].
      + left. destruct tp; discriminate.
      + intros x Hx. apply in_app_iff in Hx as [Hx|[<- |[]]]; [auto|]. split; [destruct (under env t); cbn in E; try discriminate; exact I | now apply under_flat].
      + intros x e' Hx He'. apply in_app_iff in Hx as [Hx|[<- |[]]].
        * left. apply in_app_iff. destruct (Hst x e' Hx He') as [A|A]; [now left | right; left; auto].
        * right. apply step_elem_of in He'. rewrite under_flat in He' by exact Hflat. congruence.
    - rewrite (conv_basic pf zero env std pk _ _ _ _ _ _ _ k V E) in H. apply Hno; rewrite E; [reflexivity|]. cbn. apply (basic_ok k tg). eauto.
    - apply Hno; rewrite E; [reflexivity | exact I].
    - rewrite (conv_other pf zero env std pk _ _ _ _ _ _ _ V E B S) in H. discriminate.
  Qed.
  Lemma elem_step_under a b e : under env a = under env b -> elem_step env a e -> elem_step env b e.
  Proof. intros E H. apply elem_of_step. rewrite <- E. now apply step_elem_of. Qed.
  Lemma closed_elems V : (forall x, In x V -> elem_ok x /\ under env x = x) -> (forall x e, In x V -> elem_step env x e -> In (under env e) V) -> forall t, In (under env t) V -> elems_ok env t.
  Proof.
    intros H1 H2 t Hin t' Hr. induction Hr as [t|t e t' Hs Hr IH]; [now apply H1|]. apply IH. eapply H2; [exact Hin|]. eapply elem_step_under; [|exact Hs]. symmetry. now apply under_flat.
  Qed.
  Lemma conv_in_elems fuel fuel2 n m tp t tg s : conv fuel fuel2 n m tp t tg = Ok s -> (tp = [] /\ (forall fs, under env t <> TStruct fs)) \/ (exists fs, tp = [TStruct fs]) -> elems_ok env t.
  Proof.
    intros H Htp. destruct (conv_in_inv m _ _ _ _ _ _ _ H) as (V & V1 & V2 & V3 & V4).
    - destruct Htp as [[_ N]|[fs ->]]; [now right | left; discriminate].
    - destruct Htp as [[-> _]|[fs ->]]; [intros x [] | intros x [<- |[]]; split; [exact I | reflexivity]].
    - destruct Htp as [[-> _]|[fs ->]]; [intros x e [] | intros x e [<- |[]] He; apply step_elem_of in He; discriminate].
    - eapply closed_elems; eauto.
  Qed.
  Lemma elems_eq a b : under env a = under env b -> elems_ok env a -> elems_ok env b.
  Proof.
    intros E H t' Hr. destruct Hr as [b|b e t' Hs Hr].
    - rewrite <- E. apply H. constructor.
    - apply H. eapply er_step; [|exact Hr]. eapply elem_step_under; [symmetry; exact E | exact Hs].
  Qed.
  Lemma elems_under t : elems_ok env (under env t) <-> elems_ok env t.
  Proof. split; apply elems_eq; [|symmetry]; now apply under_flat. Qed.
  Theorem conv_flat_ok L m : step_closed env L -> forall fuel fuel2 n t tg, In (under env t) L -> length L < fuel -> (forall fs, under env t <> TStruct fs) -> all_reg m t ->
    (exists s, conv fuel fuel2 n m [] t tg = Ok s) <-> elems_ok env t.
  Proof.
    intros Hc fuel fuel2 n t tg Hin Hl N Hr. split.
    - intros [s H]. eapply conv_in_elems; eauto.
    - intro H. eapply conv_in_ok; eauto; [constructor | intros y [] | cbn; lia].
  Qed.
  Lemma all_reg_under m t : all_reg m t -> all_reg m (under env t).
  Proof.
    intros H t' (toks & ts & Ht). destruct (trail_under env _ t _ _ _ (under_flat env Hflat t) Ht) as (c & Hc & E). rewrite <- E. apply H. eexists _, _. exact Hc.
  Qed.
  Lemma all_reg_reach m a b : all_reg m a -> reachable env a b -> all_reg m b.
  Proof. intros H Hr t' Hr'. apply H. eapply reach_trans; eauto. Qed.
  Lemma field_conv_ok L m fs fuel fuel2 k x : step_closed env L -> In (TStruct fs) L -> length L <= fuel -> In (under env (sf_type x)) L -> all_reg m (sf_type x) ->
    (exists s, field_conv pf zero env std pk fuel fuel2 m [TStruct fs] k x = Ok s) <-> field_ok env x.
  Proof.
    intros Hc HL Hl Hx Hr. unfold field_conv, field_ok. destruct (String.eqb_spec (t_type (sf_tag x)) "") as [Et|Nt]; cbn [negb].
    - assert (G : (exists s, conv fuel fuel2 k m [TStruct fs] (under env (sf_type x)) (sf_tag x) = Ok s) <-> elems_ok env (sf_type x)).
      { split.
        - intros [s H]. apply elems_under. eapply conv_in_elems; [exact H|]. right. eauto.
        - intro H. eapply (conv_in_ok L m Hc); [now rewrite under_flat | repeat constructor; auto | intros y [<- |[]]; auto | cbn; lia | left; discriminate | now apply elems_under | now apply all_reg_under]. }
      assert (G2 : elems_ok env (sf_type x) <-> (t_type (sf_tag x) <> "" /\ In (trim is_sp (t_type (sf_tag x))) known_types) \/ (t_type (sf_tag x) = "" /\ elems_ok env (sf_type x))) by tauto.
      rewrite <- G2. destruct (under env (sf_type x)) eqn:E; try exact G. split; [|intros _; apply reference_ok; rewrite <- E; now apply all_reg_self].
      intros _ t' Hr'. inversion Hr' as [|? e ? Hs Hr2]; subst; [rewrite E; exact I|]. apply step_elem_of in Hs. rewrite E in Hs. discriminate.
    - rewrite (basic_string_ok (t_type (sf_tag x)) (sf_tag x)). tauto.
  Qed.
  Lemma struct_fields_ok (c : nat -> sfield F -> res (schema F)) (P : sfield F -> Prop) l : (forall k x, In x l -> (exists s, c k x = Ok s) <-> P x) ->
    forall n s, (exists s', struct_fields c n l s = Ok s') <-> Forall P l.
  Proof.
    induction l as [|x l IH]; intros Hc n s; cbn [struct_fields]; [split; [constructor | eauto]|]. assert (IH' := IH (fun k y Hy => Hc k y (or_intror Hy))). split.
    - intros [s' H]. apply bind_ok in H as (ps & E & H). constructor; [apply (Hc n x (or_introl eq_refl)); eauto|]. eapply IH'; eauto.
    - intro H. inversion H as [|? ? Hx Hl]; subst. apply (Hc n x (or_introl eq_refl)) in Hx as [ps ->]. cbn [bind]. now apply IH'.
  Qed.
  Theorem conv_struct_ok L m : step_closed env L -> forall fuel fuel2 n t tg fs, under env t = TStruct fs -> In (under env t) L -> length L < fuel -> length L < fuel2 -> all_reg m t ->
    (exists s, conv fuel fuel2 n m [] t tg = Ok s) <-> tags_fine pf env fs /\ (forall x, visible pf env fs x -> field_ok env x).
  Proof.
    intros Hc fuel fuel2 n t tg fs E Hin Hl Hl2 Hr. destruct fuel as [|fuel]; [lia|]. rewrite (conv_struct pf zero env std pk _ _ _ _ _ _ fs E). rewrite E in Hin.
    assert (Hvis : forall x, visible pf env fs x -> In (under env (sf_type x)) L /\ all_reg m (sf_type x)).
    { intros x Hx. assert (R : reachable env t (sf_type x)) by (apply reach1_reach; eapply reach1_under; [|apply (visible_reach pf env _ _ Hx)]; now rewrite E). split.
      - apply (reach_closed env L t _ Hc R). now rewrite E.
      - eapply all_reg_reach; eauto. }
    assert (Hf : forall l, collect_fields pf env fuel2 [] fs = Ok l -> forall k x, In x l -> (exists s, field_conv pf zero env std pk fuel fuel2 m [TStruct fs] k x = Ok s) <-> field_ok env x).
    { intros l El k x Hx. apply (collect_fields_visible pf env _ _ _ El) in Hx. destruct (Hvis x Hx). apply (field_conv_ok L); auto. lia. }
    split.
    - intros [s H]. apply bind_ok in H as (l & El & H). split; [eapply collect_fields_tags; eauto|]. intros x Hx. apply (collect_fields_visible pf env _ _ _ El) in Hx.
      assert (G : Forall (field_ok env) l) by (apply (struct_fields_ok _ (field_ok env) l (Hf l El) 1 (with_type "object" schema_zero)); eauto). rewrite Forall_forall in G. auto.
    - intros [Ht Hx]. destruct (collect_fields pf env fuel2 [] fs) as [l| | |] eqn:El.
      + cbn [bind]. apply (struct_fields_ok _ (field_ok env) l (Hf l eq_refl)). rewrite Forall_forall. intros x Hxl. apply Hx. now apply (collect_fields_visible pf env _ _ _ El).
      + exfalso. destruct (collect_fields_fails pf env L (@Err unit) (closed_inl pf env L Hc) fuel2 [] fs Hin) as (fs' & i & t1 & A & B & C); [constructor | intros y [] | cbn; lia | now rewrite El|]. destruct (Ht fs' i t1 A B) as [tg' Et]. now rewrite Et in C.
      + exfalso. destruct (collect_fields_fails pf env L (@Panic unit) (closed_inl pf env L Hc) fuel2 [] fs Hin) as (fs' & i & t1 & A & B & C); [constructor | intros y [] | cbn; lia | now rewrite El|]. destruct (Ht fs' i t1 A B) as [tg' Et]. now rewrite Et in C.
      + exfalso. destruct (collect_fields_fails pf env L (@OutOfFuel unit) (closed_inl pf env L Hc) fuel2 [] fs Hin) as (fs' & i & t1 & A & B & C); [constructor | intros y [] | cbn; lia | now rewrite El|]. destruct (Ht fs' i t1 A B) as [tg' Et]. now rewrite Et in C.
  Qed.
End Convert.
