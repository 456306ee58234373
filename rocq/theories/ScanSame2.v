(** Two scans of the same input find the same types and convert them alike. *)
From Coq Require Import String Ascii List Bool Arith ZArith Lia Permutation.
From Verif Require Import Route GoStr GoStrFacts Json JsonFacts MergeFacts Url Pointer PtrFacts Spec_Ptr Tag Types Spec_Types TypesFacts WalkFacts CollectFacts CollectApi DenoteFacts SimpleChain Spec_Tag Spec_Schema
  FieldFacts FieldOutcome SchemaFacts SchemaOutcome SchemaRefs SchemaShape JsonText SchemaJson Spec_Loc Spec_Clone LocFacts SchemaJsonFacts SchemaJsonApi Spec_Resolve ConfigApi ScanFacts ScanTypes P_At P_Types SchemaNeat Scan Spec_Scan Spec_Ends Spec_Kept Spec_ScanOk ScanOk Spec_Same.
Import ListNotations.
Local Open Scope string_scope.
Local Open Scope nat_scope.
Local Open Scope list_scope.

(** *** Pointers are determined by their texts *)
Definition homely (p : ptr) (l : TypesFacts.loc) : Prop :=
  at_loc p l /\ exists n rest q, snd l = n :: rest /\ new_point (Some (fst l)) n = Ok q /\ p_url p = p_url q.
Lemma homely_inj p1 p2 l1 l2 : homely p1 l1 -> homely p2 l2 -> ptr_string p1 = ptr_string p2 -> p1 = p2.
Proof.
  intros (A1 & n1 & r1 & q1 & E1 & N1 & U1) (A2 & n2 & r2 & q2 & E2 & N2 & U2) E. rewrite (at_loc_text _ _ A1), (at_loc_text _ _ A2) in E.
  apply loc_text_inj in E as (Ef & Es); [|apply A1|apply A2|apply A1|apply A2]. rewrite Ef, E1 in *. rewrite E2 in Es. injection Es as <- <-. assert (q1 = q2) by congruence. subst q2.
  destruct A1 as (_ & _ & F1 & _). destruct A2 as (_ & _ & F2 & _). destruct p1 as [u1 f1], p2 as [u2 f2]. cbn in *. rewrite E1 in F1. rewrite E2 in F2. congruence.
Qed.
Lemma with_desc_url p l name q : at_loc p l -> with_desc p name = Ok q -> p_url q = p_url p.
Proof. intros (Hi & Hg & _) H. unfold with_desc in H. rewrite (go_clone (fst l)) in H by assumption. cbn [bind] in H. injection H as <-. reflexivity. Qed.
Lemma next_steps_url r l u next p e : at_loc r l -> next_steps r u = Ok next -> In (p, e) next -> p_url p = p_url r.
Proof.
  intros Hl H I. assert (K : forall tok e0, (do p <- with_desc r tok ; Ok [(p, e0)]) = Ok next -> p_url p = p_url r).
  { intros tok e0 E. apply bind_ok in E as (q & Eq & E). injection E as <-. destruct I as [E|[]]. injection E as <- _. exact (with_desc_url _ _ _ _ Hl Eq). }
  destruct u as [| | | | | | |fs|]; cbn [next_steps] in H; try (injection H as <-; destruct I); try (eapply K; exact H). clear K. revert next H I. unfold field_steps.
  induction fs as [|[i t] fs IH]; intros next H I; [injection H as <-; destruct I|]. destruct (negb _); [exact (IH _ H I)|]. apply bind_ok in H as (q & Eq & H). apply bind_ok in H as (n & En & H). injection H as <-.
  destruct I as [E|I]; [injection E as <- _; exact (with_desc_url _ _ _ _ Hl Eq) | exact (IH _ En I)].
Qed.
Section Home.
  Context (env : genv) (Henv : env_ok env).
  Definition all_home (m : pmap) : Prop := forall T p, In p (pm_at m T) -> exists l, homely p l.
  Lemma all_home_append m u p l : all_home m -> homely p l -> all_home (pm_append m u p).
  Proof.
    intros G Hp T q Hq. unfold pm_append in Hq. destruct (pt_has (pm_at m u) p); [eauto|]. rewrite pm_at_set in Hq.
    destruct (gty_eqb u T); [|eauto]. apply in_app_iff in Hq as [Hq|[<- |[]]]; eauto.
  Qed.
  Lemma new_home pk n q : import_path pk -> go_ident n = true -> new_point (Some pk) n = Ok q -> homely q (pk, [n]).
  Proof. intros Hi Hn E. destruct (new_point_loc pk n Hi Hn) as (q' & E' & L). assert (q' = q) by congruence. subst q'. split; [exact L|]. exists n, [], q. auto. Qed.
  Lemma walk_home : forall fuel path r t m m' l, homely r l -> field_names_ok t = true -> all_home m -> walk env fuel path r t m = Ok m' -> all_home m'.
  Proof.
    induction fuel as [|fuel IH]; intros path r t m m' l Hl Ht Hm H; [discriminate|]. cbn [walk] in H. assert (Hm0 : all_home (pm_append m (under env t) r)) by (eapply all_home_append; eauto). destruct (existsb _ path); [injection H as <-; exact Hm0|].
    destruct (next_steps_spec env Henv r l t (proj1 Hl) Ht) as (next & En & N1 & _). rewrite En in H. cbn [bind] in H.
    assert (N2 : forall p e, In (p, e) next -> exists tok, Spec_Types.step env t tok e /\ homely p (fst l, snd l ++ [tok])).
    { intros p e I. destruct (N1 p e I) as (tok & Hs & Hp). exists tok. split; [exact Hs|]. split; [exact Hp|]. destruct Hl as (Al & n & rest & q & E & Nq & U). exists n, (rest ++ [tok]), q. cbn [fst snd]. rewrite E. split; [reflexivity|]. split; [exact Nq|]. now rewrite (next_steps_url _ _ _ _ _ _ Al En I). }
    clear En N1. revert Hm0 H. generalize (pm_append m (under env t) r). clear m Hm. induction next as [|[p e] next IHn]; intros m Hm H; [injection H as <-; exact Hm|]. cbn [walk_next] in H.
    destruct (N2 p e (or_introl eq_refl)) as (tok & Hs & Hp). destruct (names_step env Henv t tok e Ht Hs) as [He _].
    apply bind_ok in H as (m1 & E1 & H). apply bind_ok in H as (m2 & E2 & H). assert (Q1 : all_home m1) by (eapply IH; eauto). apply (IHn (fun p e Hin => N2 p e (or_intror Hin)) m2); [|exact H].
    destruct e; try (injection E2 as <-; exact Q1). destruct (nth_error env i) as [d|] eqn:Ei; [|injection E2 as <-; exact Q1].
    destruct (d_pkg d) as [pk|] eqn:Ep; [|discriminate E2]. destruct (decl_named env Henv i d pk Ei Ep) as [Hpk Hname]. destruct (new_point_loc pk (d_name d) Hpk Hname) as (q & Eq & Hq). rewrite Eq in E2. cbn [bind] in E2. eapply IH; [eapply new_home; eauto | exact He | exact Q1 | exact E2].
  Qed.
  Lemma collect_home fuel os : forall m m', Forall obj_ok os -> all_home m -> collect_all env fuel os m = Ok m' -> all_home m'.
  Proof.
    induction os as [|o os IH]; intros m m' Ho Hm H; [injection H as <-; exact Hm|]. cbn [collect_all] in H. apply bind_ok in H as (m1 & E1 & H). inversion Ho as [|? ? (H1 & H2 & H3) Hos]; subst. apply (IH m1 m' Hos); [|exact H].
    unfold collect_types in E1. apply bind_ok in E1 as (r & Er & E1). destruct (o_pkg o) as [pk|] eqn:Ep; [|discriminate Er]. eapply walk_home; [eapply new_home; eauto | exact H2 | exact Hm | exact E1].
  Qed.
End Home.

(** *** Conversion *)
Section Conv.
  Context {F : Type} (pf : string -> option F) (zero : F) (env : genv) (std : string -> option (schema F)) (pk1 pk2 : nat -> list ptr -> ptr) (m1 m2 : pmap).
  Context (Hflat : flat_env env).
  Hypothesis Hsame : forall n T, by_reference env T -> reference2schema std pk1 n m1 T = reference2schema std pk2 n m2 T.
  Lemma elem_reach_snoc t t' e : elem_reach env t t' -> elem_step env t' e -> elem_reach env t e.
  Proof. induction 1 as [t|t e0 t' S _ IH]; intro H; [eapply er_step; [exact H | constructor] | eapply er_step; [exact S | exact (IH H)]]. Qed.
  Lemma elem_step_flat t e : elem_step env t e -> elem_step env (under env t) e.
  Proof. pose proof (under_flat env Hflat t) as E. intro H. inversion H as [t0 e0 U|t0 e0 U|t0 n e0 U|t0 k e0 U]; subst; [apply es_ptr|apply es_slice|eapply es_array|eapply es_map]; rewrite E; exact U. Qed.
  Lemma conv_ext : forall fuel fuel2 n tp t tg,
    (forall x, In x tp -> (exists fs, x = TStruct fs) \/ exists e, elem_step env x e /\ elem_reach env e t) ->
    type2schema pf zero env std pk1 fuel fuel2 n m1 tp t tg = type2schema pf zero env std pk2 fuel fuel2 n m2 tp t tg.
  Proof.
    induction fuel as [|fuel IH]; intros fuel2 n tp t tg Htp; [reflexivity|].
    destruct (in_dec gty_dec (under env t) tp) as [V|V].
    { rewrite !conv_seen by exact V. apply Hsame. destruct (Htp _ V) as [X|(e & S & R)]; [now left|]. right. exists e, t. auto. }
    destruct (conv_cases env t) as [(e & E & He & tok & Hs)|[[k E]|[[fs E]|(E & B & S & X)]]].
    - rewrite !(conv_elem pf zero env std _ _ _ _ _ _ _ _ e V E). rewrite IH; [reflexivity|]. intros x Hx. apply in_app_iff in Hx as [Hx|[<-|[]]].
      + destruct (Htp _ Hx) as [X|(e0 & S & R)]; [now left|]. right. exists e0. split; [exact S|]. exact (elem_reach_snoc _ _ _ R He).
      + right. exists e. split; [now apply elem_step_flat | constructor].
    - rewrite !(conv_basic pf zero env std _ _ _ _ _ _ _ _ k V E). reflexivity.
    - destruct tp as [|x0 tp].
      + rewrite !(conv_struct pf zero env std _ _ _ _ _ _ _ fs E). destruct (collect_fields pf env fuel2 [] fs) as [l| | |]; try reflexivity. cbn [bind].
        generalize (with_type "object" (@schema_zero F)). generalize 1 as k. induction l as [|x l IHl]; intros k s; [reflexivity|]. cbn [struct_fields].
        assert (Ex : field_conv pf zero env std pk1 fuel fuel2 m1 [TStruct fs] k x = field_conv pf zero env std pk2 fuel fuel2 m2 [TStruct fs] k x).
        { unfold field_conv. destruct (negb _); [reflexivity|]. destruct (under env (sf_type x)) eqn:U;
            first [apply Hsame; left; eauto | apply IH; intros y [<-|[]]; left; eauto]. }
        rewrite Ex. destruct (field_conv pf zero env std pk2 fuel fuel2 m2 [TStruct fs] k x) as [ps| | |]; try reflexivity. cbn [bind]. apply IHl.
      + rewrite !(conv_struct_in pf zero env std _ _ _ _ _ (x0 :: tp) t tg fs) by (congruence || exact E). apply Hsame. left. eauto.
    - rewrite !(conv_other pf zero env std _ _ _ _ _ _ _ _ V E B S). reflexivity.
  Qed.
End Conv.
