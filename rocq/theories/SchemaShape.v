(** The shape of the schemas: structs, containers, basic kinds. *)
From Coq Require Import String Ascii List Bool Arith ZArith Lia.
From Verif Require Import GoStr GoStrFacts Json JsonFacts MergeFacts Pointer Tag Spec_Tag TagFacts Types Spec_Types TypesFacts CollectFacts SimpleChain Spec_Schema FieldFacts FieldOutcome SchemaFacts SchemaOutcome SchemaRefs.
Import ListNotations.
Local Open Scope string_scope.
Local Open Scope nat_scope.
Local Open Scope list_scope.

Section Struct.
  Context {F : Type}.
  Implicit Types s : schema F.
  Lemma field_name_prop (x : sfield F) : field_name x = prop_name x.
  Proof. unfold field_name, prop_name. destruct (t_name (sf_tag x)); reflexivity. Qed.
  Lemma add_field_props x ps s : s_props (add_field x ps s) = oset (prop_name x) (field_attrs (sf_tag x) ps) (s_props s).
  Proof. unfold add_field. rewrite field_name_prop. destruct (s_ref ps); [reflexivity|]. destruct (t_required (sf_tag x)); reflexivity. Qed.
  Definition listed (x : sfield F) (ps : schema F) : bool := t_required (sf_tag x) && match s_ref ps with None => true | Some _ => false end.
  Lemma add_field_required x ps s : s_required (add_field x ps s) = s_required s ++ (if listed x ps then [prop_name x] else []).
  Proof. unfold add_field, listed. rewrite field_name_prop. destruct (s_ref ps), (t_required (sf_tag x)); cbn; rewrite ?app_nil_r; reflexivity. Qed.
  Lemma add_field_other {A} (f : schema F -> A) x ps s : (forall v s, f (with_props v s) = f s) -> (forall v s, f (with_required v s) = f s) -> f (add_field x ps s) = f s.
  Proof. intros G1 G2. unfold add_field. destruct (s_ref ps); [apply G1|]. destruct (t_required (sf_tag x)); [rewrite G2; apply G1 | apply G1]. Qed.

  Lemma struct_fields_spec c l : forall n s s', struct_fields c n l s = Ok s' -> exists xs,
    map fst xs = l /\ (forall x ps, In (x, ps) xs -> exists k, c k x = Ok ps) /\
    s_props s' = fold_left (fun m xp => oset (prop_name (fst xp)) (field_attrs (sf_tag (fst xp)) (snd xp)) m) xs (s_props s) /\
    s_required s' = s_required s ++ map (fun xp => prop_name (fst xp)) (filter (fun xp => listed (fst xp) (snd xp)) xs) /\
    (forall A (f : schema F -> A), (forall v s, f (with_props v s) = f s) -> (forall v s, f (with_required v s) = f s) -> f s' = f s).
  Proof.
    induction l as [|x l IH]; intros n s s' H; cbn [struct_fields] in H.
    - injection H as <-. exists []. repeat split; auto; [intros x ps [] | cbn; now rewrite app_nil_r].
    - apply bind_ok in H as (ps & Ep & H). apply IH in H as (xs & E1 & E2 & E3 & E4 & E5). exists ((x, ps) :: xs). split; [cbn; congruence|]. split; [intros y py [[= <- <-]|Hy]; eauto|]. split; [|split].
      + cbn [fold_left fst snd]. rewrite <- add_field_props. exact E3.
      + rewrite E4, add_field_required, <- app_assoc. cbn [filter fst snd]. destruct (listed x ps); reflexivity.
      + intros A f G1 G2. rewrite (E5 A f G1 G2). now apply add_field_other.
  Qed.
  Local Notation put := (fun (m : list (string * schema F)) (xp : sfield F * schema F) => oset (prop_name (fst xp)) (field_attrs (sf_tag (fst xp)) (snd xp)) m).
  Lemma fold_sorted xs : forall m, sorted m -> sorted (fold_left put xs m).
  Proof. induction xs as [|x xs IH]; intros m H; [exact H|]. cbn [fold_left]. apply IH, sorted_oset, H. Qed.
  Lemma fold_keep xs k : forall m, ~ In k (map (fun xp => prop_name (fst xp)) xs) -> oget k (fold_left put xs m) = oget k m.
  Proof. induction xs as [|x xs IH]; intros m N; [reflexivity|]. cbn [fold_left]. rewrite IH by (intro H; apply N; now right). apply oget_oset_other. intros ->. apply N. now left. Qed.
  Lemma fold_last xs1 x ps xs2 m : ~ In (prop_name x) (map (fun xp => prop_name (fst xp)) xs2) -> oget (prop_name x) (fold_left put (xs1 ++ (x, ps) :: xs2) m) = Some (field_attrs (sf_tag x) ps).
  Proof. intro N. rewrite fold_left_app. cbn [fold_left fst snd]. rewrite fold_keep by exact N. apply oget_oset_same. Qed.
  Lemma fold_in xs k p : forall m, In (k, p) (fold_left put xs m) -> In (k, p) m \/ exists x ps, In (x, ps) xs /\ k = prop_name x /\ p = field_attrs (sf_tag x) ps.
  Proof.
    induction xs as [|[x ps] xs IH]; intros m H; [now left|]. cbn [fold_left fst snd] in H. apply IH in H as [H|(y & py & Hy & E)]; [|right; exists y, py; split; [now right | exact E]].
    apply in_oset in H as [[= -> ->]|H]; [right; exists x, ps; split; [now left | auto] | now left].
  Qed.
  Lemma fold_has xs x ps : In (x, ps) xs -> forall m, exists p, oget (prop_name x) (fold_left put xs m) = Some p.
  Proof.
    intros H m. destruct (oget (prop_name x) (fold_left put xs m)) as [p|] eqn:E; [eauto|]. exfalso. revert m E. induction xs as [|[y py] xs IH]; [destruct H|]. intros m E. cbn [fold_left fst snd] in E. destruct H as [[= -> ->]|H]; [|eapply IH; eauto].
    assert (G : forall m', oget (prop_name x) m' <> None -> oget (prop_name x) (fold_left put xs m') <> None).
    { clear. induction xs as [|[y py] xs IH]; intros m' N; [exact N|]. cbn [fold_left fst snd]. apply IH. rewrite oget_oset. destruct (String.eqb _ _); [discriminate | exact N]. }
    apply (G _) in E; [exact E|]. rewrite oget_oset_same. discriminate.
  Qed.
  Lemma attrs_noref (tg : tag F) ps : s_ref (field_attrs tg ps) = s_ref ps.
  Proof. unfold field_attrs. destruct (s_ref ps) eqn:E; [exact E|]. unfold if_some. destruct (t_nullable tg); cbn; exact E. Qed.
  Lemma attrs_values (tg : tag F) ps : s_ref ps = None ->
    s_format (field_attrs tg ps) = t_format tg /\ s_deprecated (field_attrs tg ps) = t_deprecated tg /\ s_readonly (field_attrs tg ps) = t_readonly tg /\ s_writeonly (field_attrs tg ps) = t_writeonly tg /\
    s_nullable (field_attrs tg ps) = match t_nullable tg with Some b => b | None => s_nullable ps end.
  Proof. intro E. unfold field_attrs. rewrite E. unfold if_some. destruct (t_nullable tg); cbn; auto. Qed.
End Struct.

Definition bounded {F} (ty fmt : string) (m0 : option F) (tg : tag F) : schema F :=
  {| s_ref := None; s_type := ty; s_format := fmt; s_nullable := false; s_deprecated := false; s_readonly := false; s_writeonly := false;
     s_min := or_else (t_emin tg) (or_else (t_min tg) m0); s_max := or_else (t_emax tg) (t_max tg);
     s_emin := is_set (t_emin tg); s_emax := is_set (t_emax tg); s_mulof := t_mulof tg; s_minlen := None; s_maxlen := None; s_pattern := "";
     s_minitems := None; s_maxitems := None; s_unique := false; s_minprops := None; s_maxprops := None; s_required := []; s_props := []; s_items := None; s_addl := None; s_oneof := [] |}.
Lemma number_bounded {F} ty fmt (m0 : option F) tg : number_bounds tg (with_min m0 (typed ty fmt)) = bounded ty fmt m0 tg.
Proof. unfold number_bounds, if_some, bounded, typed. destruct (t_min tg), (t_max tg), (t_emin tg), (t_emax tg), (t_mulof tg); reflexivity. Qed.
Lemma number_bounded0 {F} ty fmt (tg : tag F) : number_bounds tg (typed ty fmt) = bounded ty fmt None tg.
Proof. rewrite <- number_bounded. reflexivity. Qed.
Lemma basic_documented {F} (zero : F) k tg s : basic2schema zero k tg = Ok s <-> exists ty fmt u, In (k, (ty, fmt, u)) kind_table /\ s = kind_schema zero ty fmt u tg.
Proof.
  assert (E : forall b ty fmt u, basic_base zero k = Some b -> In (k, (ty, fmt, u)) kind_table -> basic2schema zero k tg = Ok (kind_schema zero ty fmt u tg)).
  { intros b ty fmt u Hb Hin. cbn in Hin. repeat (destruct Hin as [Hin|Hin]; [injection Hin as <- <- <- <-; cbn [basic2schema basic_base]; unfold basic2schema; cbn [basic_base];
      first [ match goal with |- _ = Ok (kind_schema _ ?ty ?fm ?uu _) => first [exact (f_equal Ok (number_bounded ty fm (Some zero) tg)) | exact (f_equal Ok (number_bounded0 ty fm tg))] end
            | unfold string_bounds, kind_schema, if_some; cbn; destruct (t_minlen tg), (t_maxlen tg); reflexivity ]|]). destruct Hin. }
  split.
  - intro H. assert (K : exists ty fmt u, In (k, (ty, fmt, u)) kind_table).
    { assert (In k supported_kinds) as Hk by (apply (basic_ok zero k tg); eauto). cbn in Hk. unfold kind_table. repeat (destruct Hk as [<- |Hk]; [do 3 eexists; cbn; repeat (first [left; reflexivity | right])|]). destruct Hk. }
    destruct K as (ty & fmt & u & Hin). exists ty, fmt, u. split; [exact Hin|]. unfold basic2schema in H. destruct (basic_base zero k) as [b|] eqn:Eb; [|discriminate]. pose proof (E b ty fmt u eq_refl Hin) as G.
    unfold basic2schema in G. rewrite Eb in G. congruence.
  - intros (ty & fmt & u & Hin & ->). destruct (basic_base zero k) as [b|] eqn:Eb; [now apply (E b)|]. exfalso. cbn in Hin. repeat (destruct Hin as [Hin|Hin]; [injection Hin as <- <- <- <-; discriminate|]). destruct Hin.
Qed.
Lemma basic_string_documented {F} (zero : F) t tg s : basic_string2schema zero t tg = Ok s <->
  (exists ty fmt u, In (trim is_sp t, (ty, fmt, u)) name_table /\ s = kind_schema zero ty fmt u tg) \/ (exists ty, In ty ["number"; "object"] /\ trim is_sp t = ty /\ s = bare_schema ty).
Proof.
  assert (D : forall k ty fmt u, In (k, (ty, fmt, u)) kind_table -> basic2schema zero k tg = Ok (kind_schema zero ty fmt u tg)).
  { intros k ty fmt u Hin. apply basic_documented. eauto 6. }
  assert (DF : forall f, bind (basic2schema zero KString tg) (fun s : schema F => Ok (with_format f s)) = Ok (kind_schema zero "string" f false tg)).
  { intro f. rewrite (D KString "string" "" false) by (cbn; tauto). reflexivity. }
  assert (A : forall y ty fmt u, In (y, (ty, fmt, u)) name_table -> trim is_sp t = y -> basic_string2schema zero t tg = Ok (kind_schema zero ty fmt u tg)).
  { intros y ty fmt u Hin E. unfold basic_string2schema. rewrite E. cbn in Hin.
    repeat (destruct Hin as [Hin|Hin]; [injection Hin as <- <- <- <-; cbn [String.eqb Ascii.eqb Bool.eqb orb]; first [apply DF | apply D; cbn; tauto]|]). destruct Hin. }
  assert (B : forall y, In y ["number"; "object"] -> trim is_sp t = y -> basic_string2schema zero t tg = Ok (bare_schema y)).
  { intros y Hy E. unfold basic_string2schema. rewrite E. destruct Hy as [<- |[<- |[]]]; reflexivity. }
  split.
  - intro H. assert (Hk : In (trim is_sp t) known_types) by (apply (basic_string_ok zero t tg); eauto). remember (trim is_sp t) as y eqn:Ey. symmetry in Ey.
    assert (C : (exists ty fmt u, In (y, (ty, fmt, u)) name_table) \/ In y ["number"; "object"]).
    { clear -Hk. cbn in Hk. repeat (destruct Hk as [<- |Hk]; [first [right; cbn; tauto | left; do 3 eexists; cbn; repeat (first [left; reflexivity | right])]|]). destruct Hk. }
    destruct C as [(ty & fmt & u & Hin)|Hin].
    + left. exists ty, fmt, u. split; [exact Hin|]. pose proof (A y ty fmt u Hin eq_refl). congruence.
    + right. exists y. split; [exact Hin|]. split; [reflexivity|]. pose proof (B y Hin eq_refl). congruence.
  - intros [(ty & fmt & u & Hin & ->)|(ty & Hin & E & ->)]; [eapply A; eauto | now apply B].
Qed.
Lemma attrs_overlaid {F} (tg : tag F) a : overlaid tg a (field_attrs tg a).
Proof.
  unfold overlaid, field_attrs. destruct a as [r a1 a2 a3 a4 a5 a6 a7 a8 a9 a10 a11 a12 a13 a14 a15 a16 a17 a18 a19 a20 a21 a22 a23 a24]. cbn [s_ref]. destruct r; [left; split; [discriminate | reflexivity]|]. right. split; [reflexivity|].
  unfold if_some. destruct (t_nullable tg); reflexivity.
Qed.
Lemma overlaid_fun {F} (tg : tag F) a p : overlaid tg a p -> p = field_attrs tg a.
Proof. intros [[N ->]|[E ->]]; destruct (attrs_overlaid tg a) as [[N' E']|[E' ->]]; congruence. Qed.

Section Convert.
  Context {F : Type} (pf : string -> option F) (zero : F) (env : genv) (std : string -> option (schema F)) (pk : nat -> list ptr -> ptr).
  Local Notation conv := (type2schema pf zero env std pk).
  Definition source (fuel2 : nat) (m : pmap) (fs : list (finfo * gty)) (x : sfield F) (a : schema F) : Prop :=
    (t_type (sf_tag x) <> "" /\ basic_string2schema zero (t_type (sf_tag x)) (sf_tag x) = Ok a) \/
    (t_type (sf_tag x) = "" /\ exists fuel k, conv fuel fuel2 k m [TStruct fs] (under env (sf_type x)) (sf_tag x) = Ok a).
  Theorem struct_schema fuel fuel2 n m t tg fs s : under env t = TStruct fs -> conv fuel fuel2 n m [] t tg = Ok s ->
    exists xs : list (sfield F * schema F), in_place pf env [TStruct fs] fs (map fst xs) /\ (forall x, In x (map fst xs) <-> visible pf env fs x) /\
      (forall x a, In (x, a) xs -> source fuel2 m fs x a) /\
      s_props s = fold_left (fun m xp => oset (prop_name (fst xp)) (field_attrs (sf_tag (fst xp)) (snd xp)) m) xs [] /\
      s_required s = map (fun xp => prop_name (fst xp)) (filter (fun xp => listed (fst xp) (snd xp)) xs) /\
      (forall A (f : schema F -> A), (forall v s, f (with_props v s) = f s) -> (forall v s, f (with_required v s) = f s) -> f s = f (bare_schema "object")).
  Proof.
    intros E H. destruct fuel as [|fuel]; [discriminate|]. rewrite (conv_struct pf zero env std pk _ _ _ _ _ _ fs E) in H. apply bind_ok in H as (l & El & H).
    apply struct_fields_spec in H as (xs & <- & E2 & E3 & E4 & E5). exists xs. destruct (collect_fields_place pf env _ _ _ _ El) as [[[] _]|[_ Hp]]. split; [exact Hp|]. split; [apply (collect_fields_visible pf env _ _ _ El)|]. split; [|auto].
    intros x a Hx. destruct (E2 x a Hx) as [k Ek]. unfold field_conv in Ek. unfold source. destruct (String.eqb_spec (t_type (sf_tag x)) "") as [Et|Nt]; cbn [negb] in Ek; [|now left].
    right. split; [exact Et|]. destruct (under env (sf_type x)) eqn:Eu; try (exists fuel, k; exact Ek). exists 1, k. rewrite (conv_struct_in pf zero env std pk _ _ _ _ _ _ _ fs0); [exact Ek | discriminate | reflexivity].
  Qed.
  Theorem pointer_form (tg : tag F) (a : schema F) : s_ref a = None -> pointer_schema tg a = with_nullable (tagged (t_nullable tg) true) a.
  Proof. intro E. unfold pointer_schema, if_some, tagged. destruct (t_nullable tg); cbn; rewrite E; reflexivity. Qed.
End Convert.
