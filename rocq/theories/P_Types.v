(** Properties C47-C57: collecting Go types, and their schemas. *)
From Coq Require Import String Ascii List Bool Arith ZArith Permutation Lia.
From Verif Require Import GoStr GoStrFacts Json JsonFacts MergeFacts Url Pointer Spec_Ptr PtrFacts Tag Spec_Tag TagFacts Types Spec_Types TypesFacts WalkFacts CollectFacts CollectApi DenoteFacts SimpleChain Spec_Schema FieldFacts FieldOutcome SchemaFacts SchemaOutcome SchemaRefs SchemaShape.
Import ListNotations.
Local Open Scope string_scope.
Local Open Scope nat_scope.
Local Open Scope list_scope.

(** What the scanner is given: well-formed declarations and objects. *)
Definition scan_input (env : genv) (os : list gobj) : Prop :=
  env_ok env /\ flat_env env /\ Forall obj_ok os /\ Forall (fun d => fields_distinct (d_under d)) env /\ Forall (fun o => fields_distinct (o_type o)) os /\ names_unique env os.

(** ** C47 *)
(** There is a finite list of the types below any type, however recursive the
    declarations, and a recursion depth beyond its length is never needed:
    collecting ends, with a result unless a type of the universe is met. *)
Theorem C47_terminates : forall env o m pk, env_ok env -> obj_ok o -> o_pkg o = Some pk ->
  exists L, closed_types env (o_type o) L /\ forall fuel, length L < fuel ->
    collect_types env fuel o m <> OutOfFuel /\ (~ reaches_universe env (o_type o) -> exists m', collect_types env fuel o m = Ok m').
Proof.
  intros env o m pk He Ho Ep. destruct (closed_exists env (o_type o)) as [L HL]. exists L. split; [exact HL|]. intros fuel Hf. destruct (collect_outcome env He fuel o m pk L Ho Ep HL Hf) as [A B]. split; [|exact B].
  intro E. destruct B as [m' B]; [|congruence]. intro X. apply A in X. congruence.
Qed.
Print Assumptions C47_terminates.
(** The same for a whole package scan, for every order of the pointers. *)
Theorem C47_scan_terminates : forall env L fuel pkg scope ptrs m, env_ok env ->
  (forall o, In o (objects_of pkg scope ptrs) -> obj_ok o /\ o_pkg o <> None /\ closed_types env (o_type o) L) -> length L < fuel ->
  (scan_types env fuel pkg scope ptrs m = Panic <-> exists o, In o (objects_of pkg scope ptrs) /\ reaches_universe env (o_type o)) /\
  ((forall o, In o (objects_of pkg scope ptrs) -> ~ reaches_universe env (o_type o)) -> exists m', scan_types env fuel pkg scope ptrs m = Ok m').
Proof.
  intros env L fuel pkg scope ptrs m He Ho Hf. rewrite scan_collects. set (os := objects_of pkg scope ptrs) in *.
  assert (H1 : Forall obj_ok os) by (rewrite Forall_forall; intros o Hi; now apply Ho). assert (H2 : Forall (fun o => o_pkg o <> None) os) by (rewrite Forall_forall; intros o Hi; now apply Ho).
  assert (H3 : Forall (fun o => closed_types env (o_type o) L) os) by (rewrite Forall_forall; intros o Hi; now apply Ho). destruct (collect_all_outcome env He fuel os L H1 H2 H3 Hf m) as [A B]. rewrite A, Exists_exists.
  split; [reflexivity|]. intro N. apply B. rewrite Exists_exists. intros (o & Hi & X). now apply (N o).
Qed.
Print Assumptions C47_scan_terminates.

(** ** C48 *)
(** Exactly the locations reached without leaving a type twice are registered:
    named from the object, and from every declared type met on the way. *)
Theorem C48_registered : forall env fuel o m m' pk, env_ok env -> obj_ok o -> o_pkg o = Some pk -> collect_types env fuel o m = Ok m' ->
  forall T txt, registered m' T txt <-> registered m T txt \/ location_of env pk (o_name o) (o_type o) T txt.
Proof. intros env fuel o m m' pk He. exact (collect_exact env He fuel o m m' pk). Qed.
Print Assumptions C48_registered.
(** So every type that can be reached at all is registered under some pointer. *)
Theorem C48_reachable : forall env fuel os m, env_ok env -> Forall obj_ok os -> collect_all env fuel os [] = Ok m ->
  forall o t', In o os -> reachable env (o_type o) t' -> exists txt, registered m (under env t') txt.
Proof.
  intros env fuel os m He Ho H o t' Hin Hr. pose proof (proj1 (collect_all_reg env He fuel os m Ho H) o t' Hin Hr) as N. destruct (pm_at m (under env t')) as [|p l] eqn:E; [congruence|]. exists (ptr_string p), p. rewrite E. split; [now left | reflexivity].
Qed.
Print Assumptions C48_reachable.
(** Scanning a package collects the objects its pointers start at. *)
Theorem C48_scan : forall env fuel pkg scope ptrs m, scan_types env fuel pkg scope ptrs m = collect_all env fuel (objects_of pkg scope ptrs) m.
Proof. intros. apply scan_collects. Qed.
Print Assumptions C48_scan.

(** ** C49 *)
(** A registered pointer leads, from the declaration it names, to its type. *)
Theorem C49_denotes : forall env fuel os m, scan_input env os -> collect_all env fuel os [] = Ok m -> forall T txt, registered m T txt ->
  exists pk name t toks ts t', root env os pk name t /\ trail env t toks ts t' /\ txt = loc_text pk (name :: toks) /\ T = under env t'.
Proof.
  intros env fuel os m (He & _ & Ho & Hd & Hod & Hu) H T txt R. destruct (registered_denotes env He os Ho fuel m H T txt R) as (pk & n & t & toks & ts & t' & A & B & _ & C & D). exists pk, n, t, toks, ts, t'. auto.
Qed.
Print Assumptions C49_denotes.
(** It leads nowhere else: the type found for a pointer is unique and does not
    depend on the iteration order of the map. *)
Theorem C49_unique : forall env fuel os m, scan_input env os -> collect_all env fuel os [] = Ok m ->
  (forall T pk name t toks ts t', root env os pk name t -> trail env t toks ts t' -> registered m T (loc_text pk (name :: toks)) -> T = under env t') /\
  (forall ord p T, Permutation (ord m) m -> registered m T (ptr_string p) -> pm_find ord m p = Some T) /\
  (forall ord p, Permutation (ord m) m -> (pm_find ord m p = None <-> forall T, ~ registered m T (ptr_string p))).
Proof.
  intros env fuel os m (He & _ & Ho & Hd & Hod & Hu) H. split; [exact (registered_unique env He Hd os Ho Hod Hu fuel m H)|]. split; [exact (find_unique env He Hd os Ho Hod Hu fuel m H)|].
  intros ord p Hp. apply pm_find_none; [exact Hp|]. apply (collect_all_good env He fuel os [] m Ho pm_good_nil H).
Qed.
Print Assumptions C49_unique.

Section Schemas.
Context (F : Type) (pf : string -> option F) (zero : F) (env : genv) (std : string -> option (schema F)) (pk : nat -> list ptr -> ptr).
(** [resolve]: Scanner.Resolve; [convert tp]: type2schema below the types [tp]. *)
Local Notation resolve := (scanner_resolve pf zero env std pk).
Local Notation convert := (type2schema pf zero env std pk).

(** ** C50 *)
(** The conversion terminates: a depth beyond the number of types below t is not needed. *)
Theorem C50_terminates : forall L fuel fuel2 n m t tg, flat_env env -> closed_types env t L -> length L < fuel -> length L < fuel2 ->
  convert fuel fuel2 n m [] t tg <> OutOfFuel.
Proof.
  intros L fuel fuel2 n m t tg Hf [HL Hc] H1 H2 E. assert (N : @OutOfFuel unit <> Err) by discriminate. destruct (conv_fails pf zero env std pk Hf L (@OutOfFuel unit) Hc N fuel fuel2 n m t tg HL H1 H2) as (fs & fs' & i & t1 & A & B & C & D).
  - rewrite E. exact I.
  - pose proof (parse_modelled pf (f_tag i)) as P. destruct (tag_parse pf (f_tag i)); try contradiction; congruence.
Qed.
(** Every reference in the result is registered, under a type reachable from the
    one converted, with a shortest fragment; so it can be looked up again. *)
Theorem C50_references : forall fuel0 os m fuel fuel2 n t tg s p, scan_input env os -> picks_shortest pk -> collect_all env fuel0 os [] = Ok m ->
  convert fuel fuel2 n m [] t tg = Ok s -> has_ref p s ->
  (exists t', reachable env t t' /\ registered m (under env t') (ptr_string p) /\ (forall q, In q (pm_at m (under env t')) -> length (p_frag p) <= length (p_frag q)) /\
     forall ord, Permutation (ord m) m -> pm_find ord m p = Some (under env t')) \/
  (exists txt o, std txt = Some o /\ has_ref p o).
Proof.
  intros fuel0 os m fuel fuel2 n t tg s p (He & Hf & Ho & Hd & Hod & Hu) Hpk H Hc Hr. destruct (conv_refs pf zero env std pk Hf Hpk m p fuel fuel2 n t tg s Hc Hr) as [(t' & R & Hin & Hs)|X]; [left | now right].
  assert (Rg : registered m (under env t') (ptr_string p)) by (exists p; auto). exists t'. split; [exact R|]. split; [exact Rg|]. split; [exact Hs|]. intros ord Hord. exact (find_unique env He Hd os Ho Hod Hu fuel0 m H ord p _ Hord Rg).
Qed.
(** Resolving a registered pointer: it succeeds exactly when the type has a
    schema; a missing registration is never the reason for failing. *)
Theorem C50_resolve_struct : forall fuel0 os m fuel fuel2 ord p fs L, scan_input env os -> collect_all env fuel0 os [] = Ok m -> Permutation (ord m) m ->
  registered m (TStruct fs) (ptr_string p) -> closed_types env (TStruct fs) L -> length L < fuel -> length L < fuel2 ->
  (exists s, resolve fuel fuel2 ord m p = Ok s) <-> tags_fine pf env fs /\ (forall x, visible pf env fs x -> field_ok env x).
Proof.
  intros fuel0 os m fuel fuel2 ord p fs L (He & Hf & Ho & Hd & Hod & Hu) H Hord Rg [HL Hc] H1 H2. unfold scanner_resolve. rewrite (find_unique env He Hd os Ho Hod Hu fuel0 m H ord p _ Hord Rg).
  apply (conv_struct_ok pf zero env std pk Hf L m Hc fuel fuel2 0 (TStruct fs) tag_zero fs eq_refl HL H1 H2). destruct (collect_all_reg env He fuel0 os m Ho H) as [_ G]. destruct (G _ _ Rg) as (t' & E & A). rewrite E. now apply all_reg_under.
Qed.
Theorem C50_resolve_other : forall fuel0 os m fuel fuel2 ord p T L, scan_input env os -> collect_all env fuel0 os [] = Ok m -> Permutation (ord m) m ->
  registered m T (ptr_string p) -> (forall fs, T <> TStruct fs) -> closed_types env T L -> length L < fuel ->
  (exists s, resolve fuel fuel2 ord m p = Ok s) <-> elems_ok env T.
Proof.
  intros fuel0 os m fuel fuel2 ord p T L (He & Hf & Ho & Hd & Hod & Hu) H Hord Rg NT [HL Hc] H1. unfold scanner_resolve. rewrite (find_unique env He Hd os Ho Hod Hu fuel0 m H ord p _ Hord Rg).
  destruct (collect_all_reg env He fuel0 os m Ho H) as [_ G]. destruct (G _ _ Rg) as (t' & E & A). assert (U : under env T = T) by (rewrite E; now apply under_flat).
  apply (conv_flat_ok pf zero env std pk Hf L m Hc fuel fuel2 0 T tag_zero HL H1); [now rewrite U|]. rewrite E. now apply all_reg_under.
Qed.

(** ** C51 *)
(** The schema of a basic kind. *)
Theorem C51_basic : forall fuel fuel2 n m tp t tg k s, under env t = TBasic k -> ~ In (TBasic k) tp ->
  convert (S fuel) fuel2 n m tp t tg = Ok s <-> exists ty fmt u, In (k, (ty, fmt, u)) kind_table /\ s = kind_schema zero ty fmt u tg.
Proof. intros fuel fuel2 n m tp t tg k s E N. rewrite (conv_basic pf zero env std pk fuel fuel2 n m tp t tg k); [apply basic_documented | now rewrite E | exact E]. Qed.
(** Every other kind is rejected with an error. *)
Theorem C51_rejected : forall fuel fuel2 n m tp t tg k, under env t = TBasic k -> ~ In (TBasic k) tp ->
  In k [KInvalid; KUintptr; KComplex64; KComplex128; KUnsafePointer; KUntyped] -> convert (S fuel) fuel2 n m tp t tg = Err.
Proof.
  intros fuel fuel2 n m tp t tg k E N H. rewrite (conv_basic pf zero env std pk fuel fuel2 n m tp t tg k); [|now rewrite E | exact E]. cbn in H. repeat (destruct H as [<- |H]; [reflexivity|]). destruct H.
Qed.
(** A type named in a tag. *)
Theorem C51_named : forall t tg s, basic_string2schema zero t tg = Ok s <->
  (exists ty fmt u, In (trim is_sp t, (ty, fmt, u)) name_table /\ s = kind_schema zero ty fmt u tg) \/ (exists ty, In ty ["number"; "object"] /\ trim is_sp t = ty /\ s = bare_schema ty).
Proof. exact (basic_string_documented zero). Qed.

(** ** C52 *)
(** The properties of a struct are named by its visible fields, no more, no less. *)
Theorem C52_names : forall fuel fuel2 n m t tg fs s, under env t = TStruct fs -> convert fuel fuel2 n m [] t tg = Ok s ->
  s_type s = "object" /\ s_ref s = None /\ s_nullable s = false /\ s_items s = None /\ s_addl s = None /\ s_oneof s = [] /\ NoDup (map fst (s_props s)) /\
  forall k, In k (map fst (s_props s)) <-> exists x, visible pf env fs x /\ prop_name x = k.
Proof.
  intros fuel fuel2 n m t tg fs s E H. destruct (struct_schema pf zero env std pk _ _ _ _ _ _ _ _ E H) as (xs & _ & V & _ & Ep & _ & Q). do 6 (split; [now rewrite Q|]).
  rewrite Ep. split; [apply sorted_nodup, fold_sorted, I|]. intro k. rewrite in_map_iff. split.
  - intros ([k' p] & <- & Hin). apply fold_in in Hin as [[]|(x & ps & Hx & -> & _)]. exists x. split; [|reflexivity]. apply V. apply in_map_iff. exists (x, ps). auto.
  - intros (x & Hx & <-). apply V in Hx. apply in_map_iff in Hx as ([x' ps] & Ex & Hx). cbn in Ex. subst x'. destruct (fold_has xs x ps Hx []) as [p Hp]. exists (prop_name x, p). split; [reflexivity | now apply oget_in].
Qed.
(** Their order, and what the property of a field is: the schema of its type (or
    of the type its tag names) overlaid with the tag's attributes; among fields of
    one name the last one counts. *)
Theorem C52_fields : forall fuel fuel2 n m t tg fs s, under env t = TStruct fs -> convert fuel fuel2 n m [] t tg = Ok s ->
  exists l, in_place pf env [TStruct fs] fs l /\ (forall x, In x l <-> visible pf env fs x) /\
    forall l1 x l2, l = l1 ++ x :: l2 -> ~ In (prop_name x) (map prop_name l2) ->
      exists a p, oget (prop_name x) (s_props s) = Some p /\ overlaid (sf_tag x) a p /\
        ((t_type (sf_tag x) <> "" /\ basic_string2schema zero (t_type (sf_tag x)) (sf_tag x) = Ok a) \/
         (t_type (sf_tag x) = "" /\ exists fuel' k, convert fuel' fuel2 k m [TStruct fs] (under env (sf_type x)) (sf_tag x) = Ok a)).
Proof.
  intros fuel fuel2 n m t tg fs s E H. destruct (struct_schema pf zero env std pk _ _ _ _ _ _ _ _ E H) as (xs & Hp & V & Hs & Ep & _ & _). exists (map fst xs). split; [exact Hp|]. split; [exact V|].
  intros l1 x l2 El N. apply map_eq_app in El as (xs1 & xs2 & -> & <- & E2). destruct xs2 as [|[x' a] xs2]; [discriminate|]. cbn in E2. injection E2 as -> <-.
  exists a, (field_attrs (sf_tag x) a). split; [|split; [apply attrs_overlaid | apply Hs, in_app_iff; right; now left]]. rewrite Ep. apply fold_last. now rewrite <- map_map.
Qed.
(** A struct field refers to a registered pointer of its type, unless overridden. *)
Theorem C52_struct_field : forall fuel fuel2 k m tp t tg fs s, tp <> [] -> under env t = TStruct fs -> picks_shortest pk -> convert fuel fuel2 k m tp t tg = Ok s ->
  exists p, In p (pm_at m (TStruct fs)) /\ ((std (ptr_string p) = None /\ s = {| s_ref := Some p; s_type := ""; s_format := ""; s_nullable := false; s_deprecated := false; s_readonly := false; s_writeonly := false;
     s_min := None; s_max := None; s_emin := false; s_emax := false; s_mulof := None; s_minlen := None; s_maxlen := None; s_pattern := "";
     s_minitems := None; s_maxitems := None; s_unique := false; s_minprops := None; s_maxprops := None; s_required := []; s_props := []; s_items := None; s_addl := None; s_oneof := [] |}) \/ std (ptr_string p) = Some s).
Proof.
  intros fuel fuel2 k m tp t tg fs s N E Hpk H. destruct fuel as [|fuel]; [discriminate|]. rewrite (conv_struct_in pf zero env std pk fuel fuel2 k m tp t tg fs N E), E in H.
  destruct (reference_cases std pk k m (TStruct fs)) as [[_ E0]|[Ne E0]]; rewrite E0 in H; [discriminate|]. injection H as <-. exists (pk k (pm_at m (TStruct fs))). split; [now apply Hpk|]. destruct (std _); [now right | left; auto].
Qed.

(** ** C53 *)
(** A property that is not a reference has the attributes of its field's tag, also
    the format: whatever format the type has is gone. *)
Theorem C53_attributes : forall fuel fuel2 n m t tg fs s, under env t = TStruct fs -> convert fuel fuel2 n m [] t tg = Ok s ->
  forall k p, In (k, p) (s_props s) -> s_ref p = None ->
    exists x, visible pf env fs x /\ prop_name x = k /\ s_format p = t_format (sf_tag x) /\ s_deprecated p = t_deprecated (sf_tag x) /\ s_readonly p = t_readonly (sf_tag x) /\
      s_writeonly p = t_writeonly (sf_tag x) /\ (forall b, t_nullable (sf_tag x) = Some b -> s_nullable p = b).
Proof.
  intros fuel fuel2 n m t tg fs s E H k p Hin Hr. destruct (struct_schema pf zero env std pk _ _ _ _ _ _ _ _ E H) as (xs & _ & V & _ & Ep & _ & _). rewrite Ep in Hin. apply fold_in in Hin as [[]|(x & a & Hx & -> & ->)].
  exists x. split; [apply V, in_map_iff; exists (x, a); auto|]. split; [reflexivity|]. rewrite attrs_noref in Hr. destruct (attrs_values (sf_tag x) a Hr) as (A & B & C & D & G). do 4 (split; [assumption|]). intros b Eb. now rewrite G, Eb.
Qed.

(** ** C54 *)
(** With distinct names, required lists, in field order, the required fields whose
    property is not a reference. *)
Theorem C54_required : forall fuel fuel2 n m t tg fs s, under env t = TStruct fs -> convert fuel fuel2 n m [] t tg = Ok s ->
  exists l, in_place pf env [TStruct fs] fs l /\ (forall x, In x l <-> visible pf env fs x) /\
    (NoDup (map prop_name l) ->
     s_required s = map prop_name (filter (fun x => t_required (sf_tag x) && match oget (prop_name x) (s_props s) with Some p => match s_ref p with Some _ => false | None => true end | None => false end) l)).
Proof.
  intros fuel fuel2 n m t tg fs s E H. destruct (struct_schema pf zero env std pk _ _ _ _ _ _ _ _ E H) as (xs & Hp & V & _ & Ep & Er & _). exists (map fst xs). split; [exact Hp|]. split; [exact V|]. intro N. rewrite Er, <- map_map. f_equal.
  assert (G : forall x a, In (x, a) xs -> listed x a = (t_required (sf_tag x) && match oget (prop_name x) (s_props s) with Some p => match s_ref p with Some _ => false | None => true end | None => false end)).
  { intros x a Hx. apply in_split in Hx as (xs1 & xs2 & Ex). rewrite Ep, Ex, fold_last.
    - rewrite attrs_noref. unfold listed. destruct (s_ref a); reflexivity.
    - rewrite <- map_map. rewrite Ex, !map_app in N. cbn in N. apply NoDup_remove_2 in N. intro Hin. apply N, in_app_iff. now right. }
  revert G. generalize (s_props s). clear. intros ps G. induction xs as [|[x a] xs IH]; [reflexivity|]. cbn [map filter fst snd]. rewrite <- (G x a (or_introl eq_refl)). destruct (listed x a); cbn [map fst]; rewrite IH; auto; intros y b Hy; apply G; now right.
Qed.
(** Whatever the names: only required fields are listed, and never one that is a reference. *)
Theorem C54_only_required : forall fuel fuel2 n m t tg fs s, under env t = TStruct fs -> convert fuel fuel2 n m [] t tg = Ok s -> picks_shortest pk -> (forall txt, std txt = None) ->
  forall k, In k (s_required s) -> exists x, visible pf env fs x /\ prop_name x = k /\ t_required (sf_tag x) = true /\ (t_type (sf_tag x) <> "" \/ forall fs', under env (sf_type x) <> TStruct fs').
Proof.
  intros fuel fuel2 n m t tg fs s E H Hpk Hstd k Hin. destruct (struct_schema pf zero env std pk _ _ _ _ _ _ _ _ E H) as (xs & _ & V & Hs & _ & Er & _). rewrite Er in Hin. apply in_map_iff in Hin as ([x a] & <- & Hx). apply filter_In in Hx as [Hx Hl]. cbn [fst snd] in *.
  apply andb_true_iff in Hl as [Hq Ha]. exists x. split; [apply V, in_map_iff; exists (x, a); auto|]. split; [reflexivity|]. split; [exact Hq|]. destruct (Hs x a Hx) as [[Ht _]|[_ (fuel' & k' & Hc)]]; [now left|].
  right. intros fs' Ef. assert (Nn : [TStruct fs] <> []) by discriminate. assert (Eu : under env (under env (sf_type x)) = TStruct fs') by (rewrite Ef; reflexivity). rewrite Ef in Hc. destruct (C52_struct_field fuel' fuel2 k' m [TStruct fs] (TStruct fs') (sf_tag x) fs' a Nn eq_refl Hpk Hc) as (p & _ & [[_ ->]|X]); [discriminate|]. rewrite Hstd in X. discriminate.
Qed.

(** ** C55 *)
(** Slices, maps and arrays. *)
Theorem C55_containers : forall fuel fuel2 n m tp t tg s, ~ In (under env t) tp -> convert (S fuel) fuel2 n m tp t tg = Ok s ->
  (forall e, under env t = TSlice e -> exists a, convert fuel fuel2 n m (tp ++ [under env t]) e tg = Ok a /\
     s = container "array" (tagged (t_nullable tg) true) (Some a) None (t_minitems tg) (t_maxitems tg) None None (t_uniqitems tg)) /\
  (forall k e, under env t = TMap k e -> exists a, convert fuel fuel2 n m (tp ++ [under env t]) e tg = Ok a /\
     s = container "object" (tagged (t_nullable tg) true) None (Some a) None None (t_minprops tg) (t_maxprops tg) false) /\
  (forall len e, under env t = TArray len e -> exists a, convert fuel fuel2 n m (tp ++ [under env t]) e tg = Ok a /\
     s = container "array" (tagged (t_nullable tg) false) (Some a) None (t_minitems tg) (if (0 <? len)%Z then Some len else t_maxitems tg) None None (t_uniqitems tg)).
Proof.
  intros fuel fuel2 n m tp t tg s V H.
  assert (G : forall e, elem_of (under env t) = Some e -> exists a, convert fuel fuel2 n m (tp ++ [under env t]) e tg = Ok a /\ s = wrap tg (under env t) a).
  { intros e Ee. rewrite (conv_elem pf zero env std pk _ _ _ _ _ _ _ e V Ee) in H. apply bind_ok in H as (a & Ha & [= <-]). eauto. }
  split; [|split].
  - intros e E. destruct (G e) as (a & Ha & ->); [now rewrite E|]. exists a. split; [exact Ha|]. rewrite E. cbn [wrap]. unfold slice_schema, if_some, tagged. destruct (t_nullable tg); reflexivity.
  - intros k e E. destruct (G e) as (a & Ha & ->); [now rewrite E|]. exists a. split; [exact Ha|]. rewrite E. cbn [wrap]. unfold map_schema, if_some, tagged. destruct (t_nullable tg); reflexivity.
  - intros len e E. destruct (G e) as (a & Ha & ->); [now rewrite E|]. exists a. split; [exact Ha|]. rewrite E. cbn [wrap]. unfold array_schema, if_some, tagged. rewrite Z.gtb_ltb. destruct (t_nullable tg), (0 <? len)%Z; reflexivity.
Qed.
(** Pointers: a nullable reference becomes a choice. *)
Theorem C55_pointers : forall fuel fuel2 n m tp t tg e s, ~ In (under env t) tp -> under env t = TPtr e -> convert (S fuel) fuel2 n m tp t tg = Ok s ->
  exists a, convert fuel fuel2 n m (tp ++ [under env t]) e tg = Ok a /\
    let nullable := tagged (t_nullable tg) true in
    ((s_ref a = None \/ nullable = false) -> s = with_nullable nullable a) /\
    (s_ref a <> None -> nullable = true ->
       s_ref s = None /\ s_type s = "" /\ s_nullable s = false /\ s_props s = [] /\ s_oneof s = [with_nullable false a; container "object" true None None None None None None false]).
Proof.
  intros fuel fuel2 n m tp t tg e s V E H. assert (Ee : elem_of (under env t) = Some e) by now rewrite E. rewrite (conv_elem pf zero env std pk _ _ _ _ _ _ _ e V Ee) in H. apply bind_ok in H as (a & Ha & [= <-]). exists a. split; [exact Ha|].
  rewrite E. cbn [wrap]. unfold pointer_schema, if_some, tagged. split.
  - intros [X|X].
    + destruct (t_nullable tg); cbn; rewrite X; reflexivity.
    + destruct (t_nullable tg) as [b|]; [|discriminate]. subst b. cbn. destruct (s_ref a); reflexivity.
  - intros X Y. destruct (s_ref a) as [r|] eqn:Er; [|congruence]. destruct (t_nullable tg) as [b|]; [subst b|]; cbn; rewrite Er; cbn; auto.
Qed.

(** ** C57 *)
(** Resolving a pointer that was not registered panics; a registered one makes it
    panic only through a blank struct tag. *)
Theorem C57_resolve : forall fuel0 os m fuel fuel2 ord p, scan_input env os -> collect_all env fuel0 os [] = Ok m -> Permutation (ord m) m ->
  ((forall T, ~ registered m T (ptr_string p)) -> resolve fuel fuel2 ord m p = Panic) /\
  (forall T L, registered m T (ptr_string p) -> closed_types env T L -> length L < fuel -> length L < fuel2 -> resolve fuel fuel2 ord m p = Panic ->
     exists fs fs' i t1, T = TStruct fs /\ looked_at pf env fs fs' /\ In (i, t1) fs' /\ f_tag i <> "" /\ blank (f_tag i) = true).
Proof.
  intros fuel0 os m fuel fuel2 ord p (He & Hf & Ho & Hd & Hod & Hu) H Hord. split.
  - intro N. unfold scanner_resolve. replace (pm_find ord m p) with (@None gty); [reflexivity|]. symmetry. apply pm_find_none; [exact Hord | | exact N]. apply (collect_all_good env He fuel0 os [] m Ho pm_good_nil H).
  - intros T L Rg [HL Hc] H1 H2 E. unfold scanner_resolve in E. rewrite (find_unique env He Hd os Ho Hod Hu fuel0 m H ord p _ Hord Rg) in E. assert (N : @Panic unit <> Err) by discriminate.
    destruct (conv_fails pf zero env std pk Hf L (@Panic unit) Hc N fuel fuel2 0 m T tag_zero HL H1 H2) as (fs & fs' & i & t1 & A & B & C & D); [rewrite E; exact I|].
    destruct (collect_all_reg env He fuel0 os m Ho H) as [_ G]. destruct (G _ _ Rg) as (t' & ET & _). assert (U : under env T = T) by (rewrite ET; now apply under_flat). rewrite U in A. exists fs, fs', i, t1.
    assert (P : tag_parse pf (f_tag i) = Panic) by (destruct (tag_parse pf (f_tag i)); try contradiction; reflexivity). apply panics_iff in P. tauto.
Qed.
End Schemas.
Print Assumptions C50_terminates.
Print Assumptions C50_references.
Print Assumptions C50_resolve_struct.
Print Assumptions C50_resolve_other.
Print Assumptions C51_basic.
Print Assumptions C51_rejected.
Print Assumptions C51_named.
Print Assumptions C52_names.
Print Assumptions C52_fields.
Print Assumptions C52_struct_field.
Print Assumptions C53_attributes.
Print Assumptions C54_required.
Print Assumptions C54_only_required.
Print Assumptions C55_containers.
Print Assumptions C55_pointers.
Print Assumptions C57_resolve.

(** Collecting an object whose type reaches a type of the universe (error) through
    an exported field panics, and nothing else does. *)
Theorem C57_collect : forall env fuel o m pk L, env_ok env -> obj_ok o -> o_pkg o = Some pk -> closed_types env (o_type o) L -> length L < fuel ->
  (collect_types env fuel o m = Panic <-> reaches_universe env (o_type o)).
Proof. intros env fuel o m pk L He Ho Ep HL Hf. apply (collect_outcome env He fuel o m pk L Ho Ep HL Hf). Qed.
Print Assumptions C57_collect.
Theorem C57_error_field : forall env fuel o m pk L i fs fi d, env_ok env -> obj_ok o -> o_pkg o = Some pk -> closed_types env (o_type o) L -> length L < fuel ->
  under env (o_type o) = TStruct fs -> In (fi, TNamed i) fs -> exported (f_name fi) = true -> nth_error env i = Some d -> d_pkg d = None -> collect_types env fuel o m = Panic.
Proof.
  intros env fuel o m pk L i fs fi d He Ho Ep HL Hf E Hin Hx Hi Hd. apply (C57_collect env fuel o m pk L He Ho Ep HL Hf). exists [f_name fi], [under env (o_type o)], (TNamed i). split; [discriminate|]. split; [|split; [repeat constructor; auto | exists i, d; auto]].
  apply (trail_cons env (o_type o) (f_name fi) (TNamed i) [] [] (TNamed i)); [eapply step_field; eauto | constructor].
Qed.
Print Assumptions C57_error_field.

(** ** C56 *)
Fixpoint shortest (p : ptr) (l : list ptr) : ptr := match l with [] => p | q :: r => if length (p_frag q) <? length (p_frag p) then shortest q r else shortest p r end.
Lemma shortest_spec l : forall p, (shortest p l = p \/ In (shortest p l) l) /\ length (p_frag (shortest p l)) <= length (p_frag p) /\ forall q, In q l -> length (p_frag (shortest p l)) <= length (p_frag q).
Proof.
  induction l as [|a l IH]; intro p; cbn [shortest]; [split; [now left|]; split; [lia | intros q []]|]. destruct (Nat.ltb_spec (length (p_frag a)) (length (p_frag p))) as [Lt|Ge].
  - destruct (IH a) as (A & B & C). split; [right; destruct A as [-> |A]; [now left | now right]|]. split; [lia|]. intros q [<- |Hq]; [exact B | now apply C].
  - destruct (IH p) as (A & B & C). split; [destruct A as [-> |A]; [now left | right; now right]|]. split; [exact B|]. intros q [<- |Hq]; [lia | now apply C].
Qed.
Definition prefer (txt : string) (n : nat) (l : list ptr) : ptr :=
  match find (fun p => String.eqb (ptr_string p) txt && forallb (fun q => length (p_frag p) <=? length (p_frag q)) l) l with
  | Some p => p
  | None => match l with p :: r => shortest p r | [] => ptr_zero end
  end.
Lemma prefer_picks txt : picks_shortest (prefer txt).
Proof.
  intros n l N. unfold prefer. destruct (find _ l) as [p|] eqn:E.
  - apply find_some in E as [Hin E]. apply andb_true_iff in E as [_ E]. rewrite forallb_forall in E. split; [exact Hin|]. intros q Hq. apply Nat.leb_le, E, Hq.
  - destruct l as [|p r]; [congruence|]. destruct (shortest_spec r p) as (A & B & C). split; [destruct A as [-> |A]; [now left | now right]|]. intros q [<- |Hq]; [exact B | now apply C].
Qed.
(** Two declarations with identical underlying structs cannot be told apart: a
    sort that puts the first one's pointer first is among those Go may use, and
    with it every field of the second type gets a reference to the first. *)
Theorem C56_conflated : forall (F : Type) (pf : string -> option F) zero env (std : string -> option (schema F)) fuel0 os m fs pkA nA tA pkB nB tB,
  scan_input env os -> collect_all env fuel0 os [] = Ok m ->
  declared env tA pkA nA -> declared env tB pkB nB -> under env tA = TStruct fs -> under env tB = TStruct fs ->
  registered m (TStruct fs) (loc_text pkA [nA]) -> registered m (TStruct fs) (loc_text pkB [nB]) -> std (loc_text pkA [nA]) = None ->
  exists pk, picks_shortest pk /\
    forall fuel fuel2 k tp tg, tp <> [] -> exists s p, type2schema pf zero env std pk (S fuel) fuel2 k m tp tB tg = Ok s /\ s_ref s = Some p /\ ptr_string p = loc_text pkA [nA].
Proof.
  intros F pf zero env std fuel0 os m fs pkA nA tA pkB nB tB (He & Hf & Ho & Hd & Hod & Hu) H DA DB EA EB RA RB Hstd. exists (prefer (loc_text pkA [nA])). split; [apply prefer_picks|].
  intros fuel fuel2 k tp tg N. rewrite (conv_struct_in pf zero env std _ fuel fuel2 k m tp tB tg fs N EB), EB. set (l := pm_at m (TStruct fs)).
  assert (P : exists p, prefer (loc_text pkA [nA]) k l = p /\ ptr_string p = loc_text pkA [nA]).
  { unfold prefer. destruct RA as (p & Hin & Ep). fold l in Hin. destruct (find _ l) as [q|] eqn:E; [apply find_some in E as [_ E]; apply andb_true_iff in E as [E _]; exists q; split; [reflexivity | now apply String.eqb_eq]|]. exfalso.
    pose proof (find_none _ _ E p Hin) as X. cbn beta in X. rewrite Ep, String.eqb_refl in X. cbn [andb] in X. apply not_true_iff_false in X. apply X. apply forallb_forall. intros q Hq. apply Nat.leb_le.
    destruct (collect_all_good env He fuel0 os [] m Ho pm_good_nil H) as [_ G]. destruct (G _ _ Hin) as (lp & Lp). destruct (G _ _ Hq) as (lq & Lq). rewrite (at_loc_text p lp Lp) in Ep.
    destruct (declared_ok env He tA pkA nA DA) as (I & J & _). destruct Lp as (I' & _ & Fp & _ & Tp). destruct Lq as (_ & _ & Fq & Nq & _).
    apply loc_text_inj in Ep as [_ Es]; [|assumption|assumption|assumption|constructor; [now apply ident_tok in J | constructor]]. rewrite Fp, Fq, Es. cbn. destruct (snd lq); [congruence | cbn; lia]. }
  destruct P as (p & Ep & Et). destruct RB as (pb & Hb & _). fold l in Hb. unfold reference2schema. fold l. destruct l as [|x l']; [destruct Hb|]. rewrite Ep, Et, Hstd. eexists _, p. split; [reflexivity|]. split; [reflexivity | exact Et].
Qed.
Print Assumptions C56_conflated.

(** ** Examples *)
Definition q1 : string := str1 (ascii_of_nat 34).
Definition fld (n t : string) (e : bool) (ty : gty) : finfo * gty := ({| f_name := n; f_tag := t; f_emb := e |}, ty).
(** type Node struct { Next *Node; Val int64 (required, named val); Base; A A; B B; err error };
    type Base struct { ID string }; type A struct { X int }; type B struct { X int } *)
Definition ex_env : genv :=
  [{| d_pkg := Some "ex.org/p"; d_name := "Node"; d_under := TStruct [fld "Next" "" false (TPtr (TNamed 0)); fld "Val" ("oapi:" +++ q1 +++ "val,required" +++ q1) false (TBasic KInt64); fld "Base" "" true (TNamed 1);
      fld "A" ("oapi:" +++ q1 +++ "A,required" +++ q1) false (TNamed 2); fld "B" "" false (TNamed 3); fld "L" "" false (TSlice (TNamed 3)); fld "err" "" false (TNamed 4)] |};
   {| d_pkg := Some "ex.org/p"; d_name := "Base"; d_under := TStruct [fld "ID" "" false (TBasic KString)] |};
   {| d_pkg := Some "ex.org/p"; d_name := "A"; d_under := TStruct [fld "X" "" false (TBasic KInt)] |};
   {| d_pkg := Some "ex.org/p"; d_name := "B"; d_under := TStruct [fld "X" "" false (TBasic KInt)] |};
   {| d_pkg := None; d_name := "error"; d_under := TOther 0 |}].
Definition ex_node : gobj := {| o_pkg := Some "ex.org/p"; o_name := "Node"; o_type := TNamed 0 |}.
Definition no_float (s : string) : option Z := None.
Definition no_std (s : string) : option (schema Z) := None.
Definition ex_map : pmap := match collect_all ex_env 20 [ex_node] [] with Ok m => m | _ => [] end.
Definition ex_ptr (toks : list string) : ptr := match new_go_pointer "ex.org/p" "Node" with Ok p => {| p_url := p_url p; p_frag := p_frag p ++ toks |} | _ => ptr_zero end.
Definition summary (s : schema Z) := (s_type s, map (fun x => (fst x, s_type (snd x), s_format (snd x), match s_ref (snd x) with Some p => ptr_string p | None => "" end, match s_items (snd x) with Some i => match s_ref i with Some p => ptr_string p | None => "" end | None => "" end)) (s_props s), s_required s).
Lemma ex_input : scan_input ex_env [ex_node].
Proof.
  split; [apply Forall_forall; intros d Hd; cbn in Hd; repeat (destruct Hd as [<- |Hd]; [split; [reflexivity|]; split; [reflexivity|]; intros pk E; first [discriminate | injection E as <-; split; [discriminate | reflexivity]]|]); destruct Hd|].
  split; [apply Forall_forall; intros d Hd i; cbn in Hd; repeat (destruct Hd as [<- |Hd]; [discriminate|]); destruct Hd|].
  split; [constructor; [|constructor]; split; [reflexivity|]; split; [reflexivity|]; intros pk [= <-]; split; [discriminate | reflexivity]|].
  split; [apply Forall_forall; intros d Hd; cbn in Hd; repeat (destruct Hd as [<- |Hd]; [cbn; repeat split; repeat constructor; cbn; intuition discriminate|]); destruct Hd|]. split; [repeat constructor|].
  intros pk name t1 t2 H1 H2.
  assert (G : forall t, root ex_env [ex_node] pk name t -> t = TNamed 0 /\ name = "Node" \/ t = TNamed 1 /\ name = "Base" \/ t = TNamed 2 /\ name = "A" \/ t = TNamed 3 /\ name = "B").
  { intros t [(i & d & -> & Ei & Ep & <-)|(o & [<- |[]] & _ & <- & <-)]; [|cbn; auto]. destruct i as [|[|[|[|[|i]]]]]; cbn in Ei; [| | | | |destruct i; discriminate]; injection Ei as <-; cbn; auto 6. discriminate. }
  destruct (G t1 H1) as [[-> E]|[[-> E]|[[-> E]|[-> E]]]]; destruct (G t2 H2) as [[-> E']|[[-> E']|[[-> E']|[-> E']]]]; congruence.
Qed.
(** The hypotheses of the theorems are met by a recursive example. *)
Example C47_example : scan_input ex_env [ex_node] /\ collect_all ex_env 20 [ex_node] [] = Ok ex_map /\ ~ reaches_universe ex_env (TNamed 0).
Proof.
  split; [apply ex_input|]. split; [vm_compute; reflexivity|]. intro X. destruct ex_input as (He & _ & Ho & _). inversion Ho as [|? ? Ho1 _]; subst. destruct (closed_exists ex_env (TNamed 0)) as [L HL].
  assert (E : exists m', collect_types ex_env 20 ex_node [] = Ok m') by (eexists; vm_compute; reflexivity). destruct E as [m' E].
  destruct (collect_start ex_env 20 ex_node [] "ex.org/p" Ho1 eq_refl) as (r & Hr & E'). rewrite E' in E. pose proof (walk_ok_no_bad ex_env He 20 [] r (TNamed 0) [] m' _ Hr eq_refl E) as N. apply N. exact X.
Qed.
Example C48_example : registered ex_map (d_under (nth 2 ex_env {| d_pkg := None; d_name := ""; d_under := TOther 0 |})) "go://ex.org/p#/Node/A" /\
  map (fun e => map ptr_string (snd e)) ex_map =
  [["go://ex.org/p#/Node"; "go://ex.org/p#/Node/Next/*"]; ["go://ex.org/p#/Node/Next"]; ["go://ex.org/p#/Node/Val"]; ["go://ex.org/p#/Node/Base"; "go://ex.org/p#/Base"]; ["go://ex.org/p#/Node/Base/ID"; "go://ex.org/p#/Base/ID"];
   ["go://ex.org/p#/Node/A"; "go://ex.org/p#/A"; "go://ex.org/p#/Node/B"; "go://ex.org/p#/B"; "go://ex.org/p#/Node/L/[]"];
   ["go://ex.org/p#/Node/A/X"; "go://ex.org/p#/A/X"; "go://ex.org/p#/Node/B/X"; "go://ex.org/p#/B/X"; "go://ex.org/p#/Node/L/[]/X"]; ["go://ex.org/p#/Node/L"]].
Proof. split; [|vm_compute; reflexivity]. unfold registered. vm_compute (pm_at ex_map _). eexists. split; [now left | vm_compute; reflexivity]. Qed.
(** The schema of Node: the fields of Base in place, no format for the int64, the
    required struct A not listed, and B given a reference to A. *)
Example C52_example : match scanner_resolve no_float 0%Z ex_env no_std (prefer "") 20 20 (fun m => m) ex_map (ex_ptr []) with Ok s => Some (summary s) | _ => None end =
  Some ("object", [("A", "", "", "go://ex.org/p#/A", ""); ("B", "", "", "go://ex.org/p#/A", ""); ("ID", "string", "", "", ""); ("L", "array", "", "", "go://ex.org/p#/A"); ("Next", "", "", "", ""); ("val", "integer", "", "", "")], ["val"]).
Proof. vm_compute. reflexivity. Qed.
Example C56_example : declared ex_env (TNamed 2) "ex.org/p" "A" /\ declared ex_env (TNamed 3) "ex.org/p" "B" /\ under ex_env (TNamed 2) = under ex_env (TNamed 3) /\ "A" <> "B" /\
  registered ex_map (under ex_env (TNamed 2)) (loc_text "ex.org/p" ["A"]) /\ registered ex_map (under ex_env (TNamed 2)) (loc_text "ex.org/p" ["B"]).
Proof.
  split; [eexists 2, _; cbn; auto|]. split; [eexists 3, _; cbn; auto|]. split; [reflexivity|]. split; [discriminate|].
  unfold registered. vm_compute (pm_at ex_map _). split; eexists; (split; [|]); [right; left; reflexivity | vm_compute; reflexivity | right; right; right; left; reflexivity | vm_compute; reflexivity].
Qed.
(** A location that leaves Node twice is not registered: resolving it panics.  An
    exported field of type error makes collecting panic. *)
Example C57_example : scanner_resolve no_float 0%Z ex_env no_std (prefer "") 20 20 (fun m => m) ex_map (ex_ptr ["Next"; "*"; "Next"]) = Panic /\
  collect_types ex_env 20 {| o_pkg := Some "ex.org/p"; o_name := "R"; o_type := TStruct [fld "Err" "" false (TNamed 4)] |} [] = Panic.
Proof. split; vm_compute; reflexivity. Qed.
(** Nullability. *)
Example C55_example : forall tg : tag Z, t_nullable tg = None ->
  type2schema no_float 0%Z [] no_std (prefer "") 5 5 0 [] [] (TPtr (TBasic KBool)) tg = Ok (with_nullable true (bare_schema "boolean")) /\
  type2schema no_float 0%Z [] no_std (prefer "") 5 5 0 [] [] (TArray 3 (TBasic KBool)) tg = Ok (container "array" false (Some (bare_schema "boolean")) None (t_minitems tg) (Some 3%Z) None None (t_uniqitems tg)).
Proof.
  intros tg E. split; cbn -[pointer_schema array_schema]; unfold pointer_schema, array_schema, if_some; rewrite E; reflexivity.
Qed.
