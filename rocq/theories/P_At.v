(** Property C84: what resolution leaves at each reference and in each component. *)
From Coq Require Import String Ascii List Bool Arith ZArith Lia Permutation.
From Verif Require Import GoStr GoStrFacts Json JsonFacts Gabs Container MergeFacts Url Pointer Resolver
  Spec_Loc Spec_Resolve LocFacts CloneFacts ResolverFacts ResolverTerm ResolverFrame ResolverLocal ResolverExpand ResolverExpandX ResolverAt P_Resolver.
Import ListNotations.
Local Open Scope string_scope.
Local Open Scope nat_scope.
Local Open Scope list_scope.

(** The section and name of the first export of a pointer, pointers being
    compared by their text. *)
Definition exported_as (es : list export) (p : ptr) : option (string * string) :=
  match find (fun e => String.eqb (ptr_string (e_ptr e)) (ptr_string p)) es with
  | Some e => Some (kind_key (e_kind e), e_name e)
  | None => None
  end.

Lemma lonely_apart doc q t p : lonely doc -> ext_ref doc q t p -> forall q0 t0 p0, ext_ref doc q0 t0 p0 -> q0 = q \/ Spec_Loc.apart q0 q.
Proof.
  intros Hl He q0 t0 p0 He0. destruct (loc_cases q0 q) as [[u ->]|[(s & v & ->)|X]]; [| |auto].
  - left. pose proof (proj1 He) as L. rewrite <- app_assoc in L. rewrite (Hl q0 u t0 p0 t He0 L). now rewrite app_nil_r.
  - left. pose proof (proj1 He0) as L. rewrite <- app_assoc in L. pose proof (Hl q (s :: v) t p t0 He L). discriminate.
Qed.

(** A reference to a pointer that is not exported is replaced by the expansion
    of its entity. *)
Theorem C84_reference_becomes_expansion : forall ord es fn fuel doc r, (forall pos l, Permutation (ord pos l) l) ->
  (forall p x, fn p = Ok x -> tidy x /\ lonely x) -> tidy doc -> lonely doc ->
  Forall (fun e => good_name (e_name e)) es -> resolve ord es fn fuel (Some doc) = Ok (Some r) ->
  forall q t p, ext_ref doc q t p -> (forall e, In e es -> Spec_Loc.apart (comp_loc (kind_key (e_kind e)) (e_name e)) q) ->
  exported_as es p = None ->
  exists x y n v, fn p = Ok x /\ clone x = Ok y /\ expandx n (exported_as es) fn clone [p] y = Ok v /\ lookup q r = Some v.
Proof.
  intros ord es fn fuel doc r Ho Hf Ht Hl Hg H q t p He Hc Hn.
  assert (Hq : q <> []) by (intros ->; exact (proj2 (proj2 Ht) t p He)).
  destruct (resolve_at ord es fn fuel doc (Some r) q t p Ho (proj1 Ht) (proj1 (proj2 Ht)) Hg H He Hq (lonely_apart doc q t p Hl He) Hc) as (doc' & x & y & _ & Hx & Hy & M).
  unfold exported_as in Hn. unfold exports_get in M. destruct (find _ es); [discriminate|]. destruct M as (v & Lv & _ & _ & M).
  destruct (M Hf (conj Ht Hl)) as (_ & n & Hn'). exists x, y, n, v. auto.
Qed.
Print Assumptions C84_reference_becomes_expansion.

(** A reference to an exported pointer becomes a reference to its component;
    what stands beside it is kept. *)
Theorem C84_reference_becomes_local : forall ord es fn fuel doc r, (forall pos l, Permutation (ord pos l) l) ->
  tidy doc -> lonely doc -> Forall (fun e => good_name (e_name e)) es -> resolve ord es fn fuel (Some doc) = Ok (Some r) ->
  forall q t p section name, ext_ref doc q t p -> (forall e, In e es -> Spec_Loc.apart (comp_loc (kind_key (e_kind e)) (e_name e)) q) ->
  exported_as es p = Some (section, name) ->
  exists doc' m, clone doc = Ok doc' /\ lookup q doc' = Some (JObj m) /\
    lookup q r = Some (JObj (oset "$ref" (JStr (local_text section name)) m)).
Proof.
  intros ord es fn fuel doc r Ho Ht Hl Hg H q t p section name He Hc Hn.
  assert (Hq : q <> []) by (intros ->; exact (proj2 (proj2 Ht) t p He)).
  destruct (resolve_at ord es fn fuel doc (Some r) q t p Ho (proj1 Ht) (proj1 (proj2 Ht)) Hg H He Hq (lonely_apart doc q t p Hl He) Hc) as (doc' & x & y & Hd & Hx & Hy & M).
  unfold exported_as in Hn. unfold exports_get in M. destruct (find _ es) as [e|]; [|discriminate]. injection Hn as <- <-. destruct M as (m & M1 & M2). exists doc', m. auto.
Qed.
Print Assumptions C84_reference_becomes_local.

(** The component of an exported pointer that the document refers to holds an
    expansion of an entity exported under that name, met along some chain of
    references from the document. *)
Theorem C84_component_holds_expansion : forall ord es fn fuel doc r, (forall pos l, Permutation (ord pos l) l) ->
  (forall p x, fn p = Ok x -> tidy x /\ lonely x) -> tidy doc -> lonely doc ->
  Forall (fun e => good_name (e_name e)) es -> resolve ord es fn fuel (Some doc) = Ok (Some r) ->
  forall q t p section name, ext_ref doc q t p -> exported_as es p = Some (section, name) ->
  (forall q0 t0 p0, ext_ref doc q0 t0 p0 -> Spec_Loc.apart q0 (comp_loc section name)) ->
  exists pp p' x' y' n v, exported_as es p' = Some (section, name) /\ chain doc fn (pp ++ [p']) x' /\ fn p' = Ok x' /\ clone x' = Ok y' /\
    expandx n (exported_as es) fn clone (pp ++ [p']) y' = Ok v /\ lookup (comp_loc section name) r = Some v.
Proof.
  intros ord es fn fuel doc r Ho Hf Ht Hl Hg H q t p section name He Hn Hap.
  assert (Ee : exists e, exports_get es p = Some e /\ kind_key (e_kind e) = section /\ e_name e = name).
  { unfold exported_as in Hn. unfold exports_get. destruct (find _ es) as [e|]; [|discriminate]. injection Hn as <- <-. eauto. }
  destruct Ee as (e & Ee & <- & <-).
  destruct (resolve_component ord es fn fuel doc (Some r) q t p e Ho (proj1 Ht) (proj1 (proj2 Ht)) Hg H He Ee Hap) as (pp & p' & e' & x' & y' & v & A1 & A2 & A3 & A4 & (_ & _ & A5) & A6).
  destruct (A5 Hf (conj Ht Hl)) as (A7 & n & A8). exists pp, p', x', y', n, v. split; [|auto 10].
  unfold exported_as. unfold exports_get in A1. rewrite A1. unfold comp_loc in A2. injection A2 as -> ->. reflexivity.
Qed.
Print Assumptions C84_component_holds_expansion.

(** Whatever references the entities hold and however they nest: what an entity
    has apart from its own external references is found where it was referred to,
    and in the component if it is exported. *)
Theorem C84_entity_values_at_reference : forall ord es fn fuel doc r, (forall pos l, Permutation (ord pos l) l) ->
  tidy doc -> Forall (fun e => good_name (e_name e)) es -> resolve ord es fn fuel (Some doc) = Ok (Some r) ->
  forall q t p, ext_ref doc q t p -> (forall q0 t0 p0, ext_ref doc q0 t0 p0 -> q0 = q \/ Spec_Loc.apart q0 q) ->
  (forall e, In e es -> Spec_Loc.apart (comp_loc (kind_key (e_kind e)) (e_name e)) q) -> exported_as es p = None ->
  exists x y, fn p = Ok x /\ clone x = Ok y /\
    (tidy x -> forall q', (forall q1 t1 p1, ext_ref x q1 t1 p1 -> Spec_Loc.apart q1 q') -> lookup (q ++ q') r = lookup q' y).
Proof.
  intros ord es fn fuel doc r Ho Ht Hg H q t p He Ha Hc Hn.
  assert (Hq : q <> []) by (intros ->; exact (proj2 (proj2 Ht) t p He)).
  destruct (resolve_at ord es fn fuel doc (Some r) q t p Ho (proj1 Ht) (proj1 (proj2 Ht)) Hg H He Hq Ha Hc) as (doc' & x & y & _ & Hx & Hy & M).
  unfold exported_as in Hn. unfold exports_get in M. destruct (find _ es); [discriminate|]. destruct M as (v & Lv & _ & M & _). exists x, y. split; [exact Hx|]. split; [exact Hy|].
  intros Tx q' A. rewrite lookup_app. cbn [c_data] in Lv. rewrite Lv. exact (M (proj1 Tx) (proj1 (proj2 Tx)) q' A).
Qed.
Theorem C84_entity_values_in_component : forall ord es fn fuel doc r, (forall pos l, Permutation (ord pos l) l) ->
  tidy doc -> Forall (fun e => good_name (e_name e)) es -> resolve ord es fn fuel (Some doc) = Ok (Some r) ->
  forall q t p section name, ext_ref doc q t p -> exported_as es p = Some (section, name) ->
  (forall q0 t0 p0, ext_ref doc q0 t0 p0 -> Spec_Loc.apart q0 (comp_loc section name)) ->
  exists p' x' y', exported_as es p' = Some (section, name) /\ fn p' = Ok x' /\ clone x' = Ok y' /\
    (tidy x' -> forall q', (forall q1 t1 p1, ext_ref x' q1 t1 p1 -> Spec_Loc.apart q1 q') -> lookup (comp_loc section name ++ q') r = lookup q' y').
Proof.
  intros ord es fn fuel doc r Ho Ht Hg H q t p section name He Hn Hap.
  assert (Ee : exists e, exports_get es p = Some e /\ kind_key (e_kind e) = section /\ e_name e = name).
  { unfold exported_as in Hn. unfold exports_get. destruct (find _ es) as [e|]; [|discriminate]. injection Hn as <- <-. eauto. }
  destruct Ee as (e & Ee & <- & <-).
  destruct (resolve_component ord es fn fuel doc (Some r) q t p e Ho (proj1 Ht) (proj1 (proj2 Ht)) Hg H He Ee Hap) as (pp & p' & e' & x' & y' & v & A1 & A2 & A3 & A4 & (_ & A5 & _) & A6).
  exists p', x', y'. split; [|split; [exact A3|]; split; [exact A4|]].
  - unfold exported_as. unfold exports_get in A1. rewrite A1. unfold comp_loc in A2. injection A2 as -> ->. reflexivity.
  - intros Tx q' A. rewrite lookup_app. cbn [c_data] in A6. rewrite A6. exact (A5 (proj1 Tx) (proj1 (proj2 Tx)) q' A).
Qed.
Print Assumptions C84_entity_values_at_reference.
Print Assumptions C84_entity_values_in_component.

(** When all the references inside that entity are to exported schemas, the
    component is the entity with its references made local. *)
Lemma fillx_flat f g j : wf j -> (forall q m t p, lookup q j = Some (JObj m) -> oget "$ref" m = Some (JStr t) -> ptr_parse t = Ok p -> is_external p = true -> forall w, f m p = Ok w -> g m p = Ok w) ->
  forall r, fillx f j = Ok r -> fillx g j = Ok r.
Proof.
  induction j as [| | | |l IH|m IH] using json_induction; intros Hw Hfg r H; try exact H.
  - rewrite fillx_arr in *. apply bind_ok in H as (l' & H & E). injection E as <-. apply fillx_list_ok in H.
    assert (fillx_list g l = Ok l') as ->; [|reflexivity]. apply fillx_list_ok.
    assert (G : forall x, In x l -> forall y, fillx f x = Ok y -> fillx g x = Ok y).
    { intros x Hx. apply In_nth_error in Hx as [i Hi]. rewrite Forall_forall in IH. apply IH; [eapply nth_error_In, Hi | eapply wf_nth; eassumption|].
      intros q m t p L. apply (Hfg (SIdx i :: q)). cbn [lookup]. now rewrite Hi. }
    clear -G H. induction H as [|x y l l' E _ IHl]; constructor; [apply G; [now left | exact E] | apply IHl; intros z Hz; apply G; now right].
  - rewrite fillx_obj in *. apply bind_ok in H as (o & Ho & H). rewrite Ho. cbn [bind]. destruct o as [p|].
    + pose proof (target_spec _ _ Ho) as (t & L & Hp & Hx). cbn [app lookup] in L. apply (Hfg [] m t p); auto. destruct (oget "$ref" m); [|discriminate]. congruence.
    + apply bind_ok in H as (m' & H & E). injection E as <-. apply fillx_map_ok in H.
      assert (fillx_map g m = Ok m') as ->; [|reflexivity]. apply fillx_map_ok.
      assert (G : forall kx, In kx m -> forall y, fillx f (snd kx) = Ok y -> fillx g (snd kx) = Ok y).
      { intros [k x] Hx. pose proof (sorted_in_oget _ _ _ (wf_sorted _ Hw) Hx) as E. rewrite Forall_forall in IH. apply (IH (k, x) Hx); [exact (wf_oget _ _ _ Hw E)|].
        intros q m0 t p L. apply (Hfg (SKey k :: q)). cbn [lookup]. now rewrite E. }
      clear -G H. induction H as [|x y l l' [E1 E2] _ IHl]; constructor; [split; [exact E1 | apply G; [now left | exact E2]] | apply IHl; intros z Hz; apply G; now right].
Qed.
Theorem C84_component_with_exported_references : forall ord es fn fuel doc r, (forall pos l, Permutation (ord pos l) l) ->
  (forall p x, fn p = Ok x -> tidy x /\ lonely x) -> tidy doc -> lonely doc ->
  Forall (fun e => good_name (e_name e)) es -> resolve ord es fn fuel (Some doc) = Ok (Some r) ->
  forall q t p section name x y, ext_ref doc q t p -> exported_as es p = Some (section, name) ->
  (forall p', exported_as es p' = Some (section, name) -> fn p' = fn p) ->
  (forall q0 t0 p0, ext_ref doc q0 t0 p0 -> Spec_Loc.apart q0 (comp_loc section name)) ->
  fn p = Ok x -> clone x = Ok y ->
  (forall q1 t1 p1, ext_ref x q1 t1 p1 -> exists n1, exported_as es p1 = Some ("schemas", n1)) ->
  exists v, lookup (comp_loc section name) r = Some v /\
    fillx (fun m p1 => match exported_as es p1 with
                       | Some (s1, n1) => Ok (JObj (oset "$ref" (JStr (local_text s1 n1)) m))
                       | None => Err
                       end) y = Ok v.
Proof.
  intros ord es fn fuel doc r Ho Hf Ht Hl Hg H q t p section name x y He Hn Hu Hap Hx Hy Hin.
  destruct (C84_component_holds_expansion ord es fn fuel doc r Ho Hf Ht Hl Hg H q t p section name He Hn Hap) as (pp & p' & x' & y' & n & v & A1 & _ & A3 & A4 & A5 & A6).
  exists v. split; [exact A6|]. rewrite (Hu p' A1), Hx in A3. injection A3 as <-. assert (y' = y) as -> by congruence.
  destruct n as [|n]; [discriminate|]. cbn [expandx] in A5. refine (fillx_flat _ _ y _ _ v A5); [exact (clone_wf _ _ (proj1 (proj1 (Hf _ _ Hx))) Hy)|].
  intros q1 m t1 p1 L O P E w Hw. destruct (Hin q1 t1 p1) as (n1 & E1).
  { apply (clone_ext _ _ _ _ _ Hy). split; [|auto]. rewrite lookup_app, L. cbn [lookup]. now rewrite O. }
  rewrite E1 in *. destruct (existsb _ _) in Hw; [exact Hw|]. apply bind_ok in Hw as (x2 & _ & Hw). apply bind_ok in Hw as (y2 & _ & Hw). apply bind_ok in Hw as (z & _ & Hw). exact Hw.
Qed.
Print Assumptions C84_component_with_exported_references.

(** The order of map iteration can change exported components only. *)
Theorem C84_order_affects_components_only : forall ord1 ord2 es fn fuel1 fuel2 doc r1 r2,
  (forall pos l, Permutation (ord1 pos l) l) -> (forall pos l, Permutation (ord2 pos l) l) ->
  (forall p x, fn p = Ok x -> tidy x /\ lonely x) -> tidy doc -> lonely doc ->
  Forall (fun e => good_name (e_name e)) es ->
  resolve ord1 es fn fuel1 (Some doc) = Ok (Some r1) -> resolve ord2 es fn fuel2 (Some doc) = Ok (Some r2) ->
  forall q, (forall e, In e es -> Spec_Loc.apart (comp_loc (kind_key (e_kind e)) (e_name e)) q) ->
  (forall q0 t p, ext_ref doc q0 t p -> Spec_Loc.apart q0 q \/
     (above q0 q /\ forall e, In e es -> Spec_Loc.apart (comp_loc (kind_key (e_kind e)) (e_name e)) q0)) ->
  lookup q r1 = lookup q r2.
Proof.
  intros ord1 ord2 es fn fuel1 fuel2 doc r1 r2 O1 O2 Hf Ht Hl Hg H1 H2 q Hq Hr.
  assert (D : (forall q0 t p, ext_ref doc q0 t p -> Spec_Loc.apart q0 q) \/ exists q0 t p, ext_ref doc q0 t p /\ above q0 q).
  { assert (D' : forall n, (forall q0 t p, length q0 <= n -> above q0 q -> ~ ext_ref doc q0 t p) \/ exists q0 t p, ext_ref doc q0 t p /\ above q0 q).
    { induction n as [|n [IH|IH]]; [|  |now right].
      - left. intros [|s q0] t p L _ He; cbn in L; [exact (proj2 (proj2 Ht) t p He) | lia].
      - destruct (Nat.le_gt_cases (S n) (length q)) as [L|L].
        + destruct (ext_at doc (firstn (S n) q)) eqn:Ex.
          * apply ext_at_spec in Ex as (t & p & Ex). right. exists (firstn (S n) q), t, p. split; [exact Ex|]. exists (skipn (S n) q). symmetry. apply firstn_skipn.
          * left. intros q0 t p L0 [u E] He. destruct (Nat.eq_dec (length q0) (S n)) as [E1|]; [|apply (IH q0 t p); [lia | now exists u | exact He]].
            assert (ext_at doc (firstn (S n) q) = true); [|congruence]. apply ext_at_spec. exists t, p. rewrite E, <- E1, firstn_app, Nat.sub_diag, firstn_O, app_nil_r, firstn_all. exact He.
        + left. intros q0 t p L0 [u E] He. apply (IH q0 t p); [|now exists u | exact He]. apply (f_equal (@length _)) in E. rewrite app_length in E. lia. }
    destruct (D' (length q)) as [D0|D0]; [|now right]. left. intros q0 t p He. destruct (Hr q0 t p He) as [A|[A _]]; [exact A|]. exfalso. apply (D0 q0 t p); auto. destruct A as [u ->]. rewrite app_length. lia. }
  destruct D as [D|(q0 & t & p & He & [u ->])].
  - destruct (resolve_frame ord1 es fn fuel1 doc (Some r1) O1 (proj1 Ht) (proj1 (proj2 Ht)) Hg H1) as (d1 & C1 & F1).
    destruct (resolve_frame ord2 es fn fuel2 doc (Some r2) O2 (proj1 Ht) (proj1 (proj2 Ht)) Hg H2) as (d2 & C2 & F2).
    assert (d1 = d2) as <- by congruence. cbn [c_data] in *. rewrite (F1 q D Hq), (F2 q D Hq). reflexivity.
  - assert (Hq0 : q0 <> []) by (intros ->; exact (proj2 (proj2 Ht) t p He)).
    assert (Hc : forall e, In e es -> Spec_Loc.apart (comp_loc (kind_key (e_kind e)) (e_name e)) q0).
    { destruct (Hr q0 t p He) as [[A _]|[_ A]]; [|exact A]. exfalso. apply A. now exists u. }
    destruct (resolve_at ord1 es fn fuel1 doc (Some r1) q0 t p O1 (proj1 Ht) (proj1 (proj2 Ht)) Hg H1 He Hq0 (lonely_apart doc q0 t p Hl He) Hc) as (d1 & x1 & y1 & D1 & X1 & Y1 & M1).
    destruct (resolve_at ord2 es fn fuel2 doc (Some r2) q0 t p O2 (proj1 Ht) (proj1 (proj2 Ht)) Hg H2 He Hq0 (lonely_apart doc q0 t p Hl He) Hc) as (d2 & x2 & y2 & D2 & X2 & Y2 & M2).
    assert (x1 = x2) as <- by congruence. assert (y1 = y2) as <- by congruence. assert (d1 = d2) as <- by congruence. cbn [c_data] in *.
    destruct (exports_get es p) as [e|].
    + destruct M1 as (m1 & L1 & M1), M2 as (m2 & L2 & M2). rewrite !lookup_app, M1, M2. congruence.
    + destruct M1 as (v1 & L1 & _ & _ & M1), M2 as (v2 & L2 & _ & _ & M2). destruct (M1 Hf (conj Ht Hl)) as (_ & n1 & E1). destruct (M2 Hf (conj Ht Hl)) as (_ & n2 & E2).
      pose proof (expandx_mono es fn n1 _ _ _ E1 (n1 + n2) ltac:(lia)) as F1. pose proof (expandx_mono es fn n2 _ _ _ E2 (n1 + n2) ltac:(lia)) as F2.
      assert (v1 = v2) as <- by congruence. now rewrite !lookup_app, L1, L2.
Qed.
Print Assumptions C84_order_affects_components_only.

(** ** Example: A {b: B}, B {a: A}, the document refers to both; A is exported. *)
Lemma lonely_leaf j : (forall q v, lookup (q ++ [SKey "$ref"]) j = Some v -> False) -> lonely j.
Proof. intros H q q' t p t' (L & _) _. destruct (H q _ L). Qed.
Lemma lonely_arr l : Forall lonely l -> lonely (JArr l).
Proof.
  intros H q q' t p t' (L & E) L'. destruct q as [|[k|i] q]; try discriminate L. cbn [app lookup] in L, L'. destruct (nth_error l i) as [x|] eqn:N; [|discriminate].
  rewrite Forall_forall in H. apply (H x (nth_error_In _ _ N) q q' t p t'); [split; auto | exact L'].
Qed.
Lemma lonely_obj m : oget "$ref" m = None -> Forall (fun kv => lonely (snd kv)) m -> lonely (JObj m).
Proof.
  intros Hr H q q' t p t' (L & E) L'. destruct q as [|[k|i] q]; try discriminate L; cbn [app lookup] in L, L'; [now rewrite Hr in L|]. destruct (oget k m) as [x|] eqn:N; [|discriminate].
  rewrite Forall_forall in H. apply (H (k, x) (oget_in _ _ _ N) q q' t p t'); [split; auto | exact L'].
Qed.
Lemma lonely_ref t0 : lonely (rf t0).
Proof.
  intros q q' t p t' (L & _) L'. destruct q as [|[k|i] q]; try discriminate L.
  - destruct q' as [|[k|i] q']; [reflexivity | | discriminate L']. cbn [app lookup rf oget] in L'. destruct (String.eqb k "$ref"); [|discriminate]. destruct q' as [|[|] q']; discriminate.
  - cbn [app lookup rf oget] in L. destruct (String.eqb k "$ref"); [|discriminate]. destruct q as [|[|] q]; discriminate.
Qed.
Lemma lonely_str s : lonely (JStr s).
Proof. apply lonely_leaf. intros [|[|] q] v; discriminate. Qed.
Lemma ex_doc_lonely : lonely ex_doc.
Proof. apply lonely_obj; [reflexivity|]. repeat constructor; cbn [snd]; auto using lonely_ref, lonely_str. apply lonely_arr. repeat constructor. apply lonely_ref. Qed.
Lemma ex_refs q t p : ext_ref ex_doc q t p -> q = [SKey "x"] /\ t = "go://p#/A" \/ q = [SKey "y"; SIdx 0] /\ t = "go://p#/B".
Proof.
  intros (L & Hp & Hx). destruct q as [|[k|i] q]; try discriminate L. cbn [app lookup ex_doc oget] in L.
  destruct (String.eqb k "l") eqn:E1.
  { apply String.eqb_eq in E1. subst. destruct q as [|[k'|i'] q]; cbn in L; try discriminate.
    - injection L as <-. vm_compute in Hp. injection Hp as <-. discriminate Hx.
    - destruct (String.eqb k' "$ref"); [|discriminate]. destruct q as [|[|] q]; discriminate. }
  destruct (String.eqb k "title"); [destruct q as [|[|] q]; discriminate|].
  destruct (String.eqb k "x") eqn:E2.
  { apply String.eqb_eq in E2. subst. destruct q as [|[k'|i'] q]; cbn in L; try discriminate.
    - injection L as <-. auto.
    - destruct (String.eqb k' "$ref"); [|discriminate]. destruct q as [|[|] q]; discriminate. }
  destruct (String.eqb k "y") eqn:E3; [|discriminate]. apply String.eqb_eq in E3. subst.
  destruct q as [|[k'|i'] q]; cbn [app lookup] in L; try discriminate. destruct i' as [|i']; [|destruct i'; discriminate L]. cbn [nth_error] in L.
  destruct q as [|[k'|i'] q]; cbn in L; try discriminate; [injection L as <-; auto|]. destruct (String.eqb k' "$ref"); [|discriminate]. destruct q as [|[|] q]; discriminate.
Qed.
Definition ex_B_out : json := JObj [("properties", JObj [("a", rf "#/components/schemas/A")])].
Example C84_ex :
  (forall p x, ex_fn p = Ok x -> tidy x /\ lonely x) /\ tidy ex_doc /\ lonely ex_doc /\ Forall (fun e => good_name (e_name e)) ex_es /\
  exported_as ex_es (ex_ptr "go://p#/A") = Some ("schemas", "A") /\ exported_as ex_es (ex_ptr "go://p#/B") = None /\
  (forall e q t p, In e ex_es -> ext_ref ex_doc q t p -> Spec_Loc.apart (comp_loc (kind_key (e_kind e)) (e_name e)) q /\ Spec_Loc.apart q (comp_loc "schemas" "A")) /\
  expandx 4 (exported_as ex_es) ex_fn clone [ex_ptr "go://p#/B"] ex_B = Ok ex_B_out /\
  exists r, resolve rev_ord ex_es ex_fn 5 (Some ex_doc) = Ok (Some r) /\
    lookup [SKey "x"] r = Some (rf "#/components/schemas/A") /\ lookup [SKey "y"; SIdx 0] r = Some ex_B_out.
Proof.
  split. { intros p x H. destruct (ex_fn_cases p x H) as [-> | ->]; split; auto using ex_A_tidy, ex_B_tidy, lonely_A, lonely_B. }
  split; [exact ex_doc_tidy|]. split; [exact ex_doc_lonely|]. split; [repeat constructor; discriminate|]. split; [reflexivity|]. split; [reflexivity|].
  split. { intros e q t p [<-|[]] He. destruct (ex_refs q t p He) as [[-> _]|[-> _]]; split; split; intros [u E]; discriminate E. }
  split; [vm_compute; reflexivity|]. eexists. split; [vm_compute; reflexivity|]. split; reflexivity.
Qed.
(** Exporting B as well makes the component of A independent of the order. *)
Definition ex_es2 : list export := ex_es ++ [{| e_kind := KSchema; e_name := "B"; e_ptr := ex_ptr "go://p#/B" |}].
Example C84_flat_ex :
  (forall q1 t1 p1, ext_ref ex_A q1 t1 p1 -> exists n1, exported_as ex_es2 p1 = Some ("schemas", n1)) /\
  (forall p', exported_as ex_es2 p' = Some ("schemas", "A") -> ex_fn p' = ex_fn (ex_ptr "go://p#/A")) /\
  exists r, resolve id_ord ex_es2 ex_fn 5 (Some ex_doc) = Ok (Some r) /\
    lookup (comp_loc "schemas" "A") r = Some (JObj [("properties", JObj [("b", rf "#/components/schemas/B")])]).
Proof.
  split.
  { intros q1 t1 p1 (L & Hp & Hx). destruct q1 as [|[k|i] q]; try discriminate. cbn [app lookup ex_A oget] in L. destruct (String.eqb k "properties"); [|discriminate].
    destruct q as [|[k'|i'] q]; try discriminate. cbn [app lookup oget] in L. destruct (String.eqb k' "b"); [|discriminate].
    destruct q as [|[k2|i2] q]; try discriminate; cbn in L; [|destruct (String.eqb k2 "$ref"); [destruct q as [|[|] q]; discriminate | discriminate]].
    injection L as <-. exists "B". vm_compute in Hp. injection Hp as <-. reflexivity. }
  split.
  { intros p'. unfold exported_as, ex_es2, ex_es, ex_fn. cbn [find app e_ptr e_kind e_name].
    destruct (String.eqb_spec (ptr_string (ex_ptr "go://p#/A")) (ptr_string p')) as [E|_]; [now rewrite <- E|]. destruct (String.eqb _ _); intros [=]. }
  eexists. split; vm_compute; reflexivity.
Qed.
