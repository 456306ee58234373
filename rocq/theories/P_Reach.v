(** C96, C97: which components resolution writes, and that the order of maps
    does not show in them. *)
From Coq Require Import String Ascii List Bool Arith ZArith Lia Permutation.
From Verif Require Import GoStr GoStrFacts Json JsonFacts Gabs Container MergeFacts Url Pointer Resolver
  Spec_Loc Spec_Resolve Spec_ResolveOk Spec_Reach LocFacts ResolverFacts ResolverFrame ResolverExpandX ResolverAt ResolverReach ResolverSame P_Resolver P_At P_Adds.
Import ListNotations.
Local Open Scope string_scope.
Local Open Scope nat_scope.
Local Open Scope list_scope.

(** ** C96 *)
(** Whatever is referred to, directly or through other entities, is found. *)
Theorem C96_asked_is_found : forall ord es fn fuel doc r, (forall pos l, Permutation (ord pos l) l) ->
  (forall p x, fn p = Ok x -> tidy x /\ lonely x) -> tidy doc -> lonely doc -> by_text fn -> resolve ord es fn fuel (Some doc) = Ok (Some r) ->
  forall p, asked doc fn p -> exists p' x, ptr_string p' = ptr_string p /\ fn p' = Ok x.
Proof. intros ord es fn fuel doc r Ho Hf Ht Hl Hb H p A. exact (resolve_found ord es fn fuel doc _ p Ho Hf (conj Ht Hl) Hb H A). Qed.
(** If it is exported, there is a component: the expansion of an entity exported
    under that name, met along some chain of references. *)
Theorem C96_reached_is_component : forall ord es fn fuel doc r, (forall pos l, Permutation (ord pos l) l) ->
  (forall p x, fn p = Ok x -> tidy x /\ lonely x) -> tidy doc -> lonely doc -> by_text fn ->
  Forall (fun e => good_name (e_name e)) es -> resolve ord es fn fuel (Some doc) = Ok (Some r) ->
  forall p section name, asked doc fn p -> exported_as es p = Some (section, name) ->
  (forall q0 t0 p0, ext_ref doc q0 t0 p0 -> Spec_Loc.apart q0 (comp_loc section name)) ->
  exists pp p' x' y' n v, exported_as es p' = Some (section, name) /\ chain doc fn (pp ++ [p']) x' /\ fn p' = Ok x' /\ clone x' = Ok y' /\
    expandx n (exported_as es) fn clone (pp ++ [p']) y' = Ok v /\ lookup (comp_loc section name) r = Some v.
Proof.
  intros ord es fn fuel doc r Ho Hf Ht Hl Hb Hg H p section name A Hn Hap. destruct (C96_asked_is_found ord es fn fuel doc r Ho Hf Ht Hl Hb H p A) as (p0 & x0 & E0 & F0).
  assert (C : exists pp p1 z, chain doc fn (pp ++ [p1]) z /\ ptr_string p1 = ptr_string p).
  { inversion A as [q t p1 E|p1 x q t p2 A1 F1 E]; subst.
    - destruct (C30_every_reference_looked_up ord es fn fuel doc (Some r) Ho (proj1 Ht) (proj1 (proj2 Ht)) H q t p E) as (x & F). exists [], p, x. split; [|reflexivity]. eapply chain_ref; [constructor | exact E | intros [] | exact F].
    - destruct (asked_chain doc fn p1 Hb A1 _ F1) as (pp & p2 & C & E2). destruct (in_dec string_dec (ptr_string p) (map ptr_string (pp ++ [p2]))) as [I|N].
      + apply in_map_iff in I as (p3 & E3 & I). apply in_split in I as (l1 & l2 & Es). rewrite Es in C. change (p3 :: l2) with ([p3] ++ l2) in C. rewrite app_assoc in C. apply chain_prefix in C as (x3 & C). exists l1, p3, x3. auto.
      + destruct (resolve_chain ord es fn fuel doc (Some r) Ho Hf (conj Ht Hl) H (pp ++ [p2]) x q t p C E N) as (x3 & F3). exists (pp ++ [p2]), p, x3. split; [|reflexivity]. eapply chain_ref; [exact C | exact E | exact N | exact F3]. }
  destruct C as (pp & p1 & z & C & E1).
  assert (Ee : exists e, exports_get es p1 = Some e /\ kind_key (e_kind e) = section /\ e_name e = name).
  { unfold exported_as in Hn. unfold exports_get. rewrite E1. destruct (find _ es) as [e|]; [|discriminate]. injection Hn as <- <-. eauto. }
  destruct Ee as (e & Ee & <- & <-).
  destruct (resolve_reached ord es fn fuel doc (Some r) pp p1 e z Ho Hf (conj Ht Hl) Hg H C Ee Hap) as (pp' & p' & e' & x' & y' & v & A1 & A2 & A3 & A4 & (_ & _ & A5) & A6).
  destruct (A5 Hf (conj Ht Hl)) as (A7 & n & A8). exists pp', p', x', y', n, v. split; [|auto 10].
  unfold exported_as. unfold exports_get in A1. rewrite A1. unfold comp_of, comp_loc in A2. congruence.
Qed.
(** If nothing that is referred to, directly or through other entities, is
    exported under a name, the component is as it was. *)
Theorem C96_unreached_is_kept : forall ord es fn fuel doc r, (forall pos l, Permutation (ord pos l) l) ->
  (forall p x, fn p = Ok x -> tidy x /\ lonely x) -> tidy doc -> lonely doc ->
  Forall (fun e => good_name (e_name e)) es -> resolve ord es fn fuel (Some doc) = Ok (Some r) ->
  forall section name, (forall q0 t0 p0, ext_ref doc q0 t0 p0 -> Spec_Loc.apart q0 (comp_loc section name)) ->
  (forall p, asked doc fn p -> exported_as es p <> Some (section, name)) ->
  exists doc', clone doc = Ok doc' /\ lookup (comp_loc section name) r = lookup (comp_loc section name) doc'.
Proof.
  intros ord es fn fuel doc r Ho Hf Ht Hl Hg H section name Hap Hno. apply (resolve_unreached ord es fn fuel doc (Some r) section name Ho Hf (conj Ht Hl) Hg H Hap).
  intros pp p z C. apply Hno. apply (chain_asked _ _ _ _ C). apply in_or_app. right. now left.
Qed.
Print Assumptions C96_asked_is_found.
Print Assumptions C96_reached_is_component.
Print Assumptions C96_unreached_is_kept.

(** ** C97 *)
(** Everything else being the same, two resolutions give the same document
    whatever the order of the maps: if only schemas are exported, one entity
    under each name, and what is on a cycle of references with an exported
    entity is exported. *)
Theorem C97_order_does_not_show : forall ord1 ord2 es fn fuel1 fuel2 doc r1 r2,
  (forall pos l, Permutation (ord1 pos l) l) -> (forall pos l, Permutation (ord2 pos l) l) ->
  (forall p x, fn p = Ok x -> tidy x /\ lonely x) -> tidy doc -> lonely doc ->
  Forall (fun e => e_kind e = KSchema /\ good_name (e_name e)) es ->
  (forall e q t p, In e es -> ext_ref doc q t p -> Spec_Loc.apart (comp_loc "schemas" (e_name e)) q) ->
  cycles_exported doc fn (exported_as es) -> one_entity doc fn (exported_as es) ->
  resolve ord1 es fn fuel1 (Some doc) = Ok (Some r1) -> resolve ord2 es fn fuel2 (Some doc) = Ok (Some r2) -> r1 = r2.
Proof.
  intros ord1 ord2 es fn fuel1 fuel2 doc r1 r2 O1 O2 Hf Ht Hl Hg Hx Hcy Hone. rewrite Forall_forall in Hg.
  apply (resolve_deterministic es fn doc Hf (conj Ht Hl)); [intros e I; apply (Hg e I) | apply Forall_forall; intros e I; apply (Hg e I) | | exact Hcy | exact Hone | exact O1 | exact O2].
  intros e q t p I E. unfold comp_of. rewrite (proj1 (Hg e I)). exact (Hx e q t p I E).
Qed.
Print Assumptions C97_order_does_not_show.

(** *** Example: A refers to M, M to B, B to itself; A, B and U are exported; the
    document refers to A only. *)
Definition g_A : json := JObj [("properties", JObj [("m", rf "go://p#/M")])].
Definition g_M : json := JObj [("properties", JObj [("b", rf "go://p#/B")])].
Definition g_B : json := JObj [("items", rf "go://p#/B")].
Definition g_fn (p : ptr) : res json :=
  if String.eqb (ptr_string p) "go://p#/A" then Ok g_A else if String.eqb (ptr_string p) "go://p#/M" then Ok g_M
  else if String.eqb (ptr_string p) "go://p#/B" then Ok g_B else Err.
Definition g_es : list export := map (fun n => {| e_kind := KSchema; e_name := n; e_ptr := ex_ptr ("go://p#/" +++ n) |}) ["A"; "B"; "U"].
Definition g_doc : json := JObj [("x", rf "go://p#/A"); ("y", JArr [rf "go://p#/A"; rf "#/x"])].
Definition g_out : json := JObj [("components", JObj [("schemas", JObj [("A", JObj [("properties", JObj [("m", JObj [("properties", JObj [("b", rf "#/components/schemas/B")])])])]); ("B", JObj [("items", rf "#/components/schemas/B")])])]);
  ("x", rf "#/components/schemas/A"); ("y", JArr [rf "#/components/schemas/A"; rf "#/x"])].
Lemma g_lonely : lonely g_A /\ lonely g_M /\ lonely g_B /\ lonely g_doc.
Proof. repeat (apply conj); repeat first [apply lonely_obj; [reflexivity|] | apply lonely_arr | constructor; cbn [snd] | apply lonely_ref]. Qed.
Lemma g_tidy : tidy g_A /\ tidy g_M /\ tidy g_B /\ tidy g_doc.
Proof. repeat (apply conj); try (cbn; tauto); try (cbn; solve_plain); intros t p [L _]; discriminate L. Qed.
Lemma g_fn_cases p x : g_fn p = Ok x -> ptr_string p = "go://p#/A" /\ x = g_A \/ ptr_string p = "go://p#/M" /\ x = g_M \/ ptr_string p = "go://p#/B" /\ x = g_B.
Proof.
  unfold g_fn. destruct (String.eqb_spec (ptr_string p) "go://p#/A") as [E|_]; [intro H; left; split; congruence|].
  destruct (String.eqb_spec (ptr_string p) "go://p#/M") as [E|_]; [intro H; right; left; split; congruence|].
  destruct (String.eqb_spec (ptr_string p) "go://p#/B") as [E|_]; [intro H; right; right; split; congruence|]. discriminate.
Qed.
Lemma g_refs x q t p : ext_ref x q t p -> (x = g_doc -> ptr_string p = "go://p#/A") /\ (x = g_A -> ptr_string p = "go://p#/M") /\ (x = g_M \/ x = g_B -> ptr_string p = "go://p#/B").
Proof.
  intros (L & P & X). assert (D : forall t', t = t' -> forall s, (match ptr_parse t' with Ok p0 => String.eqb (ptr_string p0) s | _ => false end) = true -> ptr_string p = s) by (intros t' <- s; rewrite P; intro E; now apply String.eqb_eq).
  apply refs_of_all in L. split; [|split]; [intros -> | intros -> | intros [-> | ->]]; cbn in L.
  - assert (N : forall u, ptr_parse "#/x" = Ok u -> is_external u = false) by (intros u Eu; assert (G : match ptr_parse "#/x" with Ok u => is_external u | _ => false end = false) by (vm_compute; reflexivity); now rewrite Eu in G).
    destruct L as [E|[E|[E|F]]]; [| | |destruct F]; apply (f_equal snd) in E; cbn [snd] in E; [| |subst t; rewrite (N _ P) in X; discriminate X]; apply (D _ (eq_sym E)); vm_compute; reflexivity.
  - destruct L as [E|F]; [|destruct F]; apply (f_equal snd) in E; cbn [snd] in E. apply (D _ (eq_sym E)); vm_compute; reflexivity.
  - destruct L as [E|F]; [|destruct F]; apply (f_equal snd) in E; cbn [snd] in E. apply (D _ (eq_sym E)); vm_compute; reflexivity.
  - destruct L as [E|F]; [|destruct F]; apply (f_equal snd) in E; cbn [snd] in E. apply (D _ (eq_sym E)); vm_compute; reflexivity.
Qed.
Lemma g_asked x p : asked x g_fn p -> (x = g_B -> ptr_string p = "go://p#/B") /\ (x = g_M -> ptr_string p = "go://p#/B") /\ (x = g_A -> In (ptr_string p) ["go://p#/M"; "go://p#/B"]) /\ (x = g_doc -> In (ptr_string p) ["go://p#/A"; "go://p#/M"; "go://p#/B"]).
Proof.
  induction 1 as [q t p E|p y q t p' _ (I1 & I2 & I3 & I4) F E]; destruct (g_refs _ _ _ _ E) as (R1 & R2 & R3).
  - repeat (apply conj); intro Ex; [rewrite R3 | rewrite R3 | rewrite R2 | rewrite R1]; cbn; auto.
  - destruct (g_fn_cases _ _ F) as [(Ep & ->)|[(Ep & ->)|(Ep & ->)]].
    + rewrite R2 by reflexivity. rewrite Ep in *. repeat (apply conj); intro Ex; [specialize (I1 Ex); discriminate | specialize (I2 Ex); discriminate | specialize (I3 Ex); cbn in I3; intuition discriminate | cbn; auto].
    + rewrite R3 by auto. repeat (apply conj); intro Ex; cbn; auto.
    + rewrite R3 by auto. repeat (apply conj); intro Ex; cbn; auto.
Qed.
Lemma g_exported p : exported_as g_es p <> None <-> In (ptr_string p) ["go://p#/A"; "go://p#/B"; "go://p#/U"].
Proof.
  unfold exported_as, g_es. cbn [map find e_ptr].
  assert (T : ptr_string (ex_ptr "go://p#/A") = "go://p#/A" /\ ptr_string (ex_ptr "go://p#/B") = "go://p#/B" /\ ptr_string (ex_ptr "go://p#/U") = "go://p#/U") by (repeat (apply conj); vm_compute; reflexivity).
  cbn [String.append]. destruct T as (-> & -> & ->). cbn [In].
  repeat (match goal with |- context [String.eqb ?a ?b] => destruct (String.eqb_spec a b) as [?|?]; [split; [intros _; auto | discriminate]|] end). split; [intro N; exfalso; apply N; reflexivity|]. intros [E'|[E'|[E'|[]]]]; congruence.
Qed.
Example C96_example : (forall p x, g_fn p = Ok x -> tidy x /\ lonely x) /\ tidy g_doc /\ lonely g_doc /\ by_text g_fn /\ Forall (fun e => e_kind e = KSchema /\ good_name (e_name e)) g_es /\
  (forall e q t p, In e g_es -> ext_ref g_doc q t p -> Spec_Loc.apart (comp_loc "schemas" (e_name e)) q) /\
  asked g_doc g_fn (ex_ptr "go://p#/B") /\ exported_as g_es (ex_ptr "go://p#/B") = Some ("schemas", "B") /\ (forall p, asked g_doc g_fn p -> exported_as g_es p <> Some ("schemas", "U")) /\
  resolve id_ord g_es g_fn 9 (Some g_doc) = Ok (Some g_out) /\ resolve rev_ord g_es g_fn 9 (Some g_doc) = Ok (Some g_out).
Proof.
  destruct g_lonely as (L1 & L2 & L3 & L4). destruct g_tidy as (T1 & T2 & T3 & T4).
  split; [intros p x F; destruct (g_fn_cases _ _ F) as [(_ & ->)|[(_ & ->)|(_ & ->)]]; auto|]. split; [exact T4|]. split; [exact L4|].
  split; [intros p p' x x' E F F'; unfold g_fn in *; rewrite E in F; congruence|]. split; [repeat constructor; discriminate|].
  split; [intros e q t p I (L & _); apply refs_of_all in L; cbn in L; destruct L as [E|[E|[E|F]]]; [| | |destruct F]; apply (f_equal fst) in E; cbn [fst] in E; subst q; split; intros (u & E); discriminate E|].
  assert (R : forall x q t, lookup (q ++ [SKey "$ref"]) x = Some (JStr t) -> is_external (ex_ptr t) = true -> (exists p, ptr_parse t = Ok p) -> ext_ref x q t (ex_ptr t)) by (intros x q t L X (p & P); unfold ex_ptr in *; rewrite P in *; split; auto).
  split.
  { eapply (asked_by_entity _ _ (ex_ptr "go://p#/M") g_M [SKey "properties"; SKey "b"] "go://p#/B"); [|vm_compute; reflexivity | apply R; [reflexivity | vm_compute; reflexivity | eexists; vm_compute; reflexivity]].
    eapply (asked_by_entity _ _ (ex_ptr "go://p#/A") g_A [SKey "properties"; SKey "m"] "go://p#/M"); [|vm_compute; reflexivity | apply R; [reflexivity | vm_compute; reflexivity | eexists; vm_compute; reflexivity]].
    apply (asked_by_doc _ _ [SKey "x"] "go://p#/A"). apply R; [reflexivity | vm_compute; reflexivity | eexists; vm_compute; reflexivity]. }
  split; [vm_compute; reflexivity|]. split; [|split; vm_compute; reflexivity].
  intros p A E. destruct (g_asked _ _ A) as (_ & _ & _ & G). specialize (G eq_refl). unfold exported_as, g_es in E. cbn [map find e_ptr e_kind e_name] in E.
  assert (T : ptr_string (ex_ptr "go://p#/A") = "go://p#/A" /\ ptr_string (ex_ptr "go://p#/B") = "go://p#/B" /\ ptr_string (ex_ptr "go://p#/U") = "go://p#/U") by (repeat (apply conj); vm_compute; reflexivity).
  cbn [String.append] in E. destruct T as (T1' & T2' & T3'). rewrite T1', T2', T3' in E. destruct G as [G|[G|[G|[]]]]; rewrite <- G in E; vm_compute in E; discriminate E.
Qed.
Example C97_example : cycles_exported g_doc g_fn (exported_as g_es) /\ one_entity g_doc g_fn (exported_as g_es).
Proof.
  split.
  - intros p q q' p' A Ex (x & F & Aq) Eq (x' & F' & Ap) Ep. apply g_exported. apply g_exported in Ex. rewrite <- Eq.
    destruct (g_fn_cases _ _ F) as [(E1 & ->)|[(E1 & ->)|(E1 & ->)]]; destruct (g_fn_cases _ _ F') as [(E2 & ->)|[(E2 & ->)|(E2 & ->)]];
      rewrite E1 in *; rewrite E2 in *; destruct (g_asked _ _ Aq) as (Q1 & Q2 & Q3 & _); destruct (g_asked _ _ Ap) as (P1 & P2 & P3 & _); cbn; auto; exfalso.
    + specialize (P2 eq_refl). congruence.
    + specialize (Q1 eq_refl). congruence.
  - intros p p' x x' s A A' E E' F F'. assert (Et : ptr_string p = ptr_string p'); [|unfold g_fn in *; rewrite Et in F; congruence].
    assert (T : ptr_string (ex_ptr "go://p#/A") = "go://p#/A" /\ ptr_string (ex_ptr "go://p#/B") = "go://p#/B" /\ ptr_string (ex_ptr "go://p#/U") = "go://p#/U") by (repeat (apply conj); vm_compute; reflexivity).
    unfold exported_as, g_es in E, E'. cbn [map find e_ptr e_kind e_name String.append] in E, E'. destruct T as (T1 & T2 & T3). rewrite T1, T2, T3 in E, E'.
    repeat (match type of E with context [String.eqb ?a ?b] => destruct (String.eqb_spec a b) end); repeat (match type of E' with context [String.eqb ?a ?b] => destruct (String.eqb_spec a b) end); cbv beta iota in E, E'; try discriminate E; try discriminate E'; rewrite <- E in E'; try discriminate E'; congruence.
Qed.

(** *** The conditions matter *)
(** A response refers to another which refers back, both exported; two
    entities are exported under one name; an entity that is not exported is on
    a cycle with one that is: in each case the order shows. *)
Definition g_both (k : kind) (n1 n2 : string) : list export := [{| e_kind := k; e_name := n1; e_ptr := ex_ptr "go://p#/A" |}; {| e_kind := k; e_name := n2; e_ptr := ex_ptr "go://p#/B" |}].
Theorem C97_conditions : forall es, In es [g_both KResponse "A" "B"; g_both KSchema "A" "A"; ex_es] ->
  exists r1 r2, resolve id_ord es ex_fn 9 (Some ex_doc) = Ok (Some r1) /\ resolve rev_ord es ex_fn 9 (Some ex_doc) = Ok (Some r2) /\ r1 <> r2.
Proof.
  intros es I. assert (G : match resolve id_ord es ex_fn 9 (Some ex_doc), resolve rev_ord es ex_fn 9 (Some ex_doc) with Ok (Some a), Ok (Some b) => if json_dec a b then false else true | _, _ => false end = true).
  { destruct I as [<-|[<-|[<-|[]]]]; vm_compute; reflexivity. }
  destruct (resolve id_ord es ex_fn 9 (Some ex_doc)) as [[r1|]| | |]; try discriminate G. destruct (resolve rev_ord es ex_fn 9 (Some ex_doc)) as [[r2|]| | |]; try discriminate G.
  destruct (json_dec r1 r2) as [|N]; [discriminate|]. exists r1, r2. auto.
Qed.
Print Assumptions C97_conditions.
