(** Properties C23-C30 and C71: resolving references, exporting components. *)
From Coq Require Import String Ascii List Bool Arith ZArith Lia Permutation.
From Verif Require Import GoStr GoStrFacts Json JsonFacts Gabs Container Url Pointer Resolver ScanFn
  Spec_Loc Spec_Resolve LocFacts ResolverFacts ResolverTerm ResolverFrame ResolverLocal ResolverExpand ResolverNames ScanFnFacts.
Import ListNotations.
Local Open Scope string_scope.
Local Open Scope nat_scope.
Local Open Scope list_scope.

(** Example: package p declares A {b: B} and B {a: A}; the document uses both
    and has a local reference. *)
Definition rf (t : string) : json := JObj [("$ref", JStr t)].
Definition ex_A : json := JObj [("properties", JObj [("b", rf "go://p#/B")])].
Definition ex_B : json := JObj [("properties", JObj [("a", rf "go://p#/A")])].
Definition ex_fn (p : ptr) : res json :=
  if String.eqb (ptr_string p) "go://p#/A" then Ok ex_A
  else if String.eqb (ptr_string p) "go://p#/B" then Ok ex_B else Err.
Definition ex_doc : json :=
  JObj [("l", rf "#/x"); ("title", JStr "T"); ("x", rf "go://p#/A"); ("y", JArr [rf "go://p#/B"])].
Definition ex_ptr (t : string) : ptr := match ptr_parse t with Ok p => p | _ => ptr_zero end.
Definition ex_es : list export := [{| e_kind := KSchema; e_name := "A"; e_ptr := ex_ptr "go://p#/A" |}].
Definition id_ord : list nat -> list (string * json) -> list (string * json) := fun _ l => l.
Definition rev_ord : list nat -> list (string * json) -> list (string * json) := fun _ l => rev l.

Lemma id_perm : forall pos l, Permutation (id_ord pos l) l.
Proof. intros; apply Permutation_refl. Qed.
Lemma rev_perm : forall pos l, Permutation (rev_ord pos l) l.
Proof. intros; symmetry; apply Permutation_rev. Qed.
Ltac solve_plain := repeat split; try discriminate; try reflexivity; try lia.
Lemma ex_A_tidy : tidy ex_A. Proof. split; [cbn; tauto|]. split; [cbn; solve_plain|]. intros t p [L _]. discriminate L. Qed.
Lemma ex_B_tidy : tidy ex_B. Proof. split; [cbn; tauto|]. split; [cbn; solve_plain|]. intros t p [L _]. discriminate L. Qed.
Lemma ex_doc_tidy : tidy ex_doc. Proof. split; [cbn; tauto|]. split; [cbn; solve_plain|]. intros t p [L _]. discriminate L. Qed.
Lemma ex_fn_cases p x : ex_fn p = Ok x -> x = ex_A \/ x = ex_B.
Proof. unfold ex_fn. destruct (String.eqb _ _); [intros [= <-]; auto|]. destruct (String.eqb _ _); [intros [= <-]; auto | discriminate]. Qed.
Lemma ex_fn_tidy : tidy_fn ex_fn.
Proof. intros p x H. destruct (ex_fn_cases p x H) as [-> | ->]; [exact ex_A_tidy | exact ex_B_tidy]. Qed.

(** ** C23 *)
Theorem C23_no_external_reference_left : forall ord es fn fuel c r, (forall pos l, Permutation (ord pos l) l) ->
  tidy_fn fn -> tidy (c_data c) -> resolve ord es fn fuel c = Ok r -> no_ext (c_data r).
Proof. exact resolve_no_ext. Qed.
Print Assumptions C23_no_external_reference_left.

Example C23_ex : tidy_fn ex_fn /\ tidy ex_doc /\
  resolve rev_ord ex_es ex_fn 5 (Some ex_doc) =
  Ok (Some (JObj [("components", JObj [("schemas", JObj [("A", JObj [("properties", JObj [("b", JObj [("properties", JObj [("a", rf "#/components/schemas/A")])])])])])]);
                  ("l", rf "#/x"); ("title", JStr "T"); ("x", rf "#/components/schemas/A");
                  ("y", JArr [JObj [("properties", JObj [("a", rf "#/components/schemas/A")])]])])).
Proof. split; [exact ex_fn_tidy|]. split; [exact ex_doc_tidy|]. vm_compute. reflexivity. Qed.

(** A document (or a schema returned by the resolution function, such as that of
    a type alias) that is itself a reference keeps it: the value is stored under
    the empty key instead. *)
Theorem C23_root_reference_refuted : exists ord fn doc r, (forall pos l, Permutation (ord pos l) l) /\
  (forall p x, fn p = Ok x -> no_ext x) /\ resolve ord [] fn 5 (Some doc) = Ok (Some r) /\ ~ no_ext r.
Proof.
  exists id_ord, (fun _ => Ok (JObj [("type", JStr "object")])), (rf "go://p#/A"),
    (JObj [("", JObj [("type", JStr "object")]); ("$ref", JStr "go://p#/A")]).
  split; [exact id_perm|]. split.
  - intros p x [= <-] q t p' (L & _ & _). destruct q as [|[k|i] q]; try discriminate. cbn in L. destruct (String.eqb k "type"); [|discriminate].
    destruct q as [|[|] q]; discriminate.
  - split; [vm_compute; reflexivity|]. intro H. apply (H [] "go://p#/A" (ex_ptr "go://p#/A")). repeat split; vm_compute; reflexivity.
Qed.
Print Assumptions C23_root_reference_refuted.

(** ** C24 *)
Theorem C24_only_references_and_components_change : forall ord es fn fuel doc r,
  (forall pos l, Permutation (ord pos l) l) -> wf doc -> keys_ok plain doc ->
  Forall (fun e => good_name (e_name e)) es -> resolve ord es fn fuel (Some doc) = Ok r ->
  exists doc', clone doc = Ok doc' /\
  forall q, (forall q0 t p, ext_ref doc q0 t p -> apart q0 q) ->
    (forall e, In e es -> apart (comp_loc (kind_key (e_kind e)) (e_name e)) q) ->
    lookup q (c_data r) = lookup q doc'.
Proof. exact resolve_frame. Qed.
Print Assumptions C24_only_references_and_components_change.

Example C24_ex : Forall (fun e => good_name (e_name e)) ex_es /\ clone ex_doc = Ok ex_doc /\
  (forall q0 t p, ext_ref ex_doc q0 t p -> apart q0 [SKey "l"; SKey "$ref"]).
Proof.
  split; [repeat constructor; discriminate|]. split; [reflexivity|].
  intros q0 t p (L & Hp & Hx). split; intros [u E].
  - destruct q0 as [|s [|s' q0]]; cbn in E.
    + discriminate L.
    + injection E as <- _. cbn in L. injection L as <-. vm_compute in Hp. injection Hp as <-. discriminate Hx.
    + injection E as <- <- E. destruct q0; [|discriminate]. discriminate L.
  - subst q0. destruct u as [|[|] u]; discriminate L.
Qed.

(** ** C25 *)
Theorem C25_written_references_resolve : forall ord es fn fuel doc r,
  (forall pos l, Permutation (ord pos l) l) -> wf doc -> keys_ok plain doc ->
  Forall (fun e => good_name (e_name e)) es ->
  (forall e, In e es -> ~ has_ref doc (local_text (kind_key (e_kind e)) (e_name e))) ->
  (forall p x e, fn p = Ok x -> In e es -> ~ has_ref x (local_text (kind_key (e_kind e)) (e_name e))) ->
  (forall t p, ~ ext_ref doc [] t p) -> (forall t p, ~ ext_ref doc [SKey "components"] t p) ->
  (forall e, In e es -> forall t p, ~ ext_ref doc [SKey "components"; SKey (kind_key (e_kind e))] t p) ->
  resolve ord es fn fuel (Some doc) = Ok r ->
  forall e, In e es -> has_ref (c_data r) (local_text (kind_key (e_kind e)) (e_name e)) ->
  exists v, lookup (comp_loc (kind_key (e_kind e)) (e_name e)) (c_data r) = Some v.
Proof. exact resolve_local. Qed.
Print Assumptions C25_written_references_resolve.

Lemma ex_no_local t : t = "#/components/schemas/A" -> ~ has_ref ex_doc t /\ ~ has_ref ex_A t /\ ~ has_ref ex_B t.
Proof.
  intros ->. repeat split; intros [q L].
  - destruct q as [|[k|i] q]; try discriminate. cbn [app lookup ex_doc oget] in L.
    repeat (match type of L with context [if String.eqb k ?s then _ else _] => destruct (String.eqb k s) end);
      try (destruct q as [|[k'|i'] q]; cbn in L; try discriminate;
           repeat (match type of L with context [String.eqb k' ?s] => destruct (String.eqb k' s) end); try discriminate; destruct q as [|[|] q]; discriminate).
    + destruct q as [|[k'|i'] q]; cbn [app lookup] in L; try discriminate. destruct i' as [|i']; [|destruct i'; discriminate L].
      cbn [nth_error] in L. destruct q as [|[k'|i'] q]; cbn in L; try discriminate. destruct (String.eqb k' "$ref"); [|discriminate]. destruct q as [|[|] q]; discriminate.
  - destruct q as [|[k|i] q]; try discriminate. cbn in L. destruct (String.eqb k "properties"); [|discriminate].
    destruct q as [|[k'|i'] q]; cbn in L; try discriminate. destruct (String.eqb k' "b"); [|discriminate].
    destruct q as [|[k2|i2] q]; cbn in L; try discriminate. destruct (String.eqb k2 "$ref"); [|discriminate]. destruct q as [|[|] q]; discriminate.
  - destruct q as [|[k|i] q]; try discriminate. cbn in L. destruct (String.eqb k "properties"); [|discriminate].
    destruct q as [|[k'|i'] q]; cbn in L; try discriminate. destruct (String.eqb k' "a"); [|discriminate].
    destruct q as [|[k2|i2] q]; cbn in L; try discriminate. destruct (String.eqb k2 "$ref"); [|discriminate]. destruct q as [|[|] q]; discriminate.
Qed.
Example C25_ex :
  (forall e, In e ex_es -> ~ has_ref ex_doc (local_text (kind_key (e_kind e)) (e_name e))) /\
  (forall p x e, ex_fn p = Ok x -> In e ex_es -> ~ has_ref x (local_text (kind_key (e_kind e)) (e_name e))) /\
  (forall t p, ~ ext_ref ex_doc [] t p) /\ (forall t p, ~ ext_ref ex_doc [SKey "components"] t p).
Proof.
  repeat split.
  - intros e [<-|[]]. now apply ex_no_local.
  - intros p x e H [<-|[]]. destruct (ex_fn_cases p x H) as [-> | ->]; now apply ex_no_local.
  - intros t p [L _]. discriminate L.
  - intros t p [L _]. discriminate L.
Qed.

(** When the component section of the document already holds, under the name of
    an export, a reference to the exported pointer, the written component refers
    to itself. *)
Theorem C25_component_refers_to_itself : exists ord es fn doc r, (forall pos l, Permutation (ord pos l) l) /\ wf doc /\ keys_ok plain doc /\
  Forall (fun e => good_name (e_name e)) es /\ tidy_fn fn /\ resolve ord es fn 5 (Some doc) = Ok (Some r) /\
  lookup [SKey "components"; SKey "schemas"; SKey "A"; SKey "$ref"] r = Some (JStr "#/components/schemas/A").
Proof.
  exists id_ord, ex_es, ex_fn, (JObj [("components", JObj [("schemas", JObj [("A", rf "go://p#/A")])])]).
  eexists. split; [exact id_perm|]. split; [cbn; tauto|]. split; [cbn; solve_plain|]. split; [repeat constructor; discriminate|].
  split; [exact ex_fn_tidy|]. split; vm_compute; reflexivity.
Qed.
Print Assumptions C25_component_refers_to_itself.

(** ** C26 *)
Theorem C26_resolution_terminates : forall ord es fn (U : list string),
  (forall pos l, Permutation (ord pos l) l) -> (forall p, fn p <> OutOfFuel) ->
  (forall p x, fn p = Ok x -> wf x /\ forall p', mentions x p' -> In (ptr_string p') U) ->
  forall c, wf (c_data c) -> (forall p, mentions (c_data c) p -> In (ptr_string p) U) ->
  forall fuel, length U < fuel -> resolve ord es fn fuel c <> OutOfFuel.
Proof. exact resolve_terminates. Qed.
Print Assumptions C26_resolution_terminates.

(** The recursion depth is only a bound: once large enough it does not matter. *)
Theorem C26_depth_irrelevant : forall ord es fn fuel fuel' c, resolve ord es fn fuel c <> OutOfFuel -> fuel <= fuel' ->
  resolve ord es fn fuel' c = resolve ord es fn fuel c.
Proof. exact resolve_mono. Qed.
Print Assumptions C26_depth_irrelevant.

(** The bound is reached: two mutually recursive schemas need depth three. *)
Example C26_ex : resolve id_ord [] ex_fn 2 (Some ex_doc) = OutOfFuel /\ exists r, resolve id_ord [] ex_fn 3 (Some ex_doc) = Ok r.
Proof. split; [vm_compute; reflexivity|]. eexists. vm_compute. reflexivity. Qed.

(** ** C27 *)
Theorem C27_resolution_is_substitution : forall ord fn, (forall pos l, Permutation (ord pos l) l) ->
  (forall p x, fn p = Ok x -> tidy x /\ lonely x /\ is_scalar x = false) ->
  forall fuel doc r, tidy doc -> lonely doc -> is_scalar doc = false ->
  (resolve ord [] fn fuel (Some doc) = Ok (Some r) <->
   exists doc', clone doc = Ok doc' /\ expand fuel fn clone [] doc' = Ok r).
Proof. exact resolve_expand. Qed.
Print Assumptions C27_resolution_is_substitution.

Theorem C27_order_irrelevant_without_exports : forall ord1 ord2 fn,
  (forall pos l, Permutation (ord1 pos l) l) -> (forall pos l, Permutation (ord2 pos l) l) ->
  (forall p x, fn p = Ok x -> tidy x /\ lonely x /\ is_scalar x = false) ->
  forall fuel doc r, tidy doc -> lonely doc -> is_scalar doc = false ->
  (resolve ord1 [] fn fuel (Some doc) = Ok (Some r) <-> resolve ord2 [] fn fuel (Some doc) = Ok (Some r)).
Proof.
  intros ord1 ord2 fn H1 H2 Hf fuel doc r Ht Hl Hs.
  rewrite (resolve_expand ord1 fn H1 Hf fuel doc r Ht Hl Hs), (resolve_expand ord2 fn H2 Hf fuel doc r Ht Hl Hs). reflexivity.
Qed.
Print Assumptions C27_order_irrelevant_without_exports.

(** A reference object {"$ref": text} has nothing beside it. *)
Lemma lonely_A : lonely ex_A.
Proof.
  intros q q' t p t' (L & _ & _) L'.
  destruct q as [|[k|i] q]; try discriminate. cbn [app lookup ex_A oget] in L, L'. destruct (String.eqb k "properties"); [|discriminate].
  destruct q as [|[k'|i'] q]; try discriminate. cbn [app lookup oget] in L, L'. destruct (String.eqb k' "b"); [|discriminate].
  destruct q as [|[k2|i2] q]; try discriminate.
  - destruct q' as [|[k3|i3] q']; [reflexivity | | discriminate]. cbn in L'. destruct (String.eqb k3 "$ref"); [|discriminate]. destruct q' as [|[|] q']; discriminate.
  - cbn in L. destruct (String.eqb k2 "$ref"); [|discriminate]. destruct q as [|[|] q]; discriminate.
Qed.
Lemma lonely_B : lonely ex_B.
Proof.
  intros q q' t p t' (L & _ & _) L'.
  destruct q as [|[k|i] q]; try discriminate. cbn [app lookup ex_B oget] in L, L'. destruct (String.eqb k "properties"); [|discriminate].
  destruct q as [|[k'|i'] q]; try discriminate. cbn [app lookup oget] in L, L'. destruct (String.eqb k' "a"); [|discriminate].
  destruct q as [|[k2|i2] q]; try discriminate.
  - destruct q' as [|[k3|i3] q']; [reflexivity | | discriminate]. cbn in L'. destruct (String.eqb k3 "$ref"); [|discriminate]. destruct q' as [|[|] q']; discriminate.
  - cbn in L. destruct (String.eqb k2 "$ref"); [|discriminate]. destruct q as [|[|] q]; discriminate.
Qed.
Example C27_ex : (forall p x, ex_fn p = Ok x -> tidy x /\ lonely x /\ is_scalar x = false) /\ tidy ex_A /\ lonely ex_A /\
  expand 4 ex_fn clone [] ex_A = Ok (JObj [("properties", JObj [("b", JObj [("properties", JObj [("a", JObj [("properties", JObj [("b", JObj [])])])])])])]).
Proof.
  split.
  - intros p x H. destruct (ex_fn_cases p x H) as [-> | ->]; (split; [|split; [|reflexivity]]); auto using ex_A_tidy, ex_B_tidy, lonely_A, lonely_B.
  - split; [exact ex_A_tidy|]. split; [exact lonely_A|]. vm_compute. reflexivity.
Qed.

(** ** C28 *)
Theorem C28_output_depends_on_iteration_order : exists ord1 ord2 es fn doc r1 r2,
  (forall pos l, Permutation (ord1 pos l) l) /\ (forall pos l, Permutation (ord2 pos l) l) /\
  tidy_fn fn /\ tidy doc /\ Forall (fun e => good_name (e_name e)) es /\
  resolve ord1 es fn 5 (Some doc) = Ok (Some r1) /\ resolve ord2 es fn 5 (Some doc) = Ok (Some r2) /\
  lookup (comp_loc "schemas" "A") r1 <> lookup (comp_loc "schemas" "A") r2.
Proof.
  exists id_ord, rev_ord, ex_es, ex_fn, ex_doc. eexists. eexists.
  split; [exact id_perm|]. split; [exact rev_perm|]. split; [exact ex_fn_tidy|]. split; [exact ex_doc_tidy|].
  split; [repeat constructor; discriminate|]. split; [vm_compute; reflexivity|]. split; [vm_compute; reflexivity|]. vm_compute. discriminate.
Qed.
Print Assumptions C28_output_depends_on_iteration_order.

(** ** C29 *)
Theorem C29_stored_where_referenced : forall k n v v' doc r, good_name n -> clone v = Ok v' -> set_entity k n v (Some doc) = Ok r ->
  entity_fragment k n = ["components"; kind_key k; n] /\ lookup (comp_loc (kind_key k) n) (c_data r) = Some v' /\
  frag_string (entity_fragment k n) = "/components/" +++ kind_key k +++ "/" +++ n.
Proof. exact stored_where_referenced. Qed.
Print Assumptions C29_stored_where_referenced.

(** Otherwise the path segments and the fragment tokens differ. *)
Theorem C29_dotted_name_differs : forall k n, has_char "." n = true -> has_char "/" n = false ->
  dot_path (entity_path k n) <> entity_fragment k n.
Proof. exact dotted_name. Qed.
Print Assumptions C29_dotted_name_differs.
Theorem C29_slashed_name_differs : forall k c n, Ascii.eqb c "/" = false -> has_char "/" (String c n) = true ->
  has_char "." (String c n) = false -> dot_path (entity_path k (String c n)) <> entity_fragment k (String c n).
Proof. exact slashed_name. Qed.
Print Assumptions C29_slashed_name_differs.

Example C29_ex : good_name "Pet" /\
  set_entity KSchema "Pet" (JStr "s") (Some (JObj [("components", JNull)])) = Ok (Some (JObj [("components", JObj [("schemas", JObj [("Pet", JStr "s")])])])) /\
  set_entity KSchema "v1.Pet" (JStr "s") (Some (JObj [])) = Ok (Some (JObj [("components", JObj [("schemas", JObj [("v1", JObj [("Pet", JStr "s")])])])])) /\
  entity_fragment KSchema "v1.Pet" = ["components"; "schemas"; "v1.Pet"] /\
  entity_fragment KSchema "go://p#/A" = ["components"; "schemas"; "go:"; ""; "p#"; "A"].
Proof. repeat split; discriminate. Qed.

(** ** C30 *)
(** A reference to an overridden pointer becomes the override, whatever its
    scheme and whatever the collected types say. *)
Theorem C30_override_wins : forall ord ov go fuel doc r, (forall pos l, Permutation (ord pos l) l) ->
  (forall p x, scan_fn ov go p = Ok x -> tidy x /\ lonely x /\ is_scalar x = false) ->
  tidy doc -> lonely doc -> is_scalar doc = false ->
  resolve ord [] (scan_fn ov go) fuel (Some doc) = Ok (Some r) ->
  forall q t p o, ext_ref doc q t p -> oget (ptr_string p) ov = Some o ->
  (forall q' t', lookup (q' ++ [SKey "$ref"]) o <> Some (JStr t')) ->
  exists o', clone o = Ok o' /\ lookup q r = Some o'.
Proof. exact override_value. Qed.
Print Assumptions C30_override_wins.

(** A pointer with another scheme than go and no override makes it fail. *)
Theorem C30_unknown_scheme_fails : forall ord es ov go fuel doc, (forall pos l, Permutation (ord pos l) l) -> wf doc -> keys_ok plain doc ->
  forall q t p, ext_ref doc q t p -> oget (ptr_string p) ov = None -> u_scheme (p_url p) <> "go" ->
  forall r, resolve ord es (scan_fn ov go) fuel (Some doc) <> Ok r.
Proof. exact unknown_scheme_fails. Qed.
Print Assumptions C30_unknown_scheme_fails.

(** Every external pointer of the document itself is looked up. *)
Theorem C30_every_reference_looked_up : forall ord es fn fuel doc r, (forall pos l, Permutation (ord pos l) l) -> wf doc -> keys_ok plain doc ->
  resolve ord es fn fuel (Some doc) = Ok r -> forall q t p, ext_ref doc q t p -> exists x, fn p = Ok x.
Proof. exact resolve_calls. Qed.
Print Assumptions C30_every_reference_looked_up.

Definition ex_ov : list (string * json) := [("https://s#/T", JObj [("type", JStr "string")])].
Example C30_ex :
  resolve id_ord [] (scan_fn ex_ov (fun _ => Err)) 3 (Some (JObj [("x", rf "https://s#/T")])) = Ok (Some (JObj [("x", JObj [("type", JStr "string")])])) /\
  resolve id_ord [] (scan_fn [] (fun _ => Ok (JObj []))) 3 (Some (JObj [("x", rf "https://s#/T")])) = Err /\
  ext_ref (JObj [("x", rf "https://s#/T")]) [SKey "x"] "https://s#/T" (ex_ptr "https://s#/T") /\
  (forall p x, scan_fn ex_ov (fun _ => Err) p = Ok x -> tidy x /\ lonely x /\ is_scalar x = false).
Proof.
  split; [vm_compute; reflexivity|]. split; [vm_compute; reflexivity|]. split; [repeat split; vm_compute; reflexivity|].
  intros p x H. unfold scan_fn in H. cbn [ex_ov oget] in H. destruct (String.eqb (ptr_string p) "https://s#/T").
  - injection H as <-. split; [split; [cbn; tauto|split; [cbn; solve_plain|]]|split; [|reflexivity]].
    + intros t p' [L _]. discriminate L.
    + intros q q' t p' t' (L & _) _. exfalso. destruct q as [|[k|i] q]; try discriminate. cbn in L. destruct (String.eqb k "type"); [|discriminate]. destruct q as [|[|] q]; discriminate.
  - destruct (String.eqb _ _) in H; discriminate.
Qed.

(** ** C71 *)
(** The kinds that have a component section. *)
Definition sectioned : list (kind * string) :=
  [(KSchema, "schemas"); (KResponse, "responses"); (KParameter, "parameters"); (KExample, "examples"); (KRequestBody, "requestBodies");
   (KSecurityScheme, "securitySchemes"); (KLink, "links"); (KCallback, "callbacks")].
Theorem C71_sections : forall k s, In (k, s) sectioned ->
  kind_key k = s /\ dot_path (kind_path k) = ["components"; s] /\ kind_fragment k = ["components"; s] /\
  forall k', kind_key k' = s -> k' = k.
Proof.
  intros k s H. cbn [sectioned In] in H.
  repeat (destruct H as [H|H]; [injection H as <- <-; repeat split; intros k' E; destruct k'; (reflexivity || discriminate E)|]). destruct H.
Qed.
Print Assumptions C71_sections.
(** Headers have none; two kinds share the key "invalid", path items claim one. *)
Theorem C71_header_has_no_section : kind_key KHeader = "invalid" /\ kind_key KHeader = kind_key KInvalid /\
  (forall k, kind_key k <> "headers") /\ kind_path KPathItem = "components.paths" /\ kind_path KReference = "components.*".
Proof. repeat split. intros k E. destruct k; discriminate E. Qed.
Print Assumptions C71_header_has_no_section.
