(** Properties C31-C36: merging the root configuration, default operations. *)
From Coq Require Import String Ascii List Bool Arith Permutation.
From Verif Require Import GoStr GoStrFacts Json JsonFacts Gabs Container Spec_Merge MergeFacts MergeLaws MergeApi Regex Route Root Spec_Root RootFacts PathsFacts.
Import ListNotations.
Local Open Scope string_scope.
Local Open Scope nat_scope.
Local Open Scope list_scope.

(** ** C31 *)
(** Every section of the result is the key-wise merge of the two sections (a
    section that is not an object counts as an empty one); when both are absent
    it stays absent; everything else is untouched. *)
Theorem C31_sections : forall (ord : nat -> morder) d r,
  (forall i, perm_oracle (ord i)) -> wf (JObj d) -> wf (JObj r) -> clone (JObj d) = Ok (JObj d) -> clone (JObj r) = Ok (JObj r) ->
  (forall k, In k ["info"; "components"; "paths"; "externalDocs"; "security"; "servers"; "tags"] -> ~ scalar (section k (JObj d)) /\ ~ scalar (section k (JObj r))) ->
  let zc := obj_part (section "components" (JObj d)) in
  let yc := obj_part (section "components" (JObj r)) in
  (merge_with_root ord (JObj r) (Some (JObj d)) = Err <-> rejected merge_strict zc yc) /\
  (~ rejected merge_strict zc yc ->
   exists d', merge_with_root ord (JObj r) (Some (JObj d)) = Ok (Some (JObj d')) /\ wf (JObj d') /\
     (forall k, ~ In k ["info"; "components"; "paths"; "externalDocs"; "security"; "servers"; "tags"] -> oget k d' = oget k d) /\
     Forall (fun x => section_result (fst x) (snd x) (JObj d) (JObj r) (JObj d'))
       [(merge_override, "info"); (merge_strict, "components"); (merge_default, "paths"); (merge_default, "externalDocs");
        (merge_default, "security"); (merge_default, "servers"); (merge_default, "tags")]).
Proof. exact root_merge. Qed.
Print Assumptions C31_sections.

Lemma rejected_strict zc yc : rejected merge_strict zc yc <-> exists p x y, at_path p zc = Some x /\ at_path p yc = Some y /\ is_obj x && is_obj y = false.
Proof. split; intros (p & x & y & A & B & C); [destruct C as [C _]|]; exists p, x, y; auto. Qed.
Lemma leaf_nonempty j p v : is_obj j = true -> leaf_at p j v -> p <> [].
Proof. intros Hj [A B] ->. cbn in A. congruence. Qed.
Lemma obj_part_obj j : is_obj (obj_part j) = true.
Proof. now destruct j. Qed.
Lemma obj_part_leaf j p v : leaf_at p (obj_part j) v <-> leaf_at p j v /\ p <> [].
Proof.
  unfold leaf_at. destruct j, p as [|k p]; cbn; split; intro H;
    try (split; [exact H | discriminate]); try (exact (proj1 H)); try (destruct H as [[A B] C]; congruence); try (destruct H as [A B]; discriminate); destruct H as [A B]; injection A as <-; discriminate B.
Qed.
Lemma strict_leaves d s r : merged merge_strict d s r -> forall p v, leaf_at p r v <-> leaf_at p d v \/ leaf_at p s v.
Proof.
  intros H p v. pose proof (strict_nodes p _ _ _ H) as C. rewrite !leaf_node.
  destruct (node_at p d) as [[|x]|], (node_at p s) as [[|y]|], (node_at p r) as [[|z]|]; cbn in C; try discriminate C; try (injection C as C); subst; intuition congruence.
Qed.
Lemma root_meaning (ord : nat -> morder) d r :
  (forall i, perm_oracle (ord i)) -> wf (JObj d) -> wf (JObj r) -> fixed (JObj d) -> fixed (JObj r) ->
  (forall k, In k section_names -> ~ scalar (section k (JObj d)) /\ ~ scalar (section k (JObj r))) ->
  (merge_with_root ord (JObj r) (Some (JObj d)) = Err <->
    exists p x y, at_path p (obj_part (section "components" (JObj d))) = Some x /\ at_path p (obj_part (section "components" (JObj r))) = Some y /\ is_obj x && is_obj y = false) /\
  (forall c', merge_with_root ord (JObj r) (Some (JObj d)) = Ok c' -> exists d', c' = Some (JObj d') /\
    (forall p v, p <> [] -> leaf_at p (section "info" (JObj r)) v -> leaf_at p (section "info" (JObj d')) v) /\
    (forall p v, p <> [] -> (leaf_at p (section "components" (JObj d')) v <-> leaf_at p (section "components" (JObj d)) v \/ leaf_at p (section "components" (JObj r)) v)) /\
    (forall k p v, k = "paths" \/ k = "externalDocs" -> p <> [] -> leaf_at p (section k (JObj d)) v -> leaf_at p (section k (JObj d')) v) /\
    (forall k, ~ In k section_names -> oget k d' = oget k d)).
Proof.
  intros Ho Wd Wr Fd Fr Hs. destruct (root_merge ord d r Ho Wd Wr Fd Fr Hs) as [A B]. cbv zeta in A, B.
  split; [rewrite A; apply rejected_strict|]. intros c' E.
  destruct B as (d' & E' & W & O & R). { intro J. apply A in J. congruence. }
  exists d'. split; [congruence|]. rewrite Forall_forall in R.
  assert (R' : forall coll k, In (coll, k) sections -> section_result coll k (JObj d) (JObj r) (JObj d')) by (intros coll k Hin; exact (R _ Hin)).
  assert (Nul : forall p v, p <> [] -> ~ leaf_at p JNull v) by (intros [|k p] v N [X _]; [congruence | discriminate X]).
  split; [|split; [|split]].
  - intros p v N L. destruct (R' merge_override "info" (or_introl eq_refl)) as [(_ & Z & _)|[_ M]]; [rewrite Z in L; now apply Nul in L|].
    eapply merged_override_leaf; [exact M|]. now apply obj_part_leaf.
  - intros p v N. destruct (R' merge_strict "components" (or_intror (or_introl eq_refl))) as [(Z1 & Z2 & Z3)|[_ M]].
    + rewrite (at_path_section _ _ _ Z3), Z1, Z2. tauto.
    + rewrite (strict_leaves _ _ _ M p v), !obj_part_leaf. tauto.
  - intros k p v Hk N L. assert (In (merge_default, k) sections) as Hin by (destruct Hk as [-> | ->]; cbn; auto).
    destruct (R' _ _ Hin) as [(_ & _ & Z)|[_ M]]; [now rewrite (at_path_section _ _ _ Z)|].
    eapply merged_default_leaf; [exact M|]. now apply obj_part_leaf.
  - exact O.
Qed.
Theorem C31_meaning : forall (ord : nat -> morder) d r,
  (forall i, perm_oracle (ord i)) -> wf (JObj d) -> wf (JObj r) -> clone (JObj d) = Ok (JObj d) -> clone (JObj r) = Ok (JObj r) ->
  (forall k, In k ["info"; "components"; "paths"; "externalDocs"; "security"; "servers"; "tags"] -> ~ scalar (section k (JObj d)) /\ ~ scalar (section k (JObj r))) ->
  (merge_with_root ord (JObj r) (Some (JObj d)) = Err <->
    exists p x y, at_path p (obj_part (section "components" (JObj d))) = Some x /\ at_path p (obj_part (section "components" (JObj r))) = Some y /\ is_obj x && is_obj y = false) /\
  (forall c', merge_with_root ord (JObj r) (Some (JObj d)) = Ok c' -> exists d', c' = Some (JObj d') /\
    (forall p v, p <> [] -> leaf_at p (section "info" (JObj r)) v -> leaf_at p (section "info" (JObj d')) v) /\
    (forall p v, p <> [] -> (leaf_at p (section "components" (JObj d')) v <-> leaf_at p (section "components" (JObj d)) v \/ leaf_at p (section "components" (JObj r)) v)) /\
    (forall k p v, k = "paths" \/ k = "externalDocs" -> p <> [] -> leaf_at p (section k (JObj d)) v -> leaf_at p (section k (JObj d')) v) /\
    (forall k, ~ In k ["info"; "components"; "paths"; "externalDocs"; "security"; "servers"; "tags"] -> oget k d' = oget k d)).
Proof. exact root_meaning. Qed.
Print Assumptions C31_meaning.
(** The result does not depend on the order in which the maps are gone through. *)
Theorem C31_order_does_not_show : forall (ord ord' : nat -> morder) d r,
  (forall i, perm_oracle (ord i)) -> (forall i, perm_oracle (ord' i)) -> wf (JObj d) -> wf (JObj r) -> clone (JObj d) = Ok (JObj d) -> clone (JObj r) = Ok (JObj r) ->
  (forall k, In k ["info"; "components"; "paths"; "externalDocs"; "security"; "servers"; "tags"] -> ~ scalar (section k (JObj d)) /\ ~ scalar (section k (JObj r))) ->
  merge_with_root ord (JObj r) (Some (JObj d)) = merge_with_root ord' (JObj r) (Some (JObj d)).
Proof.
  intros ord ord' d r Ho Ho' Wd Wr Fd Fr Hs. destruct (root_merge ord d r Ho Wd Wr Fd Fr Hs) as [A B], (root_merge ord' d r Ho' Wd Wr Fd Fr Hs) as [A' B']. cbv zeta in A, B, A', B'.
  destruct (merge_with_root ord (JObj r) (Some (JObj d))) as [c| | |] eqn:E.
  - assert (N : ~ rejected merge_strict (obj_part (section "components" (JObj d))) (obj_part (section "components" (JObj r)))) by (intro J; apply A in J; discriminate).
    destruct (B N) as (d1 & E1 & W1 & O1 & R1), (B' N) as (d2 & E2 & W2 & O2 & R2). rewrite E2, E1. do 3 f_equal. exact (composed_unique d r d1 d2 W1 W2 O1 O2 R1 R2).
  - symmetry. apply A'. now apply A.
  - exfalso. destruct (root_clash_dec d r Wd Wr Fd Fr) as [J|J]; [apply A in J; discriminate | destruct (B J) as (d1 & E1 & _); discriminate].
  - exfalso. destruct (root_clash_dec d r Wd Wr Fd Fr) as [J|J]; [apply A in J; discriminate | destruct (B J) as (d1 & E1 & _); discriminate].
Qed.
Print Assumptions C31_order_does_not_show.

Definition ex_doc : list (string * json) :=
  [("components", JObj [("schemas", JObj [("A", JObj [("type", JStr "string")])])]); ("info", JObj [("title", JStr "doc"); ("x", JStr "y")]);
   ("paths", JObj [("/a", JObj [("get", JObj [("summary", JStr "s")])])]); ("tags", JArr [JObj [("name", JStr "t")]]); ("x-k", JStr "z")].
Definition ex_root : list (string * json) :=
  [("components", JObj [("schemas", JObj [("B", JObj [("type", JStr "number")])])]); ("info", JObj [("title", JStr "root")]);
   ("servers", JArr [JObj [("url", JStr "/")]])].
Definition idord : nat -> morder := fun _ _ l => rev l.
Lemma perm_rev : forall i, perm_oracle (idord i).
Proof. intros i p l. symmetry. apply Permutation_rev. Qed.
Example C31_example : (forall i, perm_oracle (idord i)) /\ wf (JObj ex_doc) /\ wf (JObj ex_root) /\ clone (JObj ex_doc) = Ok (JObj ex_doc) /\ clone (JObj ex_root) = Ok (JObj ex_root) /\
  (forall k, In k ["info"; "components"; "paths"; "externalDocs"; "security"; "servers"; "tags"] -> ~ scalar (section k (JObj ex_doc)) /\ ~ scalar (section k (JObj ex_root))) /\
  merge_with_root idord (JObj ex_root) (Some (JObj ex_doc)) = Ok (Some (JObj
    [("components", JObj [("schemas", JObj [("A", JObj [("type", JStr "string")]); ("B", JObj [("type", JStr "number")])])]);
     ("info", JObj [("title", JStr "root"); ("x", JStr "y")]);
     ("paths", JObj [("/a", JObj [("get", JObj [("summary", JStr "s")])])]);
     ("servers", JObj []); ("tags", JObj []); ("x-k", JStr "z")])) /\
  merge_with_root idord (JObj ex_doc) (Some (JObj ex_doc)) = Err.
Proof.
  split; [exact perm_rev|]. split; [cbn; tauto|]. split; [cbn; tauto|]. split; [reflexivity|]. split; [reflexivity|].
  split; [|split; vm_compute; reflexivity]. intros k Hk. cbn in Hk. repeat (destruct Hk as [<-|Hk]; [cbn; tauto|]). destruct Hk.
Qed.

(** ** C32 *)
(** For every section both of whose versions are not objects (lists, or absent
    on one side): in particular servers, security and tags, which are lists. *)
Theorem C32_lists_lost : forall (ord : nat -> morder) d r d' k,
  (forall i, perm_oracle (ord i)) -> wf (JObj d) -> wf (JObj r) -> clone (JObj d) = Ok (JObj d) -> clone (JObj r) = Ok (JObj r) ->
  (forall k, In k ["info"; "components"; "paths"; "externalDocs"; "security"; "servers"; "tags"] -> ~ scalar (section k (JObj d)) /\ ~ scalar (section k (JObj r))) ->
  merge_with_root ord (JObj r) (Some (JObj d)) = Ok (Some d') -> In k ["info"; "components"; "paths"; "externalDocs"; "security"; "servers"; "tags"] ->
  ~ (section k (JObj d) = JNull /\ section k (JObj r) = JNull) ->
  is_obj (section k (JObj d)) = false -> is_obj (section k (JObj r)) = false -> section k d' = JObj [].
Proof. exact root_lists. Qed.
Print Assumptions C32_lists_lost.
Example C32_example : section "tags" (JObj ex_doc) = JArr [JObj [("name", JStr "t")]] /\ section "tags" (JObj ex_root) = JNull /\
  match merge_with_root idord (JObj ex_root) (Some (JObj ex_doc)) with Ok (Some d') => section "tags" d' = JObj [] /\ section "servers" d' = JObj [] | _ => False end.
Proof. repeat split. Qed.

(** ** C33 *)
Theorem C33_scalar_section_panics : forall (ord : nat -> morder) d r k,
  (forall i, perm_oracle (ord i)) -> wf (JObj d) -> wf (JObj r) -> clone (JObj d) = Ok (JObj d) -> clone (JObj r) = Ok (JObj r) ->
  (forall k, In k ["info"; "components"; "paths"; "externalDocs"; "security"; "servers"; "tags"] -> ~ scalar (section k (JObj r))) ->
  In k ["info"; "components"; "paths"; "externalDocs"; "security"; "servers"; "tags"] -> scalar (section k (JObj d)) ->
  ~ rejected merge_strict (obj_part (section "components" (JObj d))) (obj_part (section "components" (JObj r))) ->
  merge_with_root ord (JObj r) (Some (JObj d)) = Panic.
Proof. exact root_panics. Qed.
Print Assumptions C33_scalar_section_panics.
(** info comes first: nothing else can fail before it. *)
Theorem C33_scalar_info_panics : forall (ord : nat -> morder) d r,
  clone (JObj r) = Ok (JObj r) -> scalar (section "info" (JObj d)) -> merge_with_root ord (JObj r) (Some (JObj d)) = Panic.
Proof. exact root_info_panics. Qed.
Print Assumptions C33_scalar_info_panics.
Example C33_example : merge_with_root idord (JObj ex_root) (Some (JObj [("tags", JStr "a")])) = Panic /\ merge_with_root idord (JObj ex_root) (Some (JObj [("tags", JArr [])])) <> Panic.
Proof. split; [reflexivity | vm_compute; discriminate]. Qed.

(** ** C34 *)
(** Each operation becomes itself completed, in turn, by the defaults of the
    patterns that match it; every location not at or below an operation keeps
    its content. *)
Theorem C34_defaults : forall ordp (ordm : morder) ordd ord defops doc c',
  (forall l, Permutation (ordp l) l) -> perm_oracle ordm -> (forall l, Permutation (ordd l) l) -> (forall n i, perm_oracle (ord n i)) ->
  wf doc -> clone doc = Ok doc -> (forall p m v, operation p m doc v -> has_char "." p = false /\ has_char "." m = false) ->
  Forall ok_default defops -> set_paths_defaults ordp ordm ordd ord defops (Some doc) = Ok c' ->
  exists doc', c' = Some doc' /\
    (forall p m v, operation p m doc v -> exists v', operation p m doc' v' /\ with_defaults (chosen (p, m) (ordd defops)) v v') /\
    (forall q, (forall p m v, operation p m doc v -> ~ is_prefix ["paths"; p; m] q) -> node_at q doc' = node_at q doc).
Proof. exact defaults_spec. Qed.
Print Assumptions C34_defaults.
(** In particular: leaves of operations stay, unmatched operations stay as they
    are, and an operation of the result was one of the document. *)
Lemma node_none q j : at_path q j = None <-> node_at q j = None.
Proof. unfold node_at. destruct (at_path q j) as [[]|]; split; intro; (discriminate || reflexivity). Qed.
Lemma chosen_none e defs : (forall pat o, In (pat, o) defs -> route_match pat (snd e) (fst e) <> Ok true) -> chosen e defs = [].
Proof.
  intro H. unfold chosen. induction defs as [|[pat o] defs IH]; [reflexivity|]. cbn [filter fst].
  assert (S : selects pat e = false). { unfold selects. pose proof (H pat o (or_introl eq_refl)) as N. destruct (route_match pat (snd e) (fst e)) as [[]| | |]; congruence. }
  rewrite S. apply IH. intros pat' o' Hin. apply (H pat' o'). now right.
Qed.
Lemma defaults_keep ordp (ordm : morder) ordd ord defops doc c' :
  (forall l, Permutation (ordp l) l) -> perm_oracle ordm -> (forall l, Permutation (ordd l) l) -> (forall n i, perm_oracle (ord n i)) ->
  wf doc -> fixed doc -> (forall p m v, operation p m doc v -> has_char "." p = false /\ has_char "." m = false) ->
  Forall ok_default defops -> set_paths_defaults ordp ordm ordd ord defops (Some doc) = Ok c' ->
  exists doc', c' = Some doc' /\
    (forall p m v q x, operation p m doc v -> is_obj v = true -> leaf_at q v x -> leaf_at ("paths" :: p :: m :: q) doc' x) /\
    (forall p m v, operation p m doc v -> (forall pat o, In (pat, o) defops -> route_match pat m p <> Ok true) -> operation p m doc' v) /\
    (forall p m v', operation p m doc' v' -> exists v, operation p m doc v).
Proof.
  intros Hp Hm Hd Ho W F Hdot Hdef H. destruct (defaults_spec ordp ordm ordd ord defops doc c' Hp Hm Hd Ho W F Hdot Hdef H) as (doc' & -> & A & B).
  exists doc'. split; [reflexivity|]. split; [|split].
  - intros p m v q x Hop Hv Hl. destruct (A p m v Hop) as (v' & Hop' & Hw). pose proof (with_defaults_leaf _ _ _ _ _ Hw Hv Hl) as [L1 L2].
    split; [|exact L2]. change ("paths" :: p :: m :: q) with (["paths"; p; m] ++ q). unfold operation in Hop'. clear - Hop' L1. revert Hop'. generalize ["paths"; p; m].
    intro l. revert doc'. induction l as [|k l IH]; intros doc' E; cbn in *; [congruence|]. destruct doc'; try discriminate. destruct (oget k m0); [|discriminate]. now apply IH.
  - intros p m v Hop Hn. destruct (A p m v Hop) as (v' & Hop' & Hw). rewrite chosen_none in Hw; [inversion Hw; subst; exact Hop'|].
    intros pat o Hin. apply (Hn pat o). eapply Permutation_in; [apply Hd | exact Hin].
  - intros p m v' Hop'. destruct (at_path ["paths"; p; m] doc) as [v|] eqn:E; [now exists v|]. exfalso.
    assert (N : node_at ["paths"; p; m] doc' = node_at ["paths"; p; m] doc).
    { apply B. intros p' m' v Hop [r Hr]. assert (p' = p /\ m' = m) as [-> ->] by (cbn in Hr; injection Hr; auto). unfold operation in Hop. congruence. }
    rewrite (proj1 (node_none _ _) E) in N. apply node_none in N. unfold operation in Hop'. congruence.
Qed.
Theorem C34_kept : forall ordp (ordm : morder) ordd ord defops doc c',
  (forall l, Permutation (ordp l) l) -> perm_oracle ordm -> (forall l, Permutation (ordd l) l) -> (forall n i, perm_oracle (ord n i)) ->
  wf doc -> clone doc = Ok doc -> (forall p m v, operation p m doc v -> has_char "." p = false /\ has_char "." m = false) ->
  Forall ok_default defops -> set_paths_defaults ordp ordm ordd ord defops (Some doc) = Ok c' ->
  exists doc', c' = Some doc' /\
    (forall p m v q x, operation p m doc v -> is_obj v = true -> leaf_at q v x -> leaf_at ("paths" :: p :: m :: q) doc' x) /\
    (forall p m v, operation p m doc v -> (forall pat o, In (pat, o) defops -> route_match pat m p <> Ok true) -> operation p m doc' v) /\
    (forall p m v', operation p m doc' v' -> exists v, operation p m doc v).
Proof. exact defaults_keep. Qed.
Print Assumptions C34_kept.
(** It succeeds when every pattern compiles and matched values are objects (or null). *)
Theorem C34_succeeds : forall ordp (ordm : morder) ordd ord defops doc,
  (forall l, Permutation (ordp l) l) -> perm_oracle ordm -> (forall l, Permutation (ordd l) l) -> (forall n i, perm_oracle (ord n i)) ->
  shaped doc -> wf doc -> clone doc = Ok doc -> Forall ok_default defops ->
  (forall pat o p m v, In (pat, o) defops -> operation p m doc v -> exists b, route_match pat m p = Ok b /\ (b = true -> is_obj v = true \/ v = JNull \/ o = JObj [])) ->
  exists c', set_paths_defaults ordp ordm ordd ord defops (Some doc) = Ok c'.
Proof. exact defaults_total. Qed.
Print Assumptions C34_succeeds.

Definition ex_paths : json := JObj [("paths", JObj
  [("/a", JObj [("get", JObj [("summary", JStr "s")]); ("post", JObj [])]); ("/b", JObj [("get", JObj [])])])].
Definition ex_defs : list (string * json) := [("get:/*", JObj [("deprecated", JBool true); ("summary", JStr "d")])].
Example C34_example :
  wf ex_paths /\ clone ex_paths = Ok ex_paths /\ Forall ok_default ex_defs /\
  set_paths_defaults (fun l => rev l) (fun _ l => l) (fun l => l) (fun _ _ _ l => l) ex_defs (Some ex_paths) = Ok (Some (JObj [("paths", JObj
    [("/a", JObj [("get", JObj [("deprecated", JBool true); ("summary", JStr "s")]); ("post", JObj [])]);
     ("/b", JObj [("get", JObj [("deprecated", JBool true); ("summary", JStr "d")])])])])).
Proof.
  split; [cbn; tauto|]. split; [reflexivity|]. split; [|vm_compute; reflexivity].
  constructor; [|constructor]. exists [("deprecated", JBool true); ("summary", JStr "d")]. split; [reflexivity|]. split; [cbn; tauto|]. split; [reflexivity|].
  intros k x Hk. cbn in Hk. repeat (match type of Hk with context [if String.eqb k ?a then _ else _] => destruct (String.eqb_spec k a) as [-> |_]; [reflexivity|] end). discriminate.
Qed.

(** When two patterns match one operation and their defaults disagree, which one
    wins depends on the iteration order of the defaults map. *)
Theorem C34_order_refuted : exists defops doc c1 c2,
  set_paths_defaults (fun l => l) (fun _ l => l) (fun l => l) (fun _ _ _ l => l) defops (Some doc) = Ok c1 /\
  set_paths_defaults (fun l => l) (fun _ l => l) (fun l => rev l) (fun _ _ _ l => l) defops (Some doc) = Ok c2 /\ c1 <> c2.
Proof.
  exists [("/a", JObj [("summary", JStr "1")]); ("/*", JObj [("summary", JStr "2")])], (JObj [("paths", JObj [("/a", JObj [("get", JObj [])])])]).
  eexists. eexists. split; [vm_compute; reflexivity|]. split; [vm_compute; reflexivity|]. discriminate.
Qed.
Print Assumptions C34_order_refuted.

(** ** C35 *)
Theorem C35_phantom_path : forall ordp (ordm : morder) ordd ord defops doc c' pat o p m a,
  (forall l, Permutation (ordp l) l) -> perm_oracle ordm -> (forall l, Permutation (ordd l) l) -> (forall n i, perm_oracle (ord n i)) ->
  wf doc -> clone doc = Ok doc -> Forall ok_default defops ->
  In (pat, o) defops -> route_match pat m p = Ok true -> operation p m doc (JObj a) -> has_char "." p = true ->
  (forall p' m' v, operation p' m' doc v -> (replace_all "." "~1" p', replace_all "." "~1" m') = (replace_all "." "~1" p, replace_all "." "~1" m) -> (p', m') = (p, m)) ->
  set_paths_defaults ordp ordm ordd ord defops (Some doc) = Ok c' ->
  exists doc' v', c' = Some doc' /\ operation p m doc' v' /\ operation (replace_all "." "~1" p) (replace_all "." "~1" m) doc' v'.
Proof. exact dotted_path_duplicated. Qed.
Print Assumptions C35_phantom_path.
Example C35_example :
  route_match "/*" "get" "/pet.json" = Ok true /\
  set_paths_defaults (fun l => l) (fun _ l => l) (fun l => l) (fun _ _ _ l => l) [("/*", JObj [("deprecated", JBool true)])]
    (Some (JObj [("paths", JObj [("/pet.json", JObj [("get", JObj [("summary", JStr "s")])])])])) =
  Ok (Some (JObj [("paths", JObj [("/pet.json", JObj [("get", JObj [("deprecated", JBool true); ("summary", JStr "s")])]);
                                  ("/pet~1json", JObj [("get", JObj [("deprecated", JBool true); ("summary", JStr "s")])])])])).
Proof. split; vm_compute; reflexivity. Qed.

(** ** C36 *)
(** Paths lists exactly the keys of the path items, each once, whatever they are. *)
Theorem C36_every_key_listed : forall ordp (ordm : morder) doc ff,
  (forall l, Permutation (ordp l) l) -> perm_oracle ordm -> wf doc -> paths_of ordp ordm (Some doc) = Ok ff ->
  (forall p m v, operation p m doc v <-> In (fpath_of p m v) ff) /\
  (forall f, In f ff -> exists p m v, f = fpath_of p m v) /\ NoDup (map (fun f => (fp_path f, fp_method f)) ff).
Proof. exact (fun ordp ordm doc ff H1 H2 H3 H4 => let r := paths_of_spec ordp ordm doc ff H1 H2 H3 H4 in conj (proj1 r) (conj (proj1 (proj2 r)) (proj1 (proj2 (proj2 r))))). Qed.
Print Assumptions C36_every_key_listed.
Lemma defaults_scalar_err ordp (ordm : morder) ordd ord defops doc pat o p m v :
  (forall l, Permutation (ordp l) l) -> perm_oracle ordm -> (forall l, Permutation (ordd l) l) -> (forall n i, perm_oracle (ord n i)) ->
  wf doc -> fixed doc -> Forall ok_default defops ->
  (forall pat o p m v, In (pat, o) defops -> operation p m doc v -> ok_or_err (route_match pat m p)) ->
  In (pat, o) defops -> o <> JObj [] -> route_match pat m p = Ok true -> operation p m doc v -> is_obj v = false -> v <> JNull ->
  set_paths_defaults ordp ordm ordd ord defops (Some doc) = Err.
Proof.
  intros Hp Hm Hd Ho W F Hdef Hr Hin No Hm' Hop Hv Nv.
  pose proof (defaults_outcome ordp ordm ordd ord defops doc Hp Hm Hd Ho W F Hdef Hr) as K.
  destruct (set_paths_defaults ordp ordm ordd ord defops (Some doc)) as [c| | |] eqn:E; cbn in K; try contradiction; [|reflexivity].
  exfalso. exact (defaults_scalar_fails ordp ordm ordd ord defops doc pat o p m v c Hp Hm Hd Ho W F Hdef Hin No Hm' Hop Hv Nv E).
Qed.
(** ok_or_err: the pattern is one whose matching the model covers (it compiles or is an error). *)
Theorem C36_path_level_field_fails : forall ordp (ordm : morder) ordd ord defops doc pat o p m v,
  (forall l, Permutation (ordp l) l) -> perm_oracle ordm -> (forall l, Permutation (ordd l) l) -> (forall n i, perm_oracle (ord n i)) ->
  wf doc -> clone doc = Ok doc -> Forall ok_default defops ->
  (forall pat o p m v, In (pat, o) defops -> operation p m doc v -> ok_or_err (route_match pat m p)) ->
  In (pat, o) defops -> o <> JObj [] -> route_match pat m p = Ok true -> operation p m doc v -> is_obj v = false -> v <> JNull ->
  set_paths_defaults ordp ordm ordd ord defops (Some doc) = Err.
Proof. exact defaults_scalar_err. Qed.
Print Assumptions C36_path_level_field_fails.
Example C36_example :
  set_paths_defaults (fun l => l) (fun _ l => l) (fun l => l) (fun _ _ _ l => l) [("/*", JObj [("deprecated", JBool true)])]
    (Some (JObj [("paths", JObj [("/a", JObj [("get", JObj []); ("summary", JStr "about a")])])])) = Err /\
  set_paths_defaults (fun l => l) (fun _ l => l) (fun l => l) (fun _ _ _ l => l) [("get:/*", JObj [("deprecated", JBool true)])]
    (Some (JObj [("paths", JObj [("/a", JObj [("get", JObj []); ("summary", JStr "about a")])])])) <> Err.
Proof. split; [vm_compute; reflexivity | vm_compute; discriminate]. Qed.
