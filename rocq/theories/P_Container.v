(** Properties C08-C19: merging, cloning, addressing and ordering documents. *)
From Coq Require Import String Ascii List Bool Arith ZArith Lia Permutation Sorted.
From Verif Require Import GoStr GoStrFacts Json JsonFacts Gabs Container Yaml
  Spec_Merge Spec_Loc Spec_Clone Spec_Sort Spec_Yaml
  MergeFacts MergeLaws MergeApi LocFacts SetFacts ContFacts CloneFacts YamlFacts.
Import ListNotations.
Local Open Scope string_scope.
Local Open Scope nat_scope.
Local Open Scope list_scope.

(** Example documents. *)
Definition ex_d : list (string * json) :=
  [("info", JObj [("title", JStr "T"); ("version", JStr "1")]); ("tags", JArr [JStr "a"])].
Definition ex_s : list (string * json) :=
  [("info", JObj [("title", JStr "S"); ("x", JNum (NInt 7))]); ("paths", JObj [])].
Definition ex_s' : list (string * json) :=
  [("info", JObj [("title", JStr "S"); ("x", JNum (NFlt 7 0))]); ("paths", JObj [])].

(** ** C08 *)
Theorem C08_merge_is_keywise : forall (ord : oracle) (coll : merger) d s s',
  perm_oracle ord -> good_rule coll -> wf (JObj d) -> wf (JObj s) -> clone (JObj s) = Ok s' ->
  (forall r, c_merge ord coll (Some (JObj d)) (Some (JObj s)) = Ok (Some r) <-> merged coll (JObj d) s' r) /\
  (c_merge ord coll (Some (JObj d)) (Some (JObj s)) = Err <-> rejected coll (JObj d) s').
Proof. exact c_merge_iff. Qed.
Print Assumptions C08_merge_is_keywise.

(** Merge either yields a document or an error: no panic, no endless recursion. *)
Theorem C08_merge_total : forall (ord : oracle) (coll : merger) d s s',
  perm_oracle ord -> good_rule coll -> wf (JObj d) -> wf (JObj s) -> clone (JObj s) = Ok s' ->
  (exists r, c_merge ord coll (Some (JObj d)) (Some (JObj s)) = Ok (Some r) /\ wf r /\ merged coll (JObj d) s' r) \/
  (c_merge ord coll (Some (JObj d)) (Some (JObj s)) = Err /\ rejected coll (JObj d) s').
Proof. exact c_merge_obj. Qed.
Print Assumptions C08_merge_total.

Theorem C08_rules_good : good_rule merge_strict /\ good_rule merge_default /\ good_rule merge_override.
Proof. exact (conj good_strict (conj good_default good_override)). Qed.
Print Assumptions C08_rules_good.

Example C08_ex : clone (JObj ex_s) = Ok (JObj ex_s') /\
  c_merge (fun _ l => rev l) merge_default (Some (JObj ex_d)) (Some (JObj ex_s)) =
  Ok (Some (JObj [("info", JObj [("title", JStr "T"); ("version", JStr "1"); ("x", JNum (NFlt 7 0))]);
                  ("paths", JObj []); ("tags", JArr [JStr "a"])])) /\
  c_merge (fun _ l => rev l) merge_strict (Some (JObj ex_d)) (Some (JObj ex_s)) = Err.
Proof. repeat split. Qed.
Example C08_ex_wf : perm_oracle (fun (_ : list string) (l : list (string * json)) => rev l) /\ wf (JObj ex_d) /\ wf (JObj ex_s).
Proof. split; [intros ? ?; symmetry; apply Permutation_rev | cbn; tauto]. Qed.

(** ** C09 *)
Theorem C09_iteration_order_irrelevant : forall (ord1 ord2 : oracle) coll d src,
  perm_oracle ord1 -> perm_oracle ord2 -> good_rule coll -> wf (JObj d) -> wf (c_data src) ->
  c_merge ord1 coll (Some (JObj d)) src = c_merge ord2 coll (Some (JObj d)) src.
Proof. exact c_merge_order. Qed.
Print Assumptions C09_iteration_order_irrelevant.

(** ** C10 *)
Theorem C10_default_keeps_destination : forall (ord : oracle) d s s',
  perm_oracle ord -> wf (JObj d) -> wf (JObj s) -> clone (JObj s) = Ok (JObj s') ->
  exists r, c_merge ord merge_default (Some (JObj d)) (Some (JObj s)) = Ok (Some r) /\
    forall p v, leaf_at p (JObj d) v -> leaf_at p r v.
Proof. exact default_keeps. Qed.
Print Assumptions C10_default_keeps_destination.

Theorem C10_override_source_wins : forall (ord : oracle) d s s',
  perm_oracle ord -> wf (JObj d) -> wf (JObj s) -> clone (JObj s) = Ok (JObj s') ->
  exists r, c_merge ord merge_override (Some (JObj d)) (Some (JObj s)) = Ok (Some r) /\
    forall p v, leaf_at p (JObj s') v -> leaf_at p r v.
Proof. exact override_wins. Qed.
Print Assumptions C10_override_source_wins.

(** For documents whose numbers already are doubles (every decoded JSON document). *)
Theorem C10_self_merge : forall ord d, perm_oracle ord -> wf (JObj d) -> clone (JObj d) = Ok (JObj d) ->
  c_merge ord merge_default (Some (JObj d)) (Some (JObj d)) = Ok (Some (JObj d)) /\
  c_merge ord merge_override (Some (JObj d)) (Some (JObj d)) = Ok (Some (JObj d)).
Proof. exact merge_self. Qed.
Print Assumptions C10_self_merge.

Theorem C10_default_override_dual : forall (ord1 ord2 : oracle) d s,
  perm_oracle ord1 -> perm_oracle ord2 -> wf (JObj d) -> wf (JObj s) ->
  clone (JObj d) = Ok (JObj d) -> clone (JObj s) = Ok (JObj s) ->
  c_merge ord1 merge_default (Some (JObj d)) (Some (JObj s)) = c_merge ord2 merge_override (Some (JObj s)) (Some (JObj d)).
Proof. exact merge_dual. Qed.
Print Assumptions C10_default_override_dual.

Example C10_ex : wf (JObj ex_d) /\ wf (JObj ex_s') /\ clone (JObj ex_d) = Ok (JObj ex_d) /\ clone (JObj ex_s') = Ok (JObj ex_s').
Proof. cbn; tauto. Qed.

(** ** C11 *)
Theorem C11_strict_merge : forall (ord : oracle) d s s',
  perm_oracle ord -> wf (JObj d) -> wf (JObj s) -> clone (JObj s) = Ok (JObj s') ->
  (c_merge ord merge_strict (Some (JObj d)) (Some (JObj s)) = Err <->
    exists p x y, at_path p (JObj d) = Some x /\ at_path p (JObj s') = Some y /\ is_obj x && is_obj y = false) /\
  (forall r, c_merge ord merge_strict (Some (JObj d)) (Some (JObj s)) = Ok (Some r) ->
     forall p v, leaf_at p r v <-> leaf_at p (JObj d) v \/ leaf_at p (JObj s') v) /\
  c_merge ord merge_strict (Some (JObj d)) (Some (JObj s)) <> Panic /\
  c_merge ord merge_strict (Some (JObj d)) (Some (JObj s)) <> OutOfFuel.
Proof. exact strict_merge. Qed.
Print Assumptions C11_strict_merge.

Theorem C11_strict_commutes : forall (ord1 ord2 : oracle) d s,
  perm_oracle ord1 -> perm_oracle ord2 -> wf (JObj d) -> wf (JObj s) ->
  clone (JObj d) = Ok (JObj d) -> clone (JObj s) = Ok (JObj s) ->
  c_merge ord1 merge_strict (Some (JObj d)) (Some (JObj s)) = c_merge ord2 merge_strict (Some (JObj s)) (Some (JObj d)).
Proof. exact strict_comm. Qed.
Print Assumptions C11_strict_commutes.

Example C11_ex_disjoint :
  c_merge (fun _ l => l) merge_strict (Some (JObj [("a", JObj [("b", JBool true)])])) (Some (JObj [("a", JObj [("c", JBool true)])]))
  = Ok (Some (JObj [("a", JObj [("b", JBool true); ("c", JBool true)])])).
Proof. reflexivity. Qed.
Example C11_ex_equal_values_fail :
  c_merge (fun _ l => l) merge_strict (Some (JObj [("a", JBool true)])) (Some (JObj [("a", JBool true)])) = Err.
Proof. reflexivity. Qed.

(** ** C12 *)
Theorem C12_discovery_order_irrelevant : forall (ord1 ord2 : nat -> oracle) l1 l2,
  (forall n, perm_oracle (ord1 n)) -> (forall n, perm_oracle (ord2 n)) ->
  Forall (fun c => wf (c_data c)) l1 -> Permutation l1 l2 ->
  containers_merge ord1 merge_strict l1 = containers_merge ord2 merge_strict l2.
Proof. exact containers_merge_perm. Qed.
Print Assumptions C12_discovery_order_irrelevant.

Example C12_ex : let a := Some (JObj [("paths", JObj [("/a", JObj [])])]) in
  let b := Some (JObj [("paths", JObj [("/b", JObj [])])]) in
  containers_merge (fun _ _ l => l) merge_strict [a; b] =
  Ok (Some (JObj [("paths", JObj [("/a", JObj []); ("/b", JObj [])])])).
Proof. reflexivity. Qed.

(** ** C13 *)
Theorem C13_two_specs_never_merge : forall (ord : nat -> oracle) k l i j di dj,
  (forall n, perm_oracle (ord n)) -> Forall (fun c => wf (c_data c)) l -> i <> j ->
  nth_error l i = Some (Some (JObj di)) -> nth_error l j = Some (Some (JObj dj)) ->
  (exists v, oget k di = Some v /\ is_obj v = false) -> (exists v, oget k dj = Some v /\ is_obj v = false) ->
  ~ In NBad (numbers (JObj di)) -> ~ In NBad (numbers (JObj dj)) ->
  containers_merge ord merge_strict l = Err.
Proof. exact two_specs_fail. Qed.
Print Assumptions C13_two_specs_never_merge.

Example C13_ex : let doc := JObj [("openapi", JStr "3.0.3"); ("paths", JObj [])] in
  containers_merge (fun _ _ l => l) merge_strict [Some doc] = Ok (Some doc) /\
  containers_merge (fun _ _ l => l) merge_strict [Some doc; Some doc] = Err.
Proof. split; reflexivity. Qed.

(** ** C14 *)
Theorem C14_clone_keeps_all_but_numbers : forall j j', clone j = Ok j' -> same_but_numbers as_double j j'.
Proof. exact clone_same. Qed.
Print Assumptions C14_clone_keeps_all_but_numbers.

Theorem C14_clone_exact_below_2_53 : forall j j',
  (forall z, In (NInt z) (numbers j) -> (Z.abs z <= 2 ^ 53)%Z) ->
  clone j = Ok j' -> same_but_numbers same_value j j'.
Proof. exact clone_exact. Qed.
Print Assumptions C14_clone_exact_below_2_53.

Theorem C14_clone_large_refuted : exists z m e, clone (JNum (NInt z)) = Ok (JNum (NFlt m e)) /\ (m * 2 ^ e <> z)%Z.
Proof. exact clone_lossy. Qed.
Print Assumptions C14_clone_large_refuted.

Theorem C14_clone_idempotent : forall j j', clone j = Ok j' -> clone j' = Ok j'.
Proof. exact clone_idem. Qed.
Print Assumptions C14_clone_idempotent.

Theorem C14_nan_does_not_clone : forall v, In NBad (numbers v) <-> c_make v = Err.
Proof. exact make_setp_nan. Qed.
Print Assumptions C14_nan_does_not_clone.

Theorem C14_nan_clone_is_null : forall c, In NBad (numbers (c_data c)) -> c_clone c = Some JNull.
Proof. exact c_clone_nan. Qed.
Print Assumptions C14_nan_clone_is_null.

Theorem C14_nan_merge_does_nothing : forall ord coll c src, In NBad (numbers (c_data src)) -> c_merge ord coll c src = Ok c.
Proof. exact merge_nan_ignored. Qed.
Print Assumptions C14_nan_merge_does_nothing.

Example C14_ex : clone (JObj [("a", JArr [JNum (NInt (2 ^ 53)); JNum (NInt (-6)); JStr "x"])]) =
  Ok (JObj [("a", JArr [JNum (NFlt 1 53); JNum (NFlt (-3) 1); JStr "x"])]).
Proof. reflexivity. Qed.
Example C14_ex_nan : c_make (JArr [JNum NBad]) = Err. Proof. reflexivity. Qed.

(** ** C15 *)
Definition any_order (ord : list nat -> list (string * yval) -> list (string * yval)) : Prop :=
  forall p l, Permutation (ord p l) l.

Theorem C15_conversion : forall ord, any_order ord -> forall v, converted v (mmap ord [] v).
Proof. exact (fun ord H v => mmap_converted ord H v []). Qed.
Print Assumptions C15_conversion.

Theorem C15_no_interface_maps : forall ord, any_order ord -> forall v, no_imap (mmap ord [] v).
Proof. exact (fun ord H v => converted_no_imap v _ (mmap_converted ord H v [])). Qed.
Print Assumptions C15_no_interface_maps.

Theorem C15_result_is_json : forall ord, any_order ord -> forall v, exists j, to_json (mmap ord [] v) = Some j.
Proof. exact (fun ord H v => proj2 (to_json_iff _) (converted_no_imap v _ (mmap_converted ord H v []))). Qed.
Print Assumptions C15_result_is_json.

Theorem C15_twice_is_once : forall ord ord2, any_order ord -> forall v, mmap ord2 [] (mmap ord [] v) = mmap ord [] v.
Proof. exact (fun ord ord2 H v => no_imap_mmap ord2 _ [] (converted_no_imap v _ (mmap_converted ord H v []))). Qed.
Print Assumptions C15_twice_is_once.

Theorem C15_order_irrelevant : forall ord1 ord2, any_order ord1 -> any_order ord2 ->
  forall v, distinct_keys v -> mmap ord1 [] v = mmap ord2 [] v.
Proof. exact (fun ord1 ord2 H1 H2 v D => converted_unique v D _ _ (mmap_converted ord1 H1 v []) (mmap_converted ord2 H2 v [])). Qed.
Print Assumptions C15_order_irrelevant.

(** Keys 200 and "200" in one YAML map: one of the two values is lost, which one
    depends on the iteration order. *)
Theorem C15_colliding_keys_refuted : exists v ord1 ord2, any_order ord1 /\ any_order ord2 /\ mmap ord1 [] v <> mmap ord2 [] v.
Proof.
  exists (YMapI [(KOther 0 "200", YStr "a"); (KStr "200", YStr "b")]), (fun _ l => l), (fun _ l => rev l).
  split; [intros ? ?; reflexivity|]. split; [intros ? ?; symmetry; apply Permutation_rev | discriminate].
Qed.
Print Assumptions C15_colliding_keys_refuted.

Example C15_ex : mmap (fun _ l => l) [] (YMapS [("responses", YMapI [(KOther 0 "200", YSeq [YMapI [(KStr "a", YNull)]])])])
  = YMapS [("responses", YMapS [("200", YSeq [YMapS [("a", YNull)]])])].
Proof. reflexivity. Qed.

(** ** C16 *)
Theorem C16_setp : forall path v v' j, clone v = Ok v' ->
  (forall q, addresses true (dot_path path) (denull j) q ->
     exists r, c_setp path v (Some j) = Ok (Some r) /\
       lookup q r = Some v' /\ (forall q', apart q q' -> lookup q' r = lookup q' j) /\
       (~ In "-" (dot_path path) -> c_path path (Some r) = Some v')) /\
  ((forall q, ~ addresses true (dot_path path) (denull j) q) -> c_setp path v (Some j) = Err).
Proof. exact setp_spec. Qed.
Print Assumptions C16_setp.

Theorem C16_existing_location : forall q v v' j x,
  wf j -> keys_ok plain j -> q <> [] -> lookup q j = Some x -> clone v = Ok v' -> wf v' ->
  exists r, c_setp (render q) v (Some j) = Ok (Some r) /\ wf r /\ lookup q r = Some v' /\
    (forall q', apart q q' -> lookup q' r = lookup q' j).
Proof. exact setp_render. Qed.
Print Assumptions C16_existing_location.

Example C16_ex : let doc := JObj [("a", JObj [("b", JArr [JStr "x"; JStr "y"])])] in
  c_setp "a.b.1" (JStr "z") (Some doc) = Ok (Some (JObj [("a", JObj [("b", JArr [JStr "x"; JStr "z"])])])) /\
  c_setp "a.c.d" (JStr "z") (Some doc) =
    Ok (Some (JObj [("a", JObj [("b", JArr [JStr "x"; JStr "y"]); ("c", JObj [("d", JStr "z")])])])) /\
  c_setp "a.b.7" (JStr "z") (Some doc) = Err /\
  c_setp "a.b.0.q" (JStr "z") (Some doc) = Err.
Proof. repeat split. Qed.
Example C16_ex_addr : addresses true (dot_path "a.c.d") (JObj [("a", JObj [])]) [SKey "a"; SKey "c"; SKey "d"].
Proof. repeat constructor. Qed.

(** ** C17 *)
Theorem C17_extract_key : forall ord key j refs,
  (forall l, Permutation (ord l) l) -> wf j -> keys_ok plain j -> is_scalar j = false ->
  extract_key ord key (Some j) = Ok refs ->
  NoDup (keys refs) /\
  (forall p v, In (p, v) refs <->
     exists q s, p = render (q ++ [s]) /\ seg s = key /\ lookup (q ++ [s]) j = Some v /\ is_scalar v = true).
Proof. exact extract_key_spec. Qed.
Print Assumptions C17_extract_key.

Theorem C17_reported_path_reads_back : forall q j v,
  q <> [] -> keys_ok plain j -> lookup q j = Some v -> c_path (render q) (Some j) = Some v.
Proof. exact c_path_render. Qed.
Print Assumptions C17_reported_path_reads_back.

(** A dotted key: the reported path does not lead back to the value. *)
Theorem C17_dotted_key_refuted : exists j refs p v,
  extract_key (fun l => l) "$ref" (Some j) = Ok refs /\ In (p, v) refs /\ c_path p (Some j) = None.
Proof.
  exists (JObj [("application/vnd.api+json", JObj [("$ref", JStr "go://pkg#/T")])]).
  exists [("application/vnd.api+json.$ref", JStr "go://pkg#/T")], "application/vnd.api+json.$ref", (JStr "go://pkg#/T").
  repeat split. now left.
Qed.
Print Assumptions C17_dotted_key_refuted.

Example C17_ex : let doc := JObj [("a", JArr [JObj [("$ref", JStr "x")]; JObj [("$ref", JObj [("$ref", JStr "y")])]])] in
  wf doc /\ keys_ok plain doc /\
  extract_key (fun l => l) "$ref" (Some doc) = Ok [("a.0.$ref", JStr "x"); ("a.1.$ref.$ref", JStr "y")].
Proof. cbn. unfold plain. cbn. repeat split; try discriminate; try lia. Qed.

(** ** C18 *)
Theorem C18_dot_path_of_keys : forall ks, ks <> [] -> Forall (fun k => has_char "." k = false) ks ->
  dot_path (slice_to_dot_path ks) = ks.
Proof. exact dot_path_slice_plain. Qed.
Print Assumptions C18_dot_path_of_keys.

Theorem C18_what_is_read_back : forall ks, ks <> [] ->
  dot_path (slice_to_dot_path ks) = map (replace_all "." "~1") ks.
Proof. exact dot_path_slice. Qed.
Print Assumptions C18_what_is_read_back.

Theorem C18_dotted_keys_refuted : forall k, has_char "." k = true -> dot_path (slice_to_dot_path [k]) <> [k].
Proof. exact dot_key_lost. Qed.
Print Assumptions C18_dotted_keys_refuted.

Example C18_ex : dot_path (slice_to_dot_path ["a~1b"; "~0"; ""]) = ["a~1b"; "~0"; ""] /\
  dot_path (slice_to_dot_path ["paths"; "/pet.json"]) = ["paths"; "/pet~1json"].
Proof. split; reflexivity. Qed.

(** ** C19 *)
Theorem C19_emission : forall ord srt1 srt2 order m,
  (forall l, Permutation (ord l) l) -> is_item_sort srt1 -> is_item_sort srt2 -> NoDup order -> sorted m ->
  exists u, sort_entries ord srt1 srt2 order m = u ++ by_order order m /\
            Permutation u (filter (fun e => negb (listed order e)) m).
Proof. exact sort_entries_shape. Qed.
Print Assumptions C19_emission.

Theorem C19_unique_with_one_unlisted : forall ord srt1 srt2 ord' srt1' srt2' order m,
  (forall l, Permutation (ord l) l) -> is_item_sort srt1 -> is_item_sort srt2 ->
  (forall l, Permutation (ord' l) l) -> is_item_sort srt1' -> is_item_sort srt2' -> NoDup order -> sorted m ->
  length (filter (fun e => negb (listed order e)) m) <= 1 ->
  sort_entries ord srt1 srt2 order m = sort_entries ord' srt1' srt2' order m.
Proof. exact sort_entries_unique. Qed.
Print Assumptions C19_unique_with_one_unlisted.

(** oapi.go:24-29. *)
Definition oapi_order : list string := ["openapi"; "info"; "components"; "paths"].
(** A correct sort: insertion sort by index. *)
Fixpoint ins (x : map_item) (l : list map_item) : list map_item :=
  match l with
  | [] => [x]
  | y :: r => if (mi_index x <=? mi_index y)%Z then x :: l else y :: ins x r
  end.
Definition isort (l : list map_item) : list map_item := fold_right ins [] l.
Lemma ins_perm x l : Permutation (ins x l) (x :: l).
Proof.
  induction l as [|y l IH]; cbn; [reflexivity|]. destruct (_ <=? _)%Z; [reflexivity|].
  rewrite IH. constructor.
Qed.
Lemma ins_sorted x l : StronglySorted item_le l -> StronglySorted item_le (ins x l).
Proof.
  induction 1 as [|y l HS IH HF]; cbn; [repeat constructor|]. destruct (Z.leb_spec (mi_index x) (mi_index y)).
  - constructor; [constructor; assumption|]. constructor; [exact H|].
    eapply Forall_impl; [|exact HF]. unfold item_le. intros; lia.
  - constructor; [exact IH|]. eapply Permutation_Forall; [symmetry; apply ins_perm|].
    constructor; [unfold item_le; lia | exact HF].
Qed.
Lemma isort_ok : is_item_sort isort.
Proof.
  intro l. induction l as [|x l [IH1 IH2]]; cbn; [split; constructor|]. split.
  - rewrite ins_perm. now constructor.
  - now apply ins_sorted.
Qed.

(** With two unlisted keys the emitted order is not determined. *)
Theorem C19_two_unlisted_refuted : exists m ord1 ord2, sorted m /\
  (forall l, Permutation (ord1 l) l) /\ (forall l, Permutation (ord2 l) l) /\ is_item_sort isort /\
  sort_entries ord1 isort isort oapi_order m <> sort_entries ord2 isort isort oapi_order m.
Proof.
  exists [("openapi", JStr "3.0.3"); ("servers", JArr []); ("tags", JArr [])], (fun l => l), (fun l => rev l).
  split; [cbn; auto|]. split; [reflexivity|]. split; [intro; symmetry; apply Permutation_rev|].
  split; [exact isort_ok | discriminate].
Qed.
Print Assumptions C19_two_unlisted_refuted.

Example C19_ex : NoDup oapi_order /\ sort_entries (fun l => rev l) isort isort oapi_order
   [("components", JObj []); ("info", JObj []); ("openapi", JStr "3.0.3"); ("paths", JObj []); ("tags", JArr [])] =
   [("tags", JArr []); ("openapi", JStr "3.0.3"); ("info", JObj []); ("components", JObj []); ("paths", JObj [])].
Proof. split; [repeat constructor; cbn; intuition discriminate | reflexivity]. Qed.
