(** C105: what is not needed does not matter to Resolve, and to Scan. *)
From Coq Require Import String Ascii List Bool Arith ZArith Lia Permutation.
From Verif Require Import GoStr Json Gabs Container Url Pointer Spec_Loc Spec_Resolve Spec_ResolveOk Path Resolver ResolverExpandX ScanFn Pkgs Specs Types Root SchemaJson Scan P_Resolver P_At P_ScanAll P_Kept P_Adds P_ResolveOk UnneededFacts.
Import ListNotations.
Local Open Scope string_scope.
Local Open Scope nat_scope.
Local Open Scope list_scope.

(** Resolve depends only on what the pointers it is asked for stand for, and on
    the exports of these: two lookups, and two lists of exports, that agree on
    whatever the document refers to, directly or through other entities, have the
    same outcome - document, error, panic. *)
Theorem C105_only_what_is_referred_to : forall ord es es' fn fn' fuel doc, (forall pos l, Permutation (ord pos l) l) -> wf doc -> keys_ok plain doc ->
  (forall p x, asked doc fn p -> fn p = Ok x -> wf x /\ keys_ok plain x) ->
  (forall p, asked doc fn p -> fn' p = fn p /\ exports_get es' p = exports_get es p) ->
  resolve ord es' fn' fuel (Some doc) = resolve ord es fn fuel (Some doc).
Proof. intros ord es es' fn fn' fuel doc. exact (resolve_asked ord doc es es' fn fn' fuel). Qed.
Print Assumptions C105_only_what_is_referred_to.
(** A resolution that succeeds is not changed by answers to what was unknown. *)
Theorem C105_more_answers : forall ord es fn fn' fuel c r, (forall p x, fn p = Ok x -> fn' p = Ok x) ->
  resolve ord es fn fuel c = Ok r -> resolve ord es fn' fuel c = Ok r.
Proof. intros ord es fn fn' fuel c r. exact (resolve_more ord es fn fn' fuel c r). Qed.
Print Assumptions C105_more_answers.
(** Two runs of Scan with options that differ in overrides only, and these only in
    more overrides for pointers that are no Go pointers: if the first builds a
    document, the second builds the same. *)
Theorem C105_unneeded_overrides : forall (F : Type) (pf : string -> option F) (zero : F) (fnum : F -> num) (rs : string -> option (schema F)) a ch de l l' o o' d e,
  apply_opts l no_options = Ok o -> apply_opts l' no_options = Ok o' ->
  op_dir o' = op_dir o -> op_root o' = op_root o -> op_defops o' = op_defops o ->
  (forall k, oget k (op_override o') = oget k (op_override o) \/ oget k (op_override o) = None /\ has_prefix "go:" k = false) ->
  scan pf zero fnum rs a ch de l = Ok (Some d, e) -> scan pf zero fnum rs a ch de l' = Ok (Some d, e).
Proof. intros F pf zero fnum rs a ch de l l' o o' d e. exact (scan_unneeded pf zero fnum rs a ch de l l' o o' d e). Qed.
Print Assumptions C105_unneeded_overrides.

(** *** Examples *)
(** One more entity and one more export, neither of which is referred to. *)
Definition n_fn (p : ptr) : res json := if String.eqb (ptr_string p) "go://p#/C" then Ok (JObj [("type", JStr "object")]) else ex_fn p.
Definition n_es : list export := {| e_ptr := ex_ptr "go://p#/C"; e_kind := KSchema; Resolver.e_name := "C" |} :: ex_es.
Example C105_example : (forall ord fuel, (forall pos l, Permutation (ord pos l) l) -> resolve ord n_es n_fn fuel (Some ex_doc) = resolve ord ex_es ex_fn fuel (Some ex_doc)) /\
  n_fn (ex_ptr "go://p#/C") <> ex_fn (ex_ptr "go://p#/C") /\ exports_get n_es (ex_ptr "go://p#/C") <> exports_get ex_es (ex_ptr "go://p#/C") /\
  exists r, resolve (fun _ l => l) ex_es ex_fn 10 (Some ex_doc) = Ok (Some r) /\ lookup (comp_loc "schemas" "A") r <> None.
Proof.
  split; [|split; [discriminate|]; split; [discriminate|]].
  - intros ord fuel Ho. apply C105_only_what_is_referred_to; [exact Ho | exact (proj1 ex_doc_tidy) | exact (proj1 (proj2 ex_doc_tidy)) | |].
    + intros p x _ E. unfold ex_fn in E. destruct (String.eqb (ptr_string p) "go://p#/A"); [injection E as <-; exact (conj (proj1 ex_A_tidy) (proj1 (proj2 ex_A_tidy)))|].
      destruct (String.eqb (ptr_string p) "go://p#/B"); [injection E as <-; exact (conj (proj1 ex_B_tidy) (proj1 (proj2 ex_B_tidy))) | discriminate].
    + intros p A. apply ex_asked in A. unfold n_fn, n_es, exports_get. cbn [find e_ptr]. change (ptr_string (ex_ptr "go://p#/C")) with "go://p#/C". destruct A as [-> | ->]; split; reflexivity.
  - eexists. split; [vm_compute; reflexivity | discriminate].
Qed.
Definition k_scan_v l := scan no_float 0%Z NInt std_mapping (v_around v_cmd v_doc) k_choices w_depths l.
(** A scan with an override for a pointer of another kind: nothing refers to it. *)
Definition n_over : list opt := [WithOverride [("http://ex.org#/X", JObj [("type", JStr "string")])]].
Example C105_example_scan : exists d, k_scan_v [] = Ok (Some d, true) /\ k_scan_v n_over = Ok (Some d, true) /\
  lookup (comp_loc "schemas" "Pet" ++ [SKey "type"]) d = Some (JStr "object").
Proof.
  eexists. assert (E : k_scan_v [] = Ok (Some _, true)) by (vm_compute; reflexivity). split; [exact E|]. split; [|reflexivity].
  refine (C105_unneeded_overrides Z no_float 0%Z NInt std_mapping (v_around v_cmd v_doc) k_choices w_depths [] n_over _ _ _ true eq_refl eq_refl eq_refl eq_refl eq_refl _ E).
  intro k. cbn. destruct (String.eqb_spec k "http://ex.org#/X") as [-> |N]; [right; auto | left].
  cbn. destruct (String.eqb_spec "http://ex.org#/X" k); [congruence | reflexivity].
Qed.
(** An override for a Go pointer that is referred to does matter. *)
Theorem C105_go_override_refuted : exists a l l' o o' d d', apply_opts l no_options = Ok o /\ apply_opts l' no_options = Ok o' /\ op_dir o' = op_dir o /\ op_root o' = op_root o /\ op_defops o' = op_defops o /\
  op_override o = [] /\ scan no_float 0%Z NInt std_mapping a k_choices w_depths l = Ok (Some d, true) /\ scan no_float 0%Z NInt std_mapping a k_choices w_depths l' = Ok (Some d', true) /\ d <> d'.
Proof.
  exists (v_around v_cmd v_doc), [], [WithOverride [("go://ex.org/m/api#/Pet", JObj [("type", JStr "string")])]]. do 4 eexists. do 6 (split; [reflexivity|]). split; [vm_compute; reflexivity|]. split; [vm_compute; reflexivity | discriminate].
Qed.
