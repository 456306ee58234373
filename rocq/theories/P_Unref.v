(** C104: type declarations nothing refers to do not matter. *)
From Coq Require Import String Ascii List Bool Arith ZArith Lia Permutation.
From Verif Require Import GoStr Json Gabs Container Url Pointer Spec_Loc Spec_Resolve Path Pkgs Spec_Pkgs Specs Types Root SchemaJson Scan P_ScanAll P_Kept P_Adds Spec_Unseen Spec_Unref UnrefFacts.
Import ListNotations.
Local Open Scope string_scope.
Local Open Scope nat_scope.
Local Open Scope list_scope.

(** Two runs of Scan with the same options, in surroundings that differ in type
    declarations only, and not in those that objects of visited packages refer to,
    have the same outcome: document, error, panic. *)
Theorem C104_unreferred_does_not_matter : forall (F : Type) (pf : string -> option F) (zero : F) (fnum : F -> num) (rs : string -> option (schema F)) ch de a a' l,
  (forall m, Permutation (ch_points ch m) m) -> same_but_types a a' ->
  (forall dir k, starts_in a l dir -> referred a dir k -> nth_error (ar_env a') k = nth_error (ar_env a) k) ->
  scan pf zero fnum rs a' ch de l = scan pf zero fnum rs a ch de l.
Proof. intros F pf zero fnum rs ch de a a' l. exact (scan_unref pf zero fnum rs ch de a a' l). Qed.
Print Assumptions C104_unreferred_does_not_matter.

(** Adding declarations: nothing that was there refers to them. *)
Theorem C104_added_declarations : forall (F : Type) (pf : string -> option F) (zero : F) (fnum : F -> num) (rs : string -> option (schema F)) ch de a a' l more,
  (forall m, Permutation (ch_points ch m) m) -> same_but_types a a' -> ar_env a' = ar_env a ++ more ->
  (forall dir k, starts_in a l dir -> referred a dir k -> k < length (ar_env a)) ->
  scan pf zero fnum rs a' ch de l = scan pf zero fnum rs a ch de l.
Proof.
  intros F pf zero fnum rs ch de a a' l more Hch Hs E H. apply C104_unreferred_does_not_matter; [exact Hch | exact Hs|]. intros dir k D R. rewrite E. now apply nth_error_app1, (H dir).
Qed.
Print Assumptions C104_added_declarations.

(** *** Examples *)
(** Pet has an exported field that is a map with Key as its keys, and an
    unexported field of type Hidden; both may be anything. *)
Definition r_env (hidden key : gty) (more : list decl) : genv :=
  [{| d_pkg := Some "ex.org/m/api"; d_name := "Pet"; d_under := TStruct [({| f_name := "ID"; f_tag := ""; f_emb := false |}, TBasic KString);
     ({| f_name := "hidden"; f_tag := ""; f_emb := false |}, TNamed 1); ({| f_name := "Names"; f_tag := ""; f_emb := false |}, TMap (TNamed 2) (TBasic KString))] |};
   {| d_pkg := Some "ex.org/m/api"; d_name := "Hidden"; d_under := hidden |}; {| d_pkg := Some "ex.org/m/api"; d_name := "Key"; d_under := key |}] ++ more.
Definition r_around (env : genv) : around :=
  let a := v_around v_cmd v_doc in
  {| ar_load := ar_load a; ar_cwd := ar_cwd a; ar_gopath := ar_gopath a; ar_missing := ar_missing a; ar_files := ar_files a; ar_std := ar_std a; ar_env := env |}.
Lemma r_refers hidden key more dir k : referred (r_around (r_env hidden key more)) dir k -> k = 0.
Proof.
  intros (ss & roots & i & s & name & o & E & _ & En & Eo & R). cbn in E. destruct (String.eqb dir "/src/api"); [|discriminate]. injection E as <- _.
  destruct i as [|i]; cbn in En; [|destruct i; discriminate]. injection En as <-. cbn in Eo. destruct (String.eqb name "Pet"); [|discriminate]. injection Eo as <-. cbn [o_type] in R.
  induction R as [k P|j d k R IH E P]; [inversion P; reflexivity|]. subst j. cbn in E. injection E as <-. cbn [d_under] in P.
  inversion P as [| | | | | |fs i e x I Ex P']; subst. destruct I as [[= <- <-]|[[= <- <-]|[[= <- <-]|[]]]]; [inversion P' | discriminate Ex | inversion P' as [| | | |kk e x P''| |]; subst; inversion P''].
Qed.
Example C104_example : forall hidden key more,
  scan no_float 0%Z NInt std_mapping (r_around (r_env hidden key more)) k_choices w_depths [] = scan no_float 0%Z NInt std_mapping (r_around (r_env (TBasic KInt) (TBasic KString) [])) k_choices w_depths [] /\
  exists d, scan no_float 0%Z NInt std_mapping (r_around (r_env hidden key more)) k_choices w_depths [] = Ok (Some d, true) /\
    lookup (comp_loc "schemas" "Pet" ++ [SKey "properties"; SKey "Names"; SKey "additionalProperties"; SKey "type"]) d = Some (JStr "string").
Proof.
  intros hidden key more. assert (E : scan no_float 0%Z NInt std_mapping (r_around (r_env hidden key more)) k_choices w_depths [] = scan no_float 0%Z NInt std_mapping (r_around (r_env (TBasic KInt) (TBasic KString) [])) k_choices w_depths []).
  { apply C104_unreferred_does_not_matter; [intro m; apply Permutation_refl | repeat split|]. intros dir k _ R. apply r_refers in R as ->. reflexivity. }
  split; [exact E|]. rewrite E. eexists. split; [vm_compute; reflexivity | reflexivity].
Qed.
(** A declaration that is referred to does matter. *)
Theorem C104_referred_refuted : exists a a' d d', same_but_types a a' /\ scan no_float 0%Z NInt std_mapping a k_choices w_depths [] = Ok (Some d, true) /\
  scan no_float 0%Z NInt std_mapping a' k_choices w_depths [] = Ok (Some d', true) /\ d <> d' /\ (forall k, k <> 0 -> nth_error (ar_env a') k = nth_error (ar_env a) k).
Proof.
  exists (r_around w_env), (r_around [{| d_pkg := Some "ex.org/m/api"; d_name := "Pet"; d_under := TStruct [] |}]). eexists. eexists. split; [repeat split|].
  split; [vm_compute; reflexivity|]. split; [vm_compute; reflexivity|]. split; [discriminate|]. intros [|k] N; [contradiction|]. now destruct k.
Qed.
