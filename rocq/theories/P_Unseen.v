(** C101: what is not visited does not matter. *)
From Coq Require Import String Ascii List Bool Arith ZArith Lia Permutation.
From Verif Require Import GoStr Json Gabs Container Url Pointer Spec_Loc Spec_Resolve Path Pkgs Spec_Pkgs Specs Types Root SchemaJson Scan P_ScanAll P_Kept P_Adds Spec_Unseen ScanUnseen.
Import ListNotations.
Local Open Scope string_scope.
Local Open Scope nat_scope.
Local Open Scope list_scope.

(** Two runs of Scan with the same options, in surroundings that are the same as
    far as a run sees them, have the same outcome: document, error, panic.  (No
    other condition: also for malformed files, broken import graphs, and any
    order of the maps.) *)
Theorem C101_unseen_does_not_matter : forall (F : Type) (pf : string -> option F) (zero : F) (fnum : F -> num) (rs : string -> option (schema F)) ch de a a' l,
  (forall o, apply_opts l no_options = Ok o -> op_dir o = None -> ar_cwd a' = ar_cwd a) ->
  (forall o dir, apply_opts l no_options = Ok o -> (op_dir o = Some dir \/ op_dir o = None /\ ar_cwd a = Ok dir) -> same_around a a' dir) ->
  scan pf zero fnum rs a' ch de l = scan pf zero fnum rs a ch de l.
Proof. intros F pf zero fnum rs ch de a a' l. exact (scan_unseen pf zero fnum rs ch de a a' l). Qed.
Print Assumptions C101_unseen_does_not_matter.

(** *** Examples *)
(** Package api imports fmt, of the standard library.  In the one world fmt has
    nothing; in the other it has a schema command, a type Pet and a specification
    file, there is a specification file in the directory above api, and api's
    oapi.json is a document without "openapi". *)
Definition u_api : source :=
  {| so_pkg := {| g_path := "ex.org/m/api"; g_errors := 0; g_imports := [("fmt", Some 1)] |}; so_types := "ex.org/m/api"; so_groups := v_cmd; so_module := so_module (w_source []); so_scope := so_scope (w_source []) |}.
Definition u_fmt (groups : list (list string)) (scope : string -> option gobj) : source :=
  {| so_pkg := {| g_path := "fmt"; g_errors := 0; g_imports := [] |}; so_types := "fmt"; so_groups := groups; so_module := None; so_scope := scope |}.
Definition u_around (fmt : source) (files : filesys) : around :=
  {| ar_load := fun d => if String.eqb d "/src/api" then Ok ([u_api; fmt], [Some 0]) else Err; ar_cwd := Ok "/src/api"; ar_gopath := "/go"; ar_missing := fun _ => true; ar_files := files; ar_std := fun p => String.eqb p "fmt"; ar_env := w_env |}.
Definition u_files : filesys := fun p => if String.eqb p "/src/api/oapi.yaml" then Some (Ok (Some v_doc)) else if String.eqb p "/src/api/oapi.json" then Some (Ok (Some (JObj [("title", JStr "x")])))
  else if String.eqb p "/src/oapi.yaml" then Some (Ok (Some v_doc)) else if String.eqb p "/go/fmt/oapi.yaml" then Some Err else None.
Definition u_one : around := u_around (u_fmt [] (fun _ => None)) (k_files v_doc None).
Definition u_two : around := u_around (u_fmt [["//openapi:schema Pot"]] (so_scope (w_source []))) u_files.
Example C101_example : (forall dir, same_around u_one u_two dir) /\
  (forall l, scan no_float 0%Z NInt std_mapping u_two k_choices w_depths l = scan no_float 0%Z NInt std_mapping u_one k_choices w_depths l) /\
  exists d, scan no_float 0%Z NInt std_mapping u_two k_choices w_depths [] = Ok (Some d, true) /\ lookup (comp_loc "schemas" "Pet" ++ [SKey "type"]) d = Some (JStr "object") /\
    lookup (comp_loc "schemas" "Pot") d = None /\ lookup [SKey "title"] d = None.
Proof.
  assert (G : forall dir, same_around u_one u_two dir).
  { intro dir. split; [reflexivity|]. split; [reflexivity|]. unfold u_one, u_two, u_around. cbn [ar_load]. destruct (String.eqb dir "/src/api"); [right | left; split; [reflexivity | discriminate]].
    eexists. eexists. eexists. split; [reflexivity|]. split; [reflexivity|]. split; [reflexivity|]. cbn [ar_std ar_gopath ar_missing ar_files].
    intros i s (r & [[= <-]|[]] & R) En. assert (i = 0) as ->.
    { assert (Fmt : forall j, ~ reach (fun p => String.eqb p "fmt") (map so_pkg [u_api; u_fmt [] (fun _ => None)]) 1 j) by (intros j X; inversion X as [? N|? ? ? N]; subst; destruct N as (p & E & S); cbn in E; injection E as <-; discriminate S).
      inversion R as [|? j ? _ (p & path & E & I) R']; subst; [reflexivity|]. cbn in E. injection E as <-. destruct I as [[= _ <-]|[]]. now elim (Fmt i). }
    cbn in En. injection En as <-. split; [reflexivity|]. split; [reflexivity|]. intros d name E I. vm_compute in E. injection E as <-. destruct I as [<-|[<-|[<-|[]]]].
    - left. reflexivity.
    - left. reflexivity.
    - right. split; [left; reflexivity|]. right. eexists. split; [reflexivity|]. intros m v [= <-]. discriminate. }
  split; [exact G|]. split.
  - intro l. apply C101_unseen_does_not_matter; [reflexivity | intros; apply G].
  - eexists. split; [vm_compute; reflexivity|]. split; [reflexivity|]. split; reflexivity.
Qed.
(** A file of a visited package that is no specification does matter if it
    cannot be read: the scan fails. *)
Theorem C101_unreadable_refuted : exists a a' d, scan no_float 0%Z NInt std_mapping a k_choices w_depths [] = Ok (Some d, true) /\ scan no_float 0%Z NInt std_mapping a' k_choices w_depths [] = Ok (None, true) /\
  (forall p, p <> "/src/api/oapi.json" -> ar_files a' p = ar_files a p) /\ ar_files a "/src/api/oapi.json" = None /\ ar_files a' "/src/api/oapi.json" = Some Err /\
  ar_load a' = ar_load a /\ ar_cwd a' = ar_cwd a /\ ar_gopath a' = ar_gopath a /\ ar_missing a' = ar_missing a /\ ar_std a' = ar_std a /\ ar_env a' = ar_env a.
Proof.
  exists u_one, (u_around (u_fmt [] (fun _ => None)) (fun p => if String.eqb p "/src/api/oapi.json" then Some Err else k_files v_doc None p)). eexists.
  split; [vm_compute; reflexivity|]. split; [vm_compute; reflexivity|]. split.
  - intros p N. cbn. destruct (String.eqb_spec p "/src/api/oapi.json"); [contradiction | reflexivity].
  - repeat (split; [reflexivity|]). reflexivity.
Qed.
