(** What Scan needs in order to come to an end without crashing. *)
From Coq Require Import String Ascii List Bool Arith ZArith Permutation.
From Verif Require Import Route GoStr Json Url Pointer Spec_Ptr Path Cmds Spec_Cmds Pkgs Spec_Pkgs Spec_Clone Spec_Loc Spec_Root Spec_Resolve Specs Spec_Specs Tag Spec_Tag Types Spec_Types Spec_Schema Scan Spec_Scan Spec_Kept.
Import ListNotations.
Local Open Scope string_scope.
Local Open Scope nat_scope.
Local Open Scope list_scope.

(** A call that returns: with a result or with an error. *)
Definition returns {A} (r : res A) : Prop := (exists v, r = Ok v) \/ r = Err.

(** A pointer that a schema command or a reference of a specification file gives. *)
Definition given_ptr (a : around) (ss : list source) (roots : list nat) (p : ptr) : Prop :=
  (exists s n, visited a ss roots s /\ exports_type s n p) \/
  exists s doc q t, visited a ss roots s /\ spec_doc_of a s doc /\ lookup (q ++ [SKey "$ref"]) doc = Some (JStr t) /\
    exists p0, ptr_parse t = Ok p0 /\ p = abs_ptr (so_path s) p0.
(** The object such a pointer starts at, in a visited package. *)
Definition starts_at (a : around) (ss : list source) (roots : list nat) (ob : gobj) : Prop :=
  exists s p h r, visited a ss roots s /\ given_ptr a ss roots p /\ u_scheme (p_url p) = "go" /\ pkg_path p = so_types s /\ p_frag p = h :: r /\ so_scope s h = Some ob.
(** A text that names a location below such an object. *)
Definition known_text (a : around) (ss : list source) (roots : list nat) (txt : string) : Prop :=
  exists ob pk T, starts_at a ss roots ob /\ o_pkg ob = Some pk /\ location_of (ar_env a) pk (o_name ob) (o_type ob) T txt.
(** A pointer Scan can deal with: overridden, or not to Go (an error), or known. *)
Definition manageable (a : around) (o : options) (ss : list source) (roots : list nat) (p : ptr) : Prop :=
  oget (ptr_string p) (op_override o) <> None \/ u_scheme (p_url p) <> "go" \/ known_text a ss roots (ptr_string p).

(** Given pointers of one text lead to the same place. *)
Definition one_meaning (a : around) (ss : list source) (roots : list nat) : Prop :=
  forall p p', given_ptr a ss roots p -> given_ptr a ss roots p' -> ptr_string p = ptr_string p' ->
    u_scheme (p_url p) = u_scheme (p_url p') /\ pkg_path p = pkg_path p' /\ p_frag p = p_frag p'.
(** The reference text t, found in a file of package pkg, becomes pointer p. *)
Definition leads_to (pkg t : string) (p : ptr) : Prop := exists t', made_absolute pkg t t' /\ ptr_parse t' = Ok p /\ is_external p = true.
(** Every reference of the files, the root configuration and the overrides that
    leads out of its document can be dealt with. *)
Definition references_manageable (a : around) (o : options) (ss : list source) (roots : list nat) : Prop :=
  (forall s doc q t p, visited a ss roots s -> spec_doc_of a s doc -> lookup (q ++ [SKey "$ref"]) doc = Some (JStr t) -> leads_to (so_path s) t p -> manageable a o ss roots p) /\
  (forall q t p, ext_ref (op_root o) q t p -> manageable a o ss roots p) /\
  (forall k j q t p, In (k, j) (op_override o) -> ext_ref j q t p -> manageable a o ss roots p).
(** The tags of the structs that can be met are not only blanks. *)
Definition tags_readable {F} (pf : string -> option F) (a : around) (ss : list source) : Prop :=
  forall fs fs' i t, found_type (ar_env a) ss (TStruct fs) -> looked_at pf (ar_env a) fs fs' -> In (i, t) fs' -> f_tag i = "" \/ blank (f_tag i) = false.
(** The packages: distinct import paths, comments with their two-byte marker, exported names that are plain. *)
Definition packages_sound (a : around) (ss : list source) (roots : list nat) : Prop :=
  NoDup (map so_path ss) /\ (forall s, visited a ss roots s -> import_path (so_path s) /\ Forall (Forall (fun t => 2 <= String.length t)) (so_groups s)) /\
  forall s name, visited a ss roots s -> exports_name s name -> good_name name.
(** The files can be read or not, and their sections are objects or lists. *)
Definition files_sound (a : around) (ss : list source) (roots : list nat) : Prop :=
  (forall path x, ar_files a path = Some x -> returns x) /\ forall s doc, visited a ss roots s -> spec_doc_of a s doc -> usual_root doc.
(** The objects the pointers start at belong to a package, and no predeclared type (error) is met below them. *)
Definition starts_sound (a : around) (ss : list source) (roots : list nat) : Prop :=
  forall ob, starts_at a ss roots ob -> o_pkg ob <> None /\ ~ reaches_universe (ar_env a) (o_type ob).
(** The default operations: usual ones, under patterns that can be matched. *)
Definition defaults_sound (o : options) : Prop :=
  Forall ok_default (op_defops o) /\ forall pat op m path, In (pat, op) (op_defops o) -> returns (route_match pat m path).
