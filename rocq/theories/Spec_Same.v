(** When the document Scan builds does not depend on the order of maps. *)
From Coq Require Import String List Bool ZArith Permutation.
From Verif Require Import Route GoStr Json Gabs Container Url Pointer Spec_Ptr Pkgs Path Spec_Clone Spec_Merge Spec_Loc Spec_Root
  Tag Types Spec_Types Spec_Schema Scan Spec_Scan Spec_Kept Spec_Ends Spec_ScanOk.
Import ListNotations.
Local Open Scope string_scope.
Local Open Scope nat_scope.
Local Open Scope list_scope.

(** Schemas only ever refer to structs, and to types that contain themselves as an element. *)
Definition by_reference (env : genv) (T : gty) : Prop :=
  (exists fs, T = TStruct fs) \/ exists e t, elem_step env T e /\ elem_reach env e t /\ under env t = T.
(** Type T is found at p, and nowhere at a shorter fragment. *)
Definition nearest (a : around) (ss : list source) (roots : list nat) (T : gty) (p : ptr) : Prop :=
  known_at a ss roots T (ptr_string p) /\ ptr_parse (ptr_string p) = Ok p /\
  forall p', known_at a ss roots T (ptr_string p') -> ptr_parse (ptr_string p') = Ok p' -> length (p_frag p) <= length (p_frag p').
(** There is only one place that a schema can use to refer to a type. *)
Definition one_place (a : around) (ss : list source) (roots : list nat) : Prop :=
  forall T p p', by_reference (ar_env a) T -> nearest a ss roots T p -> nearest a ss roots T p' -> ptr_string p = ptr_string p'.
(** No operation of the document made of the files and the root configuration
    is selected by two of the patterns. *)
Definition one_default (a : around) (o : options) (ss : list source) (roots : list nat) : Prop :=
  forall d1 d2 path m v, files_in_order a ss roots d1 -> composed (op_root o) d1 d2 -> operation path m d2 v ->
    length (chosen (path, m) (op_defops o)) <= 1.
(** The place with these keys is neither inside a component exported by a
    visited package, nor is such a component inside it. *)
Definition outside_exports (a : around) (ss : list source) (roots : list nat) (k : list string) : Prop :=
  forall s n, visited a ss roots s -> exports_name s n -> ~ is_prefix ["components"; "schemas"; n] k /\ ~ is_prefix k ["components"; "schemas"; n].
