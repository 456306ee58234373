(** When the exported components, too, do not depend on the order of maps. *)
From Coq Require Import String List Bool ZArith.
From Verif Require Import Route GoStr Json Gabs Container Url Pointer Spec_Ptr Pkgs Path Spec_Clone Spec_Merge Spec_Loc Spec_Resolve Spec_Root
  Tag Types Spec_Types Spec_Schema Scan Spec_Scan Spec_Kept Spec_Ends Spec_ScanOk Spec_Same.
Import ListNotations.
Local Open Scope string_scope.
Local Open Scope list_scope.

Section Leads.
  Context {F : Type} (pf : string -> option F) (a : around) (o : options) (ss : list source) (roots : list nat).
  (** What a pointer of text t stands for refers to a pointer of text t': an
      override with such a reference, or else a type whose schema refers to a
      type that is found nearest at t'. *)
  Definition leads_to (t t' : string) : Prop :=
    (exists x q r p, oget t (op_override o) = Some x /\ ext_ref x q r p /\ t' = ptr_string p) \/
    (oget t (op_override o) = None /\ exists T T' p, known_at a ss roots T t /\ refers pf a T T' /\ by_reference (ar_env a) T' /\ nearest a ss roots T' p /\ t' = ptr_string p).
  Inductive leads_far (t : string) : string -> Prop :=
  | lf_one t' : leads_to t t' -> leads_far t t'
  | lf_more t' t'' : leads_far t t' -> leads_to t' t'' -> leads_far t t''.
  (** A visited package exports the pointer of text t. *)
  Definition exported_text (t : string) : Prop := exists s n p, visited a ss roots s /\ exports_type s n p /\ t = ptr_string p.
  (** What is on a cycle of references with something exported is exported. *)
  Definition exports_cycles : Prop := forall t t', exported_text t -> leads_far t t' -> leads_far t' t -> exported_text t'.
  (** No two pointers are exported under one name. *)
  Definition names_apart : Prop := forall s s' n p p', visited a ss roots s -> visited a ss roots s' -> exports_type s n p -> exports_type s' n p' -> ptr_string p = ptr_string p'.
End Leads.
