(** Where the parts of the document that Scan builds come from. *)
From Coq Require Import String Ascii List Bool Arith ZArith.
From Verif Require Import GoStr Json Url Pointer Path Route Spec_Clone Spec_Loc Spec_Specs Spec_Kept Spec_Root Root Scan Resolver.
Import ListNotations.
Local Open Scope string_scope.
Local Open Scope nat_scope.
Local Open Scope list_scope.

(** What a value x of a file of package pkg (of the configuration, when pkg is
    None) becomes, at location q of the document, when it is not part of an
    object that is put together from several places: numbers are converted to
    double precision; the text of a reference of a file is made absolute; an array
    stays an array (its elements are at locations of their own). *)
Definition written (pkg : option string) (q : loc) (x v : json) : Prop :=
  match x with
  | JObj _ => False
  | JArr _ => exists l, v = JArr l
  | JNum n => exists n', v = JNum n' /\ as_double n n'
  | JStr t => match pkg with
              | Some p => (exists q0 t', q = q0 ++ [SKey "$ref"] /\ made_absolute p t t' /\ v = JStr t') \/ (forall q0, q <> q0 ++ [SKey "$ref"]) /\ v = JStr t
              | None => v = JStr t
              end
  | _ => v = x
  end.
(** An object of a file or of the configuration is at q0, and holds a reference
    to something outside the document. *)
Definition refers_outside (a : around) (o : options) (ss : list source) (roots : list nat) (q0 : loc) : Prop :=
  exists t p, ptr_parse t = Ok p /\ is_external p = true /\
    (lookup (q0 ++ [SKey "$ref"]) (op_root o) = Some (JStr t) \/
     exists s doc t0, visited a ss roots s /\ spec_doc_of a s doc /\ lookup (q0 ++ [SKey "$ref"]) doc = Some (JStr t0) /\ made_absolute (so_path s) t0 t).
(** Why the document may have v at location q, default operations aside. *)
Inductive source_of (a : around) (o : options) (ss : list source) (roots : list nat) (q : loc) (v : json) : Prop :=
| org_file s doc x :                 (* a file has it there *)
    visited a ss roots s -> spec_doc_of a s doc -> lookup q doc = Some x -> is_obj v = true \/ written (Some (so_path s)) q x v -> source_of a o ss roots q v
| org_root x :                       (* the configuration has it there *)
    lookup q (op_root o) = Some x -> is_obj v = true \/ written None q x v -> source_of a o ss roots q v
| org_reference q0 r :               (* it replaces a reference, or is part of what does *)
    refers_outside a o ss roots q0 -> q = q0 ++ r -> source_of a o ss roots q v
| org_component s n :                (* it is an exported component, or part of one, or holds one *)
    visited a ss roots s -> exports_name s n ->
    ((exists r, q = [SKey "components"; SKey "schemas"; SKey n] ++ r) \/ In q [[SKey "components"]; [SKey "components"; SKey "schemas"]]) -> source_of a o ss roots q v
| org_top : q = [] -> is_obj v = true -> source_of a o ss roots q v.
(** The same with default operations: v is in one whose pattern matches the path
    and the method of an operation that is there anyway. *)
Definition origin (a : around) (o : options) (ss : list source) (roots : list nat) (q : loc) (v : json) : Prop :=
  source_of a o ss roots q v \/
  exists pat op p m r x w, In (pat, op) (op_defops o) /\ route_match pat m p = Ok true /\ q = [SKey "paths"; SKey p; SKey m] ++ r /\
    lookup r op = Some x /\ (is_obj v = true \/ v = x) /\ source_of a o ss roots [SKey "paths"; SKey p; SKey m] w.
