(** When Resolve has nothing to complain about. *)
From Coq Require Import String List Bool.
From Verif Require Import Route GoStr Json Spec_Loc Url Pointer Spec_Clone Spec_Resolve.
Import ListNotations.
Local Open Scope string_scope.
Local Open Scope list_scope.

(** Every reference of a document is a pointer. *)
Definition references_parse (j : json) : Prop := forall q t, lookup (q ++ [SKey "$ref"]) j = Some (JStr t) -> exists p, ptr_parse t = Ok p.
(** An object or an array with only finite numbers, canonical, whose references
    are pointers, one per object, none on the document itself. *)
Definition resolvable (j : json) : Prop :=
  ((exists m, j = JObj m) \/ exists l, j = JArr l) /\ ~ In NBad (numbers j) /\ tidy j /\ lonely j /\ references_parse j.
(** Nothing is in the way of components / section / name. *)
Definition not_in_the_way (o : option json) : Prop := match o with None | Some JNull | Some (JObj _) => True | _ => False end.
Definition open_section (section : string) (j : json) : Prop :=
  not_in_the_way (Some j) /\ not_in_the_way (lookup [SKey "components"] j) /\ not_in_the_way (lookup [SKey "components"; SKey section] j).
(** The pointers the resolution function is asked about: those the document
    refers to, and those the entities it returns refer to. *)
Inductive asked (doc : json) (fn : ptr -> res json) : ptr -> Prop :=
| asked_by_doc q t p : ext_ref doc q t p -> asked doc fn p
| asked_by_entity p x q t p' : asked doc fn p -> fn p = Ok x -> ext_ref x q t p' -> asked doc fn p'.
