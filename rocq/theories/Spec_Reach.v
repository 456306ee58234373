(** Which exported entities are reached, and when the order in which they are
    met cannot be seen. *)
From Coq Require Import String List Bool.
From Verif Require Import GoStr Json Spec_Loc Url Pointer Spec_Resolve Spec_ResolveOk.
Import ListNotations.
Local Open Scope string_scope.
Local Open Scope list_scope.

(** The entity of p refers to q, or to something whose entity does, and so on. *)
Definition leads_on (fn : ptr -> res json) (p q : ptr) : Prop := exists x, fn p = Ok x /\ asked x fn q.
(** Pointers with the same text have the same entity. *)
Definition by_text (fn : ptr -> res json) : Prop := forall p p' x x', ptr_string p = ptr_string p' -> fn p = Ok x -> fn p' = Ok x' -> x = x'.
(** What is on a cycle of references with an exported entity is itself exported
    (pointers counting as the same when their texts agree). *)
Definition cycles_exported (doc : json) (fn : ptr -> res json) (exported : ptr -> option (string * string)) : Prop :=
  forall p q q' p', asked doc fn p -> exported p <> None -> leads_on fn p q -> ptr_string q' = ptr_string q -> leads_on fn q' p' -> ptr_string p' = ptr_string p ->
    exported q <> None.
(** Under one name there is one entity. *)
Definition one_entity (doc : json) (fn : ptr -> res json) (exported : ptr -> option (string * string)) : Prop :=
  forall p p' x x' s, asked doc fn p -> asked doc fn p' -> exported p = Some s -> exported p' = Some s -> fn p = Ok x -> fn p' = Ok x' -> x = x'.
