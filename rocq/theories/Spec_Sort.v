(** The order in which top-level entries should appear. *)
From Coq Require Import String List Bool.
From Verif Require Import Json.
Import ListNotations.

(** The entry's key is one of the ordered keys. *)
Definition listed (order : list string) (e : string * json) : bool := existsb (String.eqb (fst e)) order.

(** The listed entries of m in the order of the list. *)
Definition by_order (order : list string) (m : list (string * json)) : list (string * json) :=
  flat_map (fun k => match oget k m with Some v => [(k, v)] | None => [] end) order.
