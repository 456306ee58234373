(** What it takes for a document to be written as JSON. *)
From Coq Require Import String Ascii List Bool Arith.
From Verif Require Import GoStr Json Spec_Clone.
Import ListNotations.
Local Open Scope string_scope.
Local Open Scope nat_scope.
Local Open Scope list_scope.

(** A byte of a key for which Go's %q and JSON agree: anything but the control
    characters other than backspace, tab, newline, form feed and carriage return. *)
Definition plain_byte (c : ascii) : Prop :=
  (32 <= nat_of_ascii c /\ nat_of_ascii c <> 127) \/ In (nat_of_ascii c) [8; 9; 10; 12; 13].
Definition plain_key (k : string) : Prop := forall c, has_char c k = true -> plain_byte c.
(** Every member name of the root object (if it is one) is plain. *)
Definition plain_root (j : json) : Prop := forall m k v, j = JObj m -> In (k, v) m -> plain_key k.
