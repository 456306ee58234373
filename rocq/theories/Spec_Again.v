(** When reading again what was written gives the same. *)
From Coq Require Import String Ascii List Bool Arith ZArith.
From Verif Require Import GoStr Json Url Pointer Spec_Loc Gabs Container Shape Spec_Shape.
Import ListNotations.
Local Open Scope string_scope.
Local Open Scope nat_scope.
Local Open Scope list_scope.

(** Every reference can be read and is in the form it would be written in; every
    integer can be read; no link has a null request body (read as none). *)
Record settled (big : Z -> option Z) (s : shape) (j : json) : Prop := {
  set_refs : forall q t, finds s j q SRef (JStr t) -> exists p, ptr_parse t = Ok p /\ ptr_string p = t;
  set_ints : forall q n, finds s j q SInt (JNum n) -> int64_number big n;
  set_body : forall q m, finds s j q (SPtr TLink) (JObj m) \/ finds s j q (SVal TLink) (JObj m) -> ~ In ("requestBody", JNull) m
}.
