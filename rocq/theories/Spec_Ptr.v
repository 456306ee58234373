(** Which texts name Go packages. *)
From Coq Require Import String Ascii List Bool.
From Verif Require Import GoStr Pointer.
Local Open Scope string_scope.

Fixpoint str_all (p : ascii -> bool) (s : string) : bool :=
  match s with EmptyString => true | String c r => p c && str_all p r end.

(** The characters of Go import paths (golang.org/x/mod/module: importPathOK)
    and the separator '/'. *)
Definition import_char (c : ascii) : bool := is_alnum c || has_char c "-._~+/".
Definition import_path (s : string) : Prop := s <> EmptyString /\ str_all import_char s = true.

(** Any pointer whose URL came from parsing a go text for the package. *)
Definition go_pointer (pkg : string) (p : ptr) : Prop :=
  exists f p0, ptr_parse ("go://" +++ pkg +++ "#" +++ f) = Ok p0 /\ p_url p = p_url p0.
