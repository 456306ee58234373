(** internal/pkgutil/util.go:77-83: the text of the error Scan returns.
    No proofs in this file. *)
From Coq Require Import String Ascii List Bool.
From Verif Require Import GoStr.
Import ListNotations.
Local Open Scope string_scope.
Local Open Scope list_scope.

(** util.go:41-43: errors.Wrapf(err, "failed to parse pkg") as text. *)
Definition load_text (e : string) : string := "failed to parse pkg: " +++ e.
(** util.go:77-83 newSingleError. *)
Definition single_error (errs : list string) : string :=
  "failed to scan: " +++ String (ascii_of_nat 10) (join (str1 (ascii_of_nat 10)) (map (fun m => String (ascii_of_nat 9) ("- " +++ m)) errs)).
