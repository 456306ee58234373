(** Strings of documents, and Go's raw string literals. *)
From Coq Require Import String Ascii List Bool Arith.
From Verif Require Import GoStr Json.
Import ListNotations.
Local Open Scope string_scope.
Local Open Scope nat_scope.
Local Open Scope list_scope.

(** All strings of a document: keys and string values. *)
Fixpoint strings (j : json) : list string :=
  match j with
  | JStr s => [s]
  | JArr l => (fix go l := match l with [] => [] | x :: r => strings x ++ go r end) l
  | JObj m => (fix go m := match m with [] => [] | (k, x) :: r => k :: strings x ++ go r end) m
  | _ => []
  end.

(** What follows the opening backtick of a Go raw string literal: its value
    (carriage returns are discarded) and the text after the closing backtick. *)
Fixpoint raw_literal (s : string) : option (string * string) :=
  match s with
  | EmptyString => None
  | String c r =>
      if Ascii.eqb c "`" then Some (EmptyString, r)
      else match raw_literal r with
           | Some (v, rest) => Some (if Ascii.eqb c "013" then v else String c v, rest)
           | None => None
           end
  end.

(** The generated file: a fixed header, and a declaration of the constant by
    the raw string literal starting with [lit]. *)
Definition declares (file lit : string) : Prop :=
  exists header, file = header +++ "const OpenAPIJsonSpec = `" +++ lit /\ has_char "`" header = false.
