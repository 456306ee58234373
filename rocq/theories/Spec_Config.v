(** What a configuration document says about a text field. *)
From Coq Require Import String Ascii List Bool.
From Verif Require Import GoStr Json.
Import ListNotations.
Local Open Scope string_scope.
Local Open Scope list_scope.

(** The document has the field with the text [s]; or nothing under that name in
    any letter case (or only nulls), and [s] is empty. *)
Definition says (m : list (string * json)) (k s : string) : Prop :=
  In (k, JStr s) m \/ (s = "" /\ forall k' v, In (k', v) m -> equal_fold k' k = true -> v = JNull).

(** A file is asked for: neither nothing nor one of the two stream names. *)
Definition asks_file (o : string) : Prop := o <> "" /\ o <> "stdout" /\ o <> "stderr".
