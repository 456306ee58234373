(** What a slash-separated path denotes in a tree of directories without links:
    a location is the list of directory names below the root, innermost first. *)
From Coq Require Import String Ascii List Bool.
From Verif Require Import GoStr.
Import ListNotations.
Local Open Scope string_scope.
Local Open Scope list_scope.

Definition go_to (loc : list string) (e : string) : list string :=
  if String.eqb e "" || String.eqb e "." then loc
  else if String.eqb e ".." then tl loc   (* the root is its own parent *)
  else e :: loc.
Definition walk_to (loc : list string) (p : string) : list string := fold_left go_to (split_char "/" p) loc.
Definition rooted (p : string) : Prop := exists r, p = String "/" r.
(** Where [p] leads for a process whose working directory is [wd]. *)
Definition leads (wd : list string) (p : string) (loc : list string) : Prop :=
  (rooted p /\ loc = walk_to [] p) \/ (~ rooted p /\ loc = walk_to wd p).
(** A path in shortest form: "/", ".", or names separated by single slashes,
    with ".." only in front of a relative path. *)
Definition name_ok (e : string) : Prop := e <> "" /\ e <> "." /\ e <> ".." /\ has_char "/" e = false.
Definition shortest (p : string) : Prop :=
  p = "/" \/ p = "." \/
  (exists l, l <> [] /\ Forall name_ok l /\ p = String "/" (join "/" l)) \/
  (exists n l, n + length l <> 0 /\ Forall name_ok l /\ p = join "/" (repeat ".." n ++ l)).
