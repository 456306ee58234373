(** Words used by C99: what a repeated run of the command may rely on. *)
From Coq Require Import String Ascii List Bool Arith.
From Verif Require Import GoStr Json Container Specs Config Cli.
Import ListNotations.
Local Open Scope string_scope.
Local Open Scope list_scope.

(** The operating system lets the command replace the file: it can be opened for
    writing, it is not there or can be removed, and all that is written arrives. *)
Definition lets_write (o : os) (w : world) (p : string) : Prop :=
  os_open o p = true /\ (w_files w p = None \/ os_remove o p = true) /\ forall t, String.concat "" (os_pieces o t) = t.

(** The root members the output does not put in a fixed place. *)
Definition others (d : json) : list string :=
  match d with
  | JObj m => filter (fun k => negb (existsb (String.eqb k) ["openapi"; "info"; "components"; "paths"])) (map fst m)
  | _ => []
  end.
