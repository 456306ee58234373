(** Which changes of the surroundings a run of Scan cannot notice. *)
From Coq Require Import String Ascii List Bool Arith ZArith.
From Verif Require Import GoStr Json Container Url Pointer Path Pkgs Spec_Pkgs Specs Types Scan.
Import ListNotations.
Local Open Scope string_scope.
Local Open Scope nat_scope.
Local Open Scope list_scope.

(** Package number i is visited from these roots. *)
Definition seen (std : string -> bool) (ps : pkgs) (roots : list (option nat)) (i : nat) : Prop :=
  exists r, In (Some r) roots /\ reach std ps r i.
(** There is no specification: no such file, or a readable one that is not an
    object with an "openapi" member. *)
Definition no_spec (f : option (res cont)) : Prop :=
  f = None \/ exists c, f = Some (Ok c) /\ forall m v, c = Some (JObj m) -> oget "openapi" m <> Some v.
(** The same specification: the same file, or none in both. *)
Definition same_spec (f f' : option (res cont)) : Prop := f' = f \/ no_spec f /\ no_spec f'.
(** What the loader finds is the same as far as it is visited: the packages with
    their imports; for visited ones also what is in them, their directories, and
    the specifications there.  Everything else (comments, types and directories of
    packages that are not visited, other files) may be different. *)
Definition same_seen (a a' : around) (ss ss' : list source) (roots : list (option nat)) : Prop :=
  map so_pkg ss' = map so_pkg ss /\
  forall i s, seen (ar_std a) (map so_pkg ss) roots i -> nth_error ss i = Some s ->
    nth_error ss' i = Some s /\
    get_pkg_path (ar_gopath a') (ar_missing a') (so_path s) (so_module s) = get_pkg_path (ar_gopath a) (ar_missing a) (so_path s) (so_module s) /\
    forall dir name, get_pkg_path (ar_gopath a) (ar_missing a) (so_path s) (so_module s) = Ok dir -> In name ["oapi.yaml"; "oapi.yml"; "oapi.json"] ->
      same_spec (ar_files a (join2 dir name)) (ar_files a' (join2 dir name)).
(** The surroundings are the same as far as a run in directory dir sees them. *)
Definition same_around (a a' : around) (dir : string) : Prop :=
  (forall p, ar_std a' p = ar_std a p) /\ ar_env a' = ar_env a /\
  (ar_load a' dir = ar_load a dir /\ (forall l, ar_load a dir <> Ok l) \/
   exists ss ss' roots, ar_load a dir = Ok (ss, roots) /\ ar_load a' dir = Ok (ss', roots) /\ same_seen a a' ss ss' roots).
