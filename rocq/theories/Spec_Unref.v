(** Which type declarations a run of Scan can come to, and what it means that two
    sets of declarations agree on those. *)
From Coq Require Import String List Bool.
From Verif Require Import GoStr Path Pkgs Spec_Pkgs Types Scan Spec_Unseen.
Import ListNotations.

(** x occurs in the type t where the scanner follows it: as t itself, behind
    pointers, as an element of a slice, array, map or channel, or in an exported
    field of a struct.  (Not: in unexported fields, in the keys of maps.) *)
Inductive part : gty -> gty -> Prop :=
| part_here t : part t t
| part_ptr e x : part e x -> part (TPtr e) x
| part_slice e x : part e x -> part (TSlice e) x
| part_array n e x : part e x -> part (TArray n e) x
| part_map k e x : part e x -> part (TMap k e) x
| part_chan d e x : part e x -> part (TChan d e) x
| part_field fs i e x : In (i, e) fs -> exported (f_name i) = true -> part e x -> part (TStruct fs) x.
(** The type t refers to declaration k, directly or through other declarations. *)
Inductive refers (env : genv) (t : gty) : nat -> Prop :=
| refers_directly k : part t (TNamed k) -> refers env t k
| refers_through j d k : refers env t j -> nth_error env j = Some d -> part (d_under d) (TNamed k) -> refers env t k.
(** Declaration k is referred to by an object of a visited package (a type
    declaration refers to itself: its type is the named type). *)
Definition referred (a : around) (dir : string) (k : nat) : Prop :=
  exists ss roots i s name o, ar_load a dir = Ok (ss, roots) /\ seen (ar_std a) (map so_pkg ss) roots i /\ nth_error ss i = Some s /\
    so_scope s name = Some o /\ refers (ar_env a) (o_type o) k.
(** The surroundings differ in type declarations only. *)
Definition same_but_types (a a' : around) : Prop :=
  ar_load a' = ar_load a /\ ar_cwd a' = ar_cwd a /\ ar_gopath a' = ar_gopath a /\ ar_missing a' = ar_missing a /\ ar_files a' = ar_files a /\ ar_std a' = ar_std a.
(** The directory a run with these options starts from. *)
Definition starts_in (a : around) (l : list opt) (dir : string) : Prop :=
  exists o, apply_opts l no_options = Ok o /\ (op_dir o = Some dir \/ op_dir o = None /\ ar_cwd a = Ok dir).
