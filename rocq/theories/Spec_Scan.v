(** What the end-to-end theorems about Scan assume of its inputs. *)
From Coq Require Import String Ascii List Bool Arith ZArith Permutation.
From Verif Require Import GoStr Json Container Url Pointer Types Spec_Types Spec_Schema Spec_Loc Root Scan.
Import ListNotations.
Local Open Scope string_scope.
Local Open Scope nat_scope.
Local Open Scope list_scope.

(** A struct whose visible fields have property names a dot path can carry
    (without dot, tilde, star, ...), and fewer than 2^63 of them. *)
Definition handy {F} (pf : string -> option F) (env : genv) (fs : list (finfo * gty)) : Prop :=
  (forall x, visible pf env fs x -> plain (prop_name x)) /\ (forall l, in_place pf env [TStruct fs] fs l -> (Z.of_nat (length l) < 2 ^ 63)%Z).
(** A type found below some object of the loaded packages. *)
Definition found_type (env : genv) (ss : list source) (T : gty) : Prop :=
  exists s name o t, In s ss /\ so_scope s name = Some o /\ reachable env (o_type o) t /\ under env t = T.
(** A canonical object with plain keys. *)
Definition canon_obj (j : json) : Prop := wf j /\ keys_ok plain j /\ exists m, j = JObj m.
(** ... which is not itself a reference. *)
Definition plain_doc (j : json) : Prop := wf j /\ keys_ok plain j /\ exists m, j = JObj m /\ oget "$ref" m = None.

(** Every choice Go leaves open (map iteration orders, sorting) is made in some order. *)
Definition merging_in_any_order (ch : choices) : Prop :=
  (forall n, perm_oracle (ch_merge ch n)) /\ (forall n, perm_oracle (ch_root ch n)) /\ (forall l, Permutation (ch_paths ch l) l) /\ perm_oracle (ch_ops ch) /\ (forall n i, perm_oracle (ch_def ch n i)).
Definition any_order (ch : choices) : Prop :=
  merging_in_any_order ch /\ (forall i n l, Permutation (ch_refs ch i n l) l) /\ (forall l, Permutation (ch_files ch l) l) /\
  (forall pos l, Permutation (ch_resolve ch pos l) l) /\ (forall m, Permutation (ch_points ch m) m) /\ (forall l, Permutation (ch_defs ch l) l).
