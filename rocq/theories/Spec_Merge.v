(** What merging two documents means, independently of the code: key by key.

    [merged coll d s r]: r is the merge of object s into object d, where [coll]
    chooses the value for a key both hold unless both hold objects. *)
From Coq Require Import String List Bool.
From Verif Require Import Json.
Import ListNotations.

Inductive merged (coll : json -> json -> option json) : json -> json -> json -> Prop :=
| merged_obj d s r :
    sorted r ->
    (forall k, merged_key coll (oget k d) (oget k s) (oget k r)) ->
    merged coll (JObj d) (JObj s) (JObj r)
with merged_key (coll : json -> json -> option json) : option json -> option json -> option json -> Prop :=
| mk_none : merged_key coll None None None
| mk_dest v : merged_key coll (Some v) None (Some v)
| mk_src v : merged_key coll None (Some v) (Some v)
| mk_both d s r :
    is_obj d = true -> is_obj s = true -> merged coll d s r ->
    merged_key coll (Some d) (Some s) (Some r)
| mk_coll d s r :
    is_obj d && is_obj s = false -> coll d s = Some r ->
    merged_key coll (Some d) (Some s) (Some r).

(** The value at a path of object keys. *)
Fixpoint at_path (p : list string) (j : json) : option json :=
  match p with
  | [] => Some j
  | k :: p' =>
      match j with
      | JObj m => match oget k m with Some v => at_path p' v | None => None end
      | _ => None
      end
  end.

(** Somewhere both documents hold a value, not both objects, and the rule
    rejects the pair. *)
Definition rejected (coll : json -> json -> option json) (d s : json) : Prop :=
  exists p x y, at_path p d = Some x /\ at_path p s = Some y /\
                is_obj x && is_obj y = false /\ coll x y = None.

(** A leaf location: a value that is not an object (arrays count as leaves). *)
Definition leaf_at (p : list string) (j v : json) : Prop :=
  at_path p j = Some v /\ is_obj v = false.

(** What a location holds: nothing, an object, or a leaf value. *)
Inductive node := NObj | NLeaf (v : json).
Definition node_at (p : list string) (j : json) : option node :=
  match at_path p j with
  | None => None
  | Some (JObj _) => Some NObj
  | Some v => Some (NLeaf v)
  end.

(** Nothing is there, and no leaf is on the way. *)
Definition free_at (p : list string) (j : json) : Prop :=
  at_path p j = None /\ forall q t, p = q ++ t -> forall v, ~ leaf_at q j v.
