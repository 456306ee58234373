(** What merging a root configuration and applying defaults mean. *)
From Coq Require Import String List Bool.
From Verif Require Import GoStr Json Gabs Container Route Spec_Merge.
Import ListNotations.
Local Open Scope string_scope.
Local Open Scope list_scope.

(** The value of a section, null when there is none. *)
Definition section (k : string) (j : json) : json :=
  match j with JObj m => match oget k m with Some v => v | None => JNull end | _ => JNull end.
(** A string, a number or a boolean. *)
Definition scalar (j : json) : Prop := match j with JStr _ | JNum _ | JBool _ => True | _ => False end.
(** The keys of an object; of anything else, none. *)
Definition obj_part (j : json) : json := match j with JObj m => JObj m | _ => JObj [] end.

(** An operation completed by the defaults of one pattern. *)
Inductive with_default : json -> json -> json -> Prop :=
| wd_obj o a r : merged (fun d _ => Some d) (JObj a) (JObj o) r -> with_default (JObj o) (JObj a) r
| wd_null o : o <> [] -> with_default (JObj o) JNull (JObj o)
| wd_none v : is_obj v = false -> with_default (JObj []) v v.
Inductive with_defaults : list json -> json -> json -> Prop :=
| wds_nil v : with_defaults [] v v
| wds_cons o os v v1 v' : with_default o v v1 -> with_defaults os v1 v' -> with_defaults (o :: os) v v'.

(** The value of key m of path item p. *)
Definition operation (p m : string) (doc v : json) : Prop := at_path ["paths"; p; m] doc = Some v.

(** How section k of the result is related to those of the document and the
    root: when neither has it (or both have null), it stays as it is in the
    document, absent or null. *)
Definition section_result (coll : merger) (k : string) (d r d' : json) : Prop :=
  (section k d = JNull /\ section k r = JNull /\ at_path [k] d' = at_path [k] d) \/
  (~ (section k d = JNull /\ section k r = JNull) /\
   merged coll (obj_part (section k d)) (obj_part (section k r)) (section k d')).

(** The document has a paths section whose items are objects or null. *)
Definition shaped (doc : json) : Prop :=
  exists d pm, doc = JObj d /\ oget "paths" d = Some (JObj pm) /\ forall p x, oget p pm = Some x -> is_obj x = true \/ x = JNull.
(** Location q is p or below it. *)
Definition is_prefix (p q : list string) : Prop := exists r, q = p ++ r.
(** Which entries a pattern selects. *)
Definition selects (pattern : string) (e : string * string) : bool :=
  match route_match pattern (snd e) (fst e) with Ok b => b | _ => false end.
(** The defaults, in the given order, whose pattern selects (path, method) e. *)
Definition chosen (e : string * string) (defs : list (string * json)) : list json :=
  map snd (filter (fun kv => selects (fst kv) e) defs).
(** JSON round trips leave the value as it is (every decoded JSON value). *)
Definition fixed (j : json) : Prop := clone j = Ok j.
(** Default operations are JSON objects whose keys are no array indices. *)
Definition op_keys (o : list (string * json)) : Prop := forall k x, oget k o = Some x -> arr_index k = None.
Definition ok_default (kv : string * json) : Prop := exists o, snd kv = JObj o /\ wf (JObj o) /\ fixed (JObj o) /\ op_keys o.
