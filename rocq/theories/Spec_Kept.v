(** Which parts of the specification files must be found in the document that
    Scan builds. *)
From Coq Require Import String Ascii List Bool Arith ZArith Permutation.
From Verif Require Import GoStr Json Url Pointer Path Cmds Spec_Cmds Pkgs Spec_Pkgs Spec_Clone Spec_Loc Spec_Root Spec_Specs Tag Types Spec_Types Spec_Schema Scan.
Import ListNotations.
Local Open Scope string_scope.
Local Open Scope nat_scope.
Local Open Scope list_scope.

(** Package s is visited: it is reached from one of the loaded roots through
    packages outside the standard library. *)
Definition visited (a : around) (ss : list source) (roots : list nat) (s : source) : Prop :=
  exists r i, In r roots /\ reach (ar_std a) (map so_pkg ss) r i /\ nth_error ss i = Some s.
(** Package number i is visited. *)
Definition visited_at (a : around) (ss : list source) (roots : list nat) (i : nat) : Prop :=
  exists r, In r roots /\ reach (ar_std a) (map so_pkg ss) r i.
(** doc is the content of a specification file of package s: a file of one of
    the three names in its directory, an object with an "openapi" member. *)
Definition spec_doc_of (a : around) (s : source) (doc : json) : Prop :=
  exists dir name, get_pkg_path (ar_gopath a) (ar_missing a) (so_path s) (so_module s) = Ok dir /\
    In name ["oapi.yaml"; "oapi.yml"; "oapi.json"] /\ ar_files a (join2 dir name) = Some (Ok (Some doc)) /\
    exists m v, doc = JObj m /\ oget "openapi" m = Some v.
(** A comment of package s is a command exporting a schema under this name. *)
Definition exports_name (s : source) (name : string) : Prop :=
  exists g text body p, In g (so_groups s) /\ In text g /\ is_command text body /\ denotes (so_types s) body (CSchema name p).

(** Every object at, above or below location q of j that holds a reference holds
    one into the document itself (its text starts with #). *)
Definition only_local_refs (j : json) (q : loc) : Prop :=
  forall q0 t, lookup (q0 ++ [SKey "$ref"]) j = Some (JStr t) -> Spec_Loc.apart q0 q \/ exists r, t = "#" +++ r.

(** The value v, found at location q of a file, is at the same location of d:
    references keep their pointer (its text is written anew), numbers are
    converted to double precision, arrays keep their length. *)
Definition kept_at (q : loc) (v d : json) : Prop :=
  match v with
  | JObj _ => True
  | JArr l => exists l', lookup q d = Some (JArr l') /\ length l' = length l
  | JNum n => exists n', lookup q d = Some (JNum n') /\ as_double n n'
  | JStr t => (exists q0, q = q0 ++ [SKey "$ref"]) /\ (exists p, ptr_parse t = Ok p /\ lookup q d = Some (JStr (ptr_string p))) \/
              ~ (exists q0, q = q0 ++ [SKey "$ref"]) /\ lookup q d = Some v
  | _ => lookup q d = Some v
  end.

(** The remaining choices: import order, sorting, command maps. *)
Definition visiting_in_any_order (ch : choices) : Prop :=
  (forall n i l, Permutation (ch_imports ch n i l) l) /\ is_string_sort (ch_strings ch) /\ (forall m, Permutation (ch_cmds1 ch m) m).
(** A root configuration whose sections are objects or lists, as those of spec.OpenAPI are. *)
Definition usual_root (root : json) : Prop :=
  forall k, In k ["info"; "components"; "paths"; "externalDocs"; "security"; "servers"; "tags"] -> ~ scalar (section k root).

(** The specification file [path] of the i-th package: one of the three names in
    its directory, an object with an "openapi" member. *)
Definition spec_file_at (a : around) (ss : list source) (i : nat) (path : string) (doc : json) : Prop :=
  exists s dir name, nth_error ss i = Some s /\ get_pkg_path (ar_gopath a) (ar_missing a) (so_path s) (so_module s) = Ok dir /\
    In name ["oapi.yaml"; "oapi.yml"; "oapi.json"] /\ path = join2 dir name /\ ar_files a path = Some (Ok (Some doc)) /\
    exists m v, doc = JObj m /\ oget "openapi" m = Some v.

(** Package s exports pointer p under this name. *)
Definition exports_type (s : source) (name : string) (p : ptr) : Prop :=
  exists g text body, In g (so_groups s) /\ In text g /\ is_command text body /\ denotes (so_types s) body (CSchema name p).
(** Nothing of j is in the way of a value at location q: what j has on the way
    there are objects. *)
Definition clear_way (q : loc) (j : json) : Prop := forall q1 q2 v, q = q1 ++ q2 -> lookup q1 j = Some v -> is_obj v = true /\ exists k q3, q2 = SKey k :: q3.
(** The order in which the pointers are put together and followed. *)
Definition collecting_in_any_order (ch : choices) : Prop :=
  (forall m, Permutation (ch_cmds2 ch m) m) /\ (forall l, Permutation (ch_p1 ch l) l) /\ (forall l, Permutation (ch_p2 ch l) l) /\ (forall i l, Permutation (ch_types ch i l) l).

(** The value v is at location q of d, with its text as it is; numbers are
    converted to double precision, arrays keep their length. *)
Definition carried_at (q : loc) (v d : json) : Prop :=
  match v with
  | JObj _ => True
  | JArr l => exists l', lookup q d = Some (JArr l') /\ length l' = length l
  | JNum n => exists n', lookup q d = Some (JNum n') /\ as_double n n'
  | _ => lookup q d = Some v
  end.

(** Every object of j at, above or below location q that holds a reference is the
    one at q, or holds a reference into the document itself. *)
Definition only_ref_at (j : json) (q : loc) : Prop :=
  forall q0 t, lookup (q0 ++ [SKey "$ref"]) j = Some (JStr t) -> q0 = q \/ Spec_Loc.apart q0 q \/ exists r, t = "#" +++ r.
(** A specification file of package s has, at location q of its member k, a
    reference whose absolute text is txt.  The sections that the root
    configuration governs are excluded, and so is the text right below one of
    the three merged sections. *)
Definition file_ref_at (a : around) (s : source) (k : string) (q : loc) (txt : string) : Prop :=
  exists doc t, spec_doc_of a s doc /\ ~ In NBad (numbers doc) /\ lookup ((SKey k :: q) ++ [SKey "$ref"]) doc = Some (JStr t) /\ made_absolute (so_path s) t txt /\
    ~ In k ["info"; "security"; "servers"; "tags"] /\ (In k ["components"; "paths"; "externalDocs"] -> exists k' q', q ++ [SKey "$ref"] = SKey k' :: q').

(** What is shown, location by location, of a struct with these fields: an
    object; for every field of a name of its own that has a basic type, or whose
    tag names a type, a property of that type. *)
Definition shows_struct {F} (pf : string -> option F) (env : genv) (fs : list (finfo * gty)) (at_ : loc -> option json) : Prop :=
  at_ [SKey "type"] = Some (JStr "object") /\
  forall x ty fmt u, visible pf env fs x -> (forall x', visible pf env fs x' -> prop_name x' = prop_name x -> x' = x) ->
     (t_type (sf_tag x) = "" /\ (exists k, under env (sf_type x) = TBasic k /\ In (k, (ty, fmt, u)) kind_table)) \/ In (trim is_sp (t_type (sf_tag x)), (ty, fmt, u)) name_table ->
     at_ [SKey "properties"; SKey (prop_name x); SKey "type"] = Some (JStr ty).
(** No property but those of its fields. *)
Definition shows_only {F} (pf : string -> option F) (env : genv) (fs : list (finfo * gty)) (at_ : loc -> option json) : Prop :=
  forall k, (forall x, visible pf env fs x -> prop_name x <> k) -> at_ [SKey "properties"; SKey k] = None.
(** The objects in the scopes of the packages, with the declarations of the
    program: well-formed names, distinct fields, and a name of a package means
    one type. *)
Definition sound_scopes (env : genv) (ss : list source) : Prop :=
  env_ok env /\ flat_env env /\ Forall (fun d => fields_distinct (d_under d)) env /\
  (forall s h ob, In s ss -> so_scope s h = Some ob -> obj_ok ob /\ fields_distinct (o_type ob)) /\
  forall os, (forall ob, In ob os -> exists s h, In s ss /\ so_scope s h = Some ob) -> names_unique env os.
