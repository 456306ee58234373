(** When Scan builds a document. *)
From Coq Require Import String List Bool ZArith Permutation.
From Verif Require Import Route GoStr Json Gabs Container Url Pointer Spec_Ptr Cmds Spec_Cmds Pkgs Spec_Pkgs Path Spec_Clone Spec_Merge Spec_Loc Spec_Format Spec_Root Spec_Resolve Spec_ResolveOk Specs Spec_Specs
  Tag Types Spec_Types Spec_Schema Scan Spec_Scan Spec_Kept Spec_Ends.
Import ListNotations.
Local Open Scope string_scope.
Local Open Scope nat_scope.
Local Open Scope list_scope.

(** The visited packages, each once, in some order. *)
Definition lists_visited (a : around) (ss : list source) (roots : list nat) (vis : list nat) : Prop :=
  NoDup vis /\ forall i, In i vis <-> visited_at a ss roots i.

(** *** Commands *)
(** The commands in the comments of package s. *)
Definition commands_of (s : source) (cc : list command) : Prop :=
  exists bss, Forall2 bodies (so_groups s) bss /\ Forall2 (denotes (so_types s)) (concat bss) cc.
(** Every visited package was loaded without errors, its commands are well
    formed, and no pointer is exported twice. *)
Definition commands_in_order (a : around) (ss : list source) (roots : list nat) : Prop :=
  exists cmds, (forall i s, visited_at a ss roots i -> nth_error ss i = Some s -> g_errors (so_pkg s) = 0 /\ commands_of s (cmds i)) /\
    forall vis, lists_visited a ss roots vis -> NoDup (map (fun x => ptr_string (snd x)) (flat_map (fun i => schemas_of (cmds i)) vis)).

(** *** Files *)
(** The document of a file of package pkg, with absolute references and numbers in double precision. *)
Definition absolute_doc (pkg : string) (doc d : json) : Prop :=
  exists f, (forall q t, lookup (q ++ [SKey "$ref"]) doc = Some (JStr t) -> made_absolute pkg t (f t)) /\ clone (map_refs f doc) = Ok d.
(** The documents of the files at these paths: what is there can be read, and
    what is no specification (an object with an "openapi" member) does not count. *)
Inductive docs_at (a : around) (pkg : string) : list string -> list json -> Prop :=
| da_nil : docs_at a pkg [] []
| da_none path r l : ar_files a path = None -> docs_at a pkg r l -> docs_at a pkg (path :: r) l
| da_other path c r l : ar_files a path = Some (Ok c) -> ~ is_spec_doc c -> docs_at a pkg r l -> docs_at a pkg (path :: r) l
| da_spec path doc d r l : ar_files a path = Some (Ok (Some doc)) -> is_spec_doc (Some doc) -> absolute_doc pkg doc d -> docs_at a pkg r l -> docs_at a pkg (path :: r) (d :: l).
(** The documents merged into the first, one after the other, without a clash. *)
Inductive strictly : json -> list json -> json -> Prop :=
| st_nil d : strictly d [] d
| st_cons d x d' l r : merged (fun _ _ => None) d x d' -> strictly d' l r -> strictly d (x :: l) r.
(** The specification files of the visited packages can be read, and, in
    whatever order, merge into d. *)
Definition files_in_order (a : around) (ss : list source) (roots : list nat) (d : json) : Prop :=
  exists docs, (forall i s, visited_at a ss roots i -> nth_error ss i = Some s ->
      exists dir, get_pkg_path (ar_gopath a) (ar_missing a) (so_path s) (so_module s) = Ok dir /\
        docs_at a (so_path s) [join2 dir "oapi.yaml"; join2 dir "oapi.yml"; join2 dir "oapi.json"] (docs i)) /\
    forall vis l, lists_visited a ss roots vis -> Permutation l (flat_map docs vis) -> strictly (JObj []) l d.

(** *** The root configuration *)
Definition composed (root d d' : json) : Prop :=
  exists r m m', clone root = Ok (JObj r) /\ d = JObj m /\ d' = JObj m' /\ wf d' /\
    (forall k, ~ In k ["components"; "info"; "paths"; "security"; "servers"; "tags"; "externalDocs"] -> oget k m' = oget k m) /\
    Forall (fun x => section_result (fst x) (snd x) d (JObj r) d')
      [((fun _ _ => None), "components"); ((fun _ s => Some s), "info"); ((fun d _ => Some d), "paths"); ((fun d _ => Some d), "security");
       ((fun d _ => Some d), "servers"); ((fun d _ => Some d), "tags"); ((fun d _ => Some d), "externalDocs")].

(** *** References *)
Section Refs.
  Context {F : Type} (pf : string -> option F) (fnum : F -> num) (zero : F) (a : around) (o : options) (ss : list source) (roots : list nat).
  (** Type T is found at the location with this text. *)
  Definition known_at (T : gty) (txt : string) : Prop :=
    exists ob pk, starts_at a ss roots ob /\ o_pkg ob = Some pk /\ location_of (ar_env a) pk (o_name ob) (o_type ob) T txt.
  (** The schema of T may refer to T': the innermost elements of its fields, or of T itself. *)
  Definition refers (T T' : gty) : Prop :=
    (exists fs x t, T = TStruct fs /\ visible pf (ar_env a) fs x /\ t_type (sf_tag x) = "" /\ elem_reach (ar_env a) (sf_type x) t /\ T' = under (ar_env a) t) \/
    ((forall fs, T <> TStruct fs) /\ exists t, elem_reach (ar_env a) T t /\ T' = under (ar_env a) t).
  Definition overridden (p : ptr) : Prop := oget (ptr_string p) (op_override o) <> None.
  (** d or an override value refers to p. *)
  Definition referred (d : json) (p : ptr) : Prop :=
    exists j q t, (j = d \/ In j (map snd (op_override o))) /\ ext_ref j q t p.
  (** The types whose schemas are needed: those referred to, and those which these refer to. *)
  Inductive in_use (d : json) : gty -> Prop :=
  | iu_ref p T : referred d p -> ~ overridden p -> known_at T (ptr_string p) -> in_use d T
  | iu_step T T' txt : in_use d T -> refers T T' -> known_at T' txt -> oget txt (op_override o) = None -> in_use d T'.
  (** T has a schema, and it can be written. *)
  Definition has_schema (T : gty) : Prop :=
    (exists fs, T = TStruct fs /\ tags_fine pf (ar_env a) fs /\
       forall x, visible pf (ar_env a) fs x -> field_ok (ar_env a) x /\
         forall f, In (Some f) [t_min (sf_tag x); t_max (sf_tag x); t_emin (sf_tag x); t_emax (sf_tag x); t_mulof (sf_tag x)] -> fnum f <> NBad) \/
    ((forall fs, T <> TStruct fs) /\ elems_ok (ar_env a) T).
  Definition references_in_order (d : json) : Prop :=
    fnum zero <> NBad /\
    Forall (fun kv => resolvable (snd kv)) (op_override o) /\
    (forall p, referred d p -> overridden p \/ (u_scheme (p_url p) = "go" /\ exists T, known_at T (ptr_string p))) /\
    (forall T, in_use d T -> has_schema T) /\
    forall T T' txt, in_use d T -> refers T T' -> known_at T' txt -> plain_key txt.
End Refs.

(** *** Components and operations *)
(** Nothing is in the way of the exported components. *)
Definition exports_in_order (a : around) (ss : list source) (roots : list nat) (d : json) : Prop :=
  forall s n, visited a ss roots s -> exports_name s n ->
    open_section "schemas" d /\ forall q t p, ext_ref d q t p -> apart (comp_loc "schemas" n) q.
(** No operation is (or is inside) an external reference, and the defaults apply. *)
Definition paths_in_order (o : options) (d : json) : Prop :=
  (section "paths" d = JNull \/ shaped d) /\
  (forall q t p, ext_ref d q t p -> forall path m u, [SKey "paths"; SKey path; SKey m] <> q ++ u) /\
  forall pat op path m v, In (pat, op) (op_defops o) -> operation path m d v ->
    exists b, route_match pat m path = Ok b /\ (b = true -> is_obj v = true \/ v = JNull \/ op = JObj []).

(** Everything is in order: the files and the root configuration make up a
    document whose references can be resolved. *)
Definition in_order {F} (pf : string -> option F) (fnum : F -> num) (zero : F) (a : around) (o : options) (ss : list source) (roots : list nat) : Prop :=
  commands_in_order a ss roots /\
  exists d1 d2, files_in_order a ss roots d1 /\ composed (op_root o) d1 d2 /\ resolvable d2 /\
    references_in_order pf fnum zero a o ss roots d2 /\ exports_in_order a ss roots d2 /\ paths_in_order o d2.
