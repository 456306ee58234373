(** oapi.go: Scan, end to end.  No proofs in this file. *)
From Coq Require Import String Ascii List Bool Arith ZArith.
From Verif Require Import GoStr Json Gabs Container Url Pointer Path Resolver ScanFn Cmds Specs Pkgs Types Root SchemaJson.
Import ListNotations.
Local Open Scope string_scope.
Local Open Scope list_scope.

(** oapi.go:44-50 Options and 66-112 the options.  The configured schemas,
    operations and root are represented by the JSON they marshal to; the logger
    is not used by Scan. *)
Record options := { op_dir : option string; op_override : list (string * json); op_defops : list (string * json); op_root : json }.
Inductive opt :=
| WithDir (d : string) | WithLog | WithOverride (o : list (string * json)) | WithDefOps (o : list (string * json)) | WithRootSchema (j : json)
| WithError. (* an Option of the caller's own that returns an error *)
Definition apply_opt (o : opt) (r : options) : res options :=
  match o with
  | WithDir d => Ok {| op_dir := Some d; op_override := op_override r; op_defops := op_defops r; op_root := op_root r |}
  | WithLog => Ok r
  | WithOverride x => Ok {| op_dir := op_dir r; op_override := x; op_defops := op_defops r; op_root := op_root r |}
  | WithDefOps x => Ok {| op_dir := op_dir r; op_override := op_override r; op_defops := x; op_root := op_root r |}
  | WithRootSchema x => Ok {| op_dir := op_dir r; op_override := op_override r; op_defops := op_defops r; op_root := x |}
  | WithError => Err
  end.
Fixpoint apply_opts (l : list opt) (r : options) : res options :=
  match l with [] => Ok r | o :: l' => do r' <- apply_opt o r ; apply_opts l' r' end.
(** oapi.go:116-118; the zero spec.OpenAPI marshals to an empty object. *)
Definition no_options : options := {| op_dir := None; op_override := []; op_defops := []; op_root := JObj [] |}.

(** internal/oapi/scan/types/types.go:337-341 refStdMapping.  (AddRefOverride,
    343-346, is in an internal package and nothing in the module calls it.) *)
Definition std_mapping {F} (t : string) : option (schema F) :=
  if String.eqb t "go://time#/Time" then Some (with_type "string" schema_zero) else None.

(** What packages.Load returns about one package: what each scanner uses. *)
Record source := { so_pkg : gpkg; so_types : string; so_groups : list (list string); so_module : option gmod; so_scope : string -> option gobj }.
Definition so_path (s : source) : string := g_path (so_pkg s).

(** The surroundings: the loader, the working directory, GOPATH, the files, the
    standard library's package names and types, number formats. *)
Record around := {
  ar_load : string -> res (list source * list (option nat)); (* packages.Load: all packages, and the roots *)
  ar_cwd : res string; ar_gopath : string; ar_missing : string -> bool; ar_files : filesys;
  ar_std : string -> bool; ar_env : genv }.

(** The choices Go leaves open: map iteration orders, and sorts up to equal elements. *)
Record choices := {
  ch_imports : nat -> nat -> list string -> list string; ch_strings : list string -> list string;
  ch_cmds1 : cmd_map -> cmd_map; ch_cmds2 : cmd_map -> cmd_map; ch_p1 : pointers -> pointers; ch_p2 : pointers -> pointers;
  ch_refs : nat -> nat -> list (string * json) -> list (string * json); ch_files : list file -> list file;
  ch_merge : nat -> list string -> list (string * json) -> list (string * json);
  ch_types : nat -> pointers -> pointers; ch_root : nat -> morder;
  ch_resolve : list nat -> list (string * json) -> list (string * json); ch_points : pmap -> pmap; ch_pick : nat -> list ptr -> ptr;
  ch_paths : list (string * json) -> list (string * json); ch_ops : morder;
  ch_defs : list (string * json) -> list (string * json); ch_def : nat -> nat -> morder }.

(** The depth to which the recursions are followed (OutOfFuel beyond it). *)
Record depths := { de_pkgs : nat; de_walk : nat; de_type : nat; de_fields : nat; de_resolve : nat }.

Section Scan.
  Context {F : Type} (parse_float : string -> option F) (zero : F) (fnum : F -> num) (ref_std : string -> option (schema F)).
  Context (a : around) (ch : choices) (de : depths).

  (** oapi.go:143-176: pkgutil.Scan with one of the scanners; a collected error is returned. *)
  Definition scan_with {A} (n : nat) (fn : source -> nat -> A -> res (A * bool)) (ss : list source) (roots : list (option nat)) (x : A) : res A :=
    do r <- scan_pkgs (fun i y => match nth_error ss i with Some s => fn s i y | None => Panic end)
              (ar_std a) (ch_imports ch n) (ch_strings ch) (map so_pkg ss) (de_pkgs de) roots x ;
    match snd r with [] => Ok (fst r) | _ => Err end.

  (** oapi.go:189: tps.Resolve, and fn.call's marshalling (resolver.go:33-39). *)
  Definition go_types (pts : pmap) (p : ptr) : res json :=
    do s <- scanner_resolve parse_float zero (ar_env a) ref_std (ch_pick ch) (de_type de) (de_fields de) (ch_points ch) pts p ;
    schema_json fnum s.

  (** oapi.go:143-202: from the loaded packages to the document. *)
  Definition scan_doc (o : options) (ss : list source) (roots : list (option nat)) : res cont :=
    do cm <- scan_with 0 (fun s _ => scan_cmds {| cs_path := so_path s; cs_types := so_types s; cs_groups := so_groups s |}) ss roots [] ;
    do es <- exported_components (ch_cmds1 ch) cm ;
    do st <- scan_with 1 (fun s i => scan_specs (ch_refs ch i) (ar_gopath a) (ar_missing a) (ar_files a) {| ss_path := so_path s; ss_module := so_module s |})
               ss roots {| sp_conts := []; sp_ptrs := [] |} ;
    do c <- specs_merge (ch_merge ch) (ch_files ch) st ;
    let pp := pointers_merge (ch_p1 ch) (ch_p2 ch) [] (map_pointers (ch_cmds2 ch) (ch_p1 ch) (ch_p2 ch) cm) in
    let pp := pointers_merge (ch_p1 ch) (ch_p2 ch) pp (sp_ptrs st) in
    do pts <- scan_with 2 (fun s i m => do m' <- scan_types (ar_env a) (de_walk de) (so_types s) (so_scope s) (map snd (ch_types ch i pp)) m ; Ok (m', false)) ss roots [] ;
    do c <- merge_with_root (ch_root ch) (op_root o) c ;
    do c <- resolve (ch_resolve ch) es (scan_fn (op_override o) (go_types pts)) (de_resolve de) c ;
    set_paths_defaults (ch_paths ch) (ch_ops ch) (ch_defs ch) (ch_def ch) (op_defops o) c.

  (** oapi.go:38-42 newOAPI: the document's text (gabs Bytes is "null" if it
      cannot be written) decoded into a string field: whether that is an error.
      null leaves the field alone. *)
  Definition new_oapi (c : cont) : cont * bool :=
    (c, match clone (c_data c) with
        | Ok (JStr _) | Ok JNull => false
        | Ok _ => true
        | _ => false
        end).

  (** oapi.go:116-205 Scan: the document (None: the zero OAPI) and whether an
      error is returned.  A failing Panic or OutOfFuel stays one. *)
  Definition on_err {A B} (x : res A) (z : B) (f : A -> res B) : res B :=
    match x with Ok v => f v | Err => Ok z | Panic => Panic | OutOfFuel => OutOfFuel end.
  Definition scan (l : list opt) : res (cont * bool) :=
    on_err (apply_opts l no_options) (None, true) (fun o =>
    on_err (match op_dir o with Some d => Ok d | None => ar_cwd a end) (None, true) (fun dir =>
    on_err (ar_load a dir) (None, true) (fun lr =>
    on_err (scan_doc o (fst lr) (snd lr)) (None, true) (fun c => Ok (new_oapi c))))).
End Scan.
