(** cmd/oapi/scan.go: from the configuration to a run of Scan.  No proofs in this file. *)
From Coq Require Import String Ascii List Bool Arith ZArith.
From Verif Require Import GoStr Json Gabs Container Url Pointer Types Scan Shape Config.
Import ListNotations.
Local Open Scope string_scope.
Local Open Scope list_scope.

Section ConfigScan.
  (** [raw], [big]: as in Shape.v.  [partial]: what decoding leaves in the
      configuration when it fails (main goes on with that). *)
  Context (raw : json -> string) (big : Z -> option Z) (partial : json -> gval).

  (** config.go:14-67: the members of the configuration that Config.v leaves
      open.  (Errors of UnmarshalJSON methods stop decoding, others do not; here
      every error stops it: only whether there was one matters below.) *)
  Definition other_member (k : string) (v : json) : dec :=
    match field_of TConfig k with
    | Some f => match decode raw big v (f_shape f) with Ok _ => DOk | _ => DAbort end
    | None => DOk
    end.

  (** scan.go:12-41: the options.  The maps are marshalled when they are used
      (resolver.go:33-39, internal/oapi/oapi.go:76-80); here beforehand. *)
  Definition cli_options (dir : string) (v : gval) : res (list opt) :=
    do ov <- entries (member v "overrides") ;
    do ops <- entries (member v "operations") ;
    do root <- encode (root_of v) ;
    Ok ([WithLog] ++ (if nonempty dir then [WithDir dir] else []) ++
        (match ov with [] => [] | _ => [WithOverride ov] end) ++
        (match ops with [] => [] | _ => [WithDefOps ops] end) ++ [WithRootSchema root]).

  (** The decoded configuration. *)
  Definition config_value (c : config) : gval := match decode raw big (cf_doc c) (SVal TConfig) with Ok v => v | _ => partial (cf_doc c) end.

  Context {F : Type} (parse_float : string -> option F) (zero : F) (fnum : F -> num).
  (** scan.go:12-41 scan. *)
  Definition cli_scan (a : around) (ch : choices) (de : depths) (c : config) : res (cont * bool) :=
    do l <- cli_options (cf_dir c) (config_value c) ;
    scan parse_float zero fnum std_mapping a ch de l.
End ConfigScan.
