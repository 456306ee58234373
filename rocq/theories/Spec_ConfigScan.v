(** What running oapi with a configuration should give. *)
From Coq Require Import String Ascii List Bool Arith ZArith Permutation.
From Verif Require Import GoStr Json Gabs Container Url Pointer Path Cmds Spec_Cmds Pkgs Spec_Pkgs Spec_Clone Spec_Loc Spec_Root Spec_Specs Spec_Resolve Tag Types Spec_Types Spec_Schema Spec_Scan Scan Spec_Kept
  Shape Spec_Shape Config.
Import ListNotations.
Local Open Scope string_scope.
Local Open Scope nat_scope.
Local Open Scope list_scope.

(** Value x, of kind s, is found at location q of the configuration document j
    (names of known members in any letter case). *)
Definition configured (j : json) (q : loc) (s : shape) (x : json) : Prop := finds (SVal TConfig) j q s x.
(** The sections the configuration has in common with an OpenAPI document. *)
Definition common : list string := ["info"; "components"; "externalDocs"; "security"; "servers"; "tags"].

(** A configuration that decoding reads in one way only, with plain keys in the
    common sections and in the overriding schemas, none of which is itself a
    reference to something outside.  (In default operations keys are free; lists
    have fewer than 2^63 elements.) *)
Definition usual_config (j : json) : Prop :=
  wf j /\ unambiguous (SVal TConfig) j /\
  (forall k s x, In k common -> configured j [SKey k] s x -> keys_ok plain x) /\
  (forall t s x, configured j [SKey "overrides"; SKey t] s x -> keys_ok plain x) /\
  (forall t s x u, configured j [SKey "overrides"; SKey t; SKey "$ref"] s x -> shows s x (JStr u) -> exists r, u = "#" +++ r) /\
  (forall t s x, configured j [SKey "operations"; SKey t] s x -> keys_ok (fun _ => True) x).
(** Its common sections have no reference at, above or below location q, unless
    into the document itself. *)
Definition quiet (j : json) (q : loc) : Prop :=
  forall k q0 s x u, In k common -> configured j (SKey k :: q0 ++ [SKey "$ref"]) s x -> shows s x (JStr u) -> Spec_Loc.apart (SKey k :: q0) q \/ exists r, u = "#" +++ r.

(** A run in usual surroundings (as [usual_scan], without the options). *)
Definition usual_run {F} (pf : string -> option F) (a : around) (ch : choices) (de : depths) (dir : string) (ss : list source) (roots : list nat) : Prop :=
  any_order ch /\ visiting_in_any_order ch /\ collecting_in_any_order ch /\
  flat_env (ar_env a) /\
  (forall d ss' roots', ar_load a d = Ok (ss', roots') -> forall fs, found_type (ar_env a) ss' (TStruct fs) -> handy pf (ar_env a) fs) /\
  (forall path c, ar_files a path = Some (Ok c) -> is_spec_doc c -> plain_doc (c_data c)) /\
  (exists d, (dir <> "" /\ d = dir \/ dir = "" /\ ar_cwd a = Ok d) /\ ar_load a d = Ok (ss, map Some roots)) /\
  loaded (map so_pkg ss) /\ (forall i, In i roots -> i < length ss) /\ length ss < de_pkgs de /\
  forall s name, visited a ss roots s -> exports_name s name -> good_name name.
(** No specification file has a reference at, above or below q, unless into the
    document itself; the same, but for one at q itself. *)
Definition files_quiet (a : around) (ss : list source) (roots : list nat) (q : loc) : Prop :=
  forall s doc, visited a ss roots s -> spec_doc_of a s doc -> only_local_refs doc q.
Definition files_quiet_but (a : around) (ss : list source) (roots : list nat) (q : loc) : Prop :=
  forall s doc, visited a ss roots s -> spec_doc_of a s doc -> only_ref_at doc q.
