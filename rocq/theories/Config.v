(** internal/oapi/config/config.go and cmd/oapi/config.go: reading the
    configuration file and combining it with the flags.  No proofs in this file. *)
From Coq Require Import String Ascii List Bool Arith.
From Verif Require Import GoStr Json Gabs Container Path Specs.
Import ListNotations.
Local Open Scope string_scope.
Local Open Scope list_scope.

(** container.go:68-90 ReadFile over the file system. *)
Definition read_file (fs : filesys) (p : string) : res cont :=
  match fs p with Some r => r | None => Err end.

(** config.go:122-138 extends. *)
Definition extends (fs : filesys) (ord : list string -> list (string * json) -> list (string * json)) (c : cont) (fp : string) : res cont :=
  if negb (c_existsp "extends" c) then Ok c else
  match c_data (c_path "extends" c) with
  | JStr p =>
      let p := if is_abs p then p else join2 fp p in
      do ny <- read_file fs p ;
      c_merge ord merge_default c ny
  | _ => Ok c
  end.

(** config.go:10-67 Config: the text fields this program uses; the others
    (info, servers, overrides, ...) are kept as the document they are decoded from. *)
Record config := { cf_path : string; cf_dir : string; cf_format : string; cf_output : string; cf_doc : json }.
Definition config_zero : config := {| cf_path := ""; cf_dir := ""; cf_format := ""; cf_output := ""; cf_doc := JNull |}.

(** encoding/json decoding one member into a struct: done; a type error, which
    is remembered while decoding goes on; or an error of an UnmarshalJSON
    method, which stops decoding. *)
Inductive dec := DOk | DSave | DAbort.
(** A member whose name is one of the text fields (names match in any letter
    case, here ASCII) must be a string; null leaves the field alone. *)
Definition dec_str (v : json) (set : string -> config -> config) (c : config) : config * dec :=
  match v with JStr s => (set s c, DOk) | JNull => (c, DOk) | _ => (c, DSave) end.
Definition set_dir (s : string) (c : config) : config := {| cf_path := cf_path c; cf_dir := s; cf_format := cf_format c; cf_output := cf_output c; cf_doc := cf_doc c |}.
Definition set_format (s : string) (c : config) : config := {| cf_path := cf_path c; cf_dir := cf_dir c; cf_format := s; cf_output := cf_output c; cf_doc := cf_doc c |}.
Definition set_output (s : string) (c : config) : config := {| cf_path := cf_path c; cf_dir := cf_dir c; cf_format := cf_format c; cf_output := s; cf_doc := cf_doc c |}.
Definition set_path (s : string) (c : config) : config := {| cf_path := s; cf_dir := cf_dir c; cf_format := cf_format c; cf_output := cf_output c; cf_doc := cf_doc c |}.

Section Decode.
  (** What decoding does with the members of the other fields. *)
  Context (other : string -> json -> dec).
  Definition dec_member (k : string) (v : json) (c : config) : config * dec :=
    if equal_fold k "dir" then dec_str v set_dir c
    else if equal_fold k "format" then dec_str v set_format c
    else if equal_fold k "output" then dec_str v set_output c
    else if equal_fold k "extends" || equal_fold k "version" || equal_fold k "openapi" then dec_str v (fun _ c => c) c
    else (c, other k v).
  Fixpoint dec_members (m : list (string * json)) (c : config) (bad : bool) : config * bool :=
    match m with
    | [] => (c, bad)
    | (k, v) :: r =>
        let '(c', d) := dec_member k v c in
        match d with
        | DOk => dec_members r c' bad
        | DSave => dec_members r c' true
        | DAbort => (c', true)
        end
    end.
  (** json.Unmarshal(cx.Bytes(), &c); gabs Bytes() is "null" when marshalling
      fails.  The boolean: an error was returned (what was decoded is kept). *)
  Definition unmarshal_config (cx : cont) : config * bool :=
    match clone (c_data cx) with
    | Ok (JObj m) => dec_members m {| cf_path := ""; cf_dir := ""; cf_format := ""; cf_output := ""; cf_doc := JObj m |} false
    | Ok JNull => (config_zero, false)
    | Ok _ => (config_zero, true)
    | _ => (config_zero, false)
    end.

  (** config.go:105-120 ReadFile. *)
  Definition read_config (fs : filesys) (ord : list string -> list (string * json) -> list (string * json)) (file : string) : res (config * bool) :=
    match (do cx <- read_file fs file ; extends fs ord cx (dir file)) with
    | Ok cx => let '(c, bad) := unmarshal_config cx in Ok (if bad then c else set_path file c, bad)
    | Err => Ok (config_zero, true)
    | Panic => Panic
    | OutOfFuel => OutOfFuel
    end.

  (** cmd/oapi/config.go:14-22 Config: the flags. *)
  Record flags := { fl_config : string; fl_dir : string; fl_format : string; fl_output : string }.

  Definition nonempty (s : string) : bool := negb (String.eqb s "").
  (** cmd/oapi/config.go:103-116: "stdout" and "stderr" leave the choice alone. *)
  Definition choose_output (o base cur : string) : string :=
    if nonempty o then
      if String.eqb o "stderr" || String.eqb o "stdout" then cur else to_abs o base
    else cur.
  (** cmd/oapi/config.go:64-119 full; [wd] is os.Getwd().  The boolean: an error was returned. *)
  Definition full (fs : filesys) (ord : list string -> list (string * json) -> list (string * json)) (wd : string) (ff : flags) : res (config * bool) :=
    do r <- (if nonempty (fl_config ff) then read_config fs ord (to_abs (fl_config ff) wd) else Ok (config_zero, false)) ;
    let '(cfg, bad) := r in
    if bad then Ok (cfg, true) else
    let d := if nonempty (fl_dir ff) then to_abs (fl_dir ff) wd
             else if nonempty (cf_dir cfg) then to_abs (cf_dir cfg) (dir (cf_path cfg)) else wd in
    let f := if nonempty (fl_format ff) then fl_format ff
             else if nonempty (cf_format cfg) then cf_format cfg else "json:pretty" in
    let o := choose_output (fl_output ff) wd (choose_output (cf_output cfg) d "stdout") in
    Ok ({| cf_path := cf_path cfg; cf_dir := d; cf_format := f; cf_output := o; cf_doc := cf_doc cfg |}, false).
End Decode.
