(** internal/oapi/scan/specs/scan.go: reading the specification files of a
    package and making their references absolute.  No proofs in this file. *)
From Coq Require Import String Ascii List Bool Arith.
From Verif Require Import GoStr Json Gabs Container Url Pointer Path.
Import ListNotations.
Local Open Scope string_scope.
Local Open Scope list_scope.

(** What specs/scan.go uses of a package. *)
Record ssource := { ss_path : string; ss_module : option gmod }.

(** specs/scan.go:12-16 Scanner (the patterns are fixed, scan.go:20). *)
Record sstate := { sp_conts : list file; sp_ptrs : pointers }.

(** The file system as container.ReadFile sees it: no such file, or the result
    of reading and parsing it (container.go:85-116). *)
Definition filesys := string -> option (res cont).

(** container.go:209-239 ReadDir with specs/scan.go:20's patterns, for a
    directory name without glob metacharacters: each pattern then names one file. *)
Definition spec_names : list string := ["oapi.yaml"; "oapi.yml"; "oapi.json"].
Fixpoint read_each (fs : filesys) (l : list string) : res (list file) :=
  match l with
  | [] => Ok []
  | p :: r => match fs p with
              | None => read_each fs r
              | Some x => do c <- x ; do cc <- read_each fs r ; Ok ({| f_path := p; f_cont := c |} :: cc)
              end
  end.
Definition read_dir (fs : filesys) (d : string) : res (list file) := read_each fs (map (join2 d) spec_names).

(** specs/scan.go:53-63: the pointer of a reference text; local go references
    get the package's path (scan.go:60-62, whose error is dropped). *)
Definition abs_ptr (pkg : string) (p : ptr) : ptr :=
  if String.eqb (u_scheme (p_url p)) "go" && String.eqb (pkg_path p) "" then
    {| p_url := p_url (ptr_parse_value ("go://" +++ pkg +++ "#/")); p_frag := p_frag p |}
  else p.

(** specs/scan.go:48-71: the loop over the extracted references. *)
Fixpoint rewrite_refs (pkg : string) (refs : list (string * json)) (c : cont) (pp : pointers) : res cont * pointers :=
  match refs with
  | [] => (Ok c, pp)
  | (k, JStr x) :: r =>
      match ptr_parse x with
      | Ok p0 =>
          let p := abs_ptr pkg p0 in
          let pp := oset (ptr_string p) p pp in
          match c_setp k (JStr (ptr_string p)) c with
          | Ok c' => rewrite_refs pkg r c' pp
          | Err => (Err, pp) | Panic => (Panic, pp) | OutOfFuel => (OutOfFuel, pp)
          end
      | Err => (Err, pp) | Panic => (Panic, pp) | OutOfFuel => (OutOfFuel, pp)
      end
  | (_, _) :: r => rewrite_refs pkg r c pp
  end.

(** specs/scan.go:38-74: the loop over the files; [ord n] is the iteration
    order of the n-th flattened document. *)
Fixpoint scan_files (ord : nat -> list (string * json) -> list (string * json)) (n : nat) (pkg : string)
    (ff : list file) (pp : pointers) : res (list file) * pointers :=
  match ff with
  | [] => (Ok [], pp)
  | f :: r =>
      if negb (c_existsp "openapi" (f_cont f)) then scan_files ord n pkg r pp else
      match extract_key (ord n) "$ref" (f_cont f) with
      | Ok refs =>
          match rewrite_refs pkg refs (f_cont f) pp with
          | (Ok c, pp) =>
              match scan_files ord (S n) pkg r pp with
              | (Ok cc, pp) => (Ok ({| f_path := f_path f; f_cont := c |} :: cc), pp)
              | other => other
              end
          | (Err, pp) => (Err, pp) | (Panic, pp) => (Panic, pp) | (OutOfFuel, pp) => (OutOfFuel, pp)
          end
      | Err => (Err, pp) | Panic => (Panic, pp) | OutOfFuel => (OutOfFuel, pp)
      end
  end.

(** specs/scan.go:25-79 Scan; the boolean: an error was returned. *)
Definition scan_specs (ord : nat -> list (string * json) -> list (string * json)) (gopath : string) (stat_missing : string -> bool)
    (fs : filesys) (s : ssource) (st : sstate) : res (sstate * bool) :=
  match get_pkg_path gopath stat_missing (ss_path s) (ss_module s) with
  | Ok d =>
      match read_dir fs d with
      | Ok ff =>
          let '(r, pp) := scan_files ord 0 (ss_path s) ff (sp_ptrs st) in
          match r with
          | Ok cc => Ok ({| sp_conts := sp_conts st ++ cc; sp_ptrs := pp |}, false)
          | Err => Ok ({| sp_conts := sp_conts st; sp_ptrs := pp |}, true)
          | Panic => Panic
          | OutOfFuel => OutOfFuel
          end
      | Err => Ok (st, true)
      | Panic => Panic
      | OutOfFuel => OutOfFuel
      end
  | _ => Ok (st, true)
  end.

(** specs/scan.go:82-84 Merge. *)
Definition specs_merge (ord : nat -> list string -> list (string * json) -> list (string * json))
    (srt : list file -> list file) (st : sstate) : res cont :=
  containers_merge ord merge_strict (map f_cont (srt (sp_conts st))).
