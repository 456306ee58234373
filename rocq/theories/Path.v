(** path/filepath on Unix, as used by internal/pkgutil/info.go, the config
    reader and the command; and pkgutil's package directories.
    No proofs in this file. *)
From Coq Require Import String Ascii List Bool Arith.
From Verif Require Import GoStr.
Import ListNotations.
Local Open Scope string_scope.
Local Open Scope list_scope.

(** filepath.IsAbs (cmd/oapi/config.go:122, config.go:133). *)
Definition is_abs (p : string) : bool := has_prefix "/" p.

(** filepath.Clean: one element of the path against the elements kept so far
    (innermost first).  Written over elements, not over the byte buffer of the
    Go implementation. *)
Definition clean_step (rooted : bool) (out : list string) (e : string) : list string :=
  if String.eqb e "" || String.eqb e "." then out
  else if String.eqb e ".." then
    match out with
    | [] => if rooted then [] else [".."]
    | x :: r => if String.eqb x ".." then ".." :: out else r
    end
  else e :: out.
Definition clean_elems (p : string) : list string :=
  rev (fold_left (clean_step (is_abs p)) (split_char "/" p) []).
Definition clean (p : string) : string :=
  let body := join "/" (clean_elems p) in
  if is_abs p then "/" +++ body
  else if String.eqb body "" then "." else body.

(** filepath.Join(a, b). *)
Definition join2 (a b : string) : string :=
  if negb (String.eqb a "") then clean (a +++ "/" +++ b)
  else if negb (String.eqb b "") then clean b
  else "".

(** filepath.Dir: everything up to the last slash, cleaned. *)
Fixpoint upto_slash (p : string) : string :=
  match p with
  | EmptyString => EmptyString
  | String c r => if has_char "/" r then String c (upto_slash r)
                  else if Ascii.eqb c "/" then str1 c else EmptyString
  end.
Definition dir (p : string) : string := clean (upto_slash p).

(** cmd/oapi/config.go:121-126 toAbsPath. *)
Definition to_abs (path fallback : string) : string :=
  if is_abs path then path else join2 fallback path.

(** packages.Module, the parts used by info.go:21-33. *)
Record gmod := { m_path : string; m_dir : string }.

(** internal/pkgutil/info.go:21-42 getPkgPath and GetPkgPath.  [gopath] is
    getGoPath() (info.go:13-19); [stat_missing p]: os.Stat fails with a
    not-exist error.  strings.Replace with an empty old text (a module without
    a path) inserts nothing: the package path is kept. *)
Definition get_pkg_path (gopath : string) (stat_missing : string -> bool) (path : string) (m : option gmod) : res string :=
  match m with
  | None =>
      let p := join2 gopath path in
      if stat_missing p then Err else Ok p
  | Some m =>
      if String.eqb (m_dir m) "" then Err
      else Ok (join2 (m_dir m) (if String.eqb (m_path m) "" then path else replace_first (m_path m) "" path))
  end.
