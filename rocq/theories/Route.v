(** internal/route/route.go.  No proofs in this file. *)
From Coq Require Import String Ascii List Bool Arith.
From Verif Require Import GoStr Json Regex.
Import ListNotations.
Local Open Scope string_scope.
Local Open Scope list_scope.
Local Open Scope nat_scope.

(** route.go:13-53 methods. *)
Definition methods : list string :=
  ["ACL"; "BASELINE-CONTROL"; "BIND"; "CHECKIN"; "CHECKOUT"; "CONNECT"; "COPY"; "DELETE"; "GET"; "HEAD"; "LABEL"; "LINK";
   "LOCK"; "MERGE"; "MKACTIVITY"; "MKCALENDAR"; "MKCOL"; "MKREDIRECTREF"; "MKWORKSPACE"; "MOVE"; "OPTIONS"; "ORDERPATCH";
   "PATCH"; "POST"; "PRI"; "PROPFIND"; "PROPPATCH"; "PUT"; "REBIND"; "REPORT"; "SEARCH"; "TRACE"; "UNBIND"; "UNCHECKOUT";
   "UNLINK"; "UNLOCK"; "UPDATE"; "UPDATEREDIRECTREF"; "VERSION-CONTROL"].

(** route.go:11 variables: length of the match of (a brace, a lower-case letter, letters or digits, a brace; or a star)
    at the beginning of the text (at most one match is possible there). *)
Fixpoint name_end (s : string) : option nat :=
  match s with
  | String c r => if Ascii.eqb c "}" then Some 1 else if is_alnum c then option_map S (name_end r) else None
  | EmptyString => None
  end.
Definition var_at (s : string) : option nat :=
  match s with
  | String c r =>
      if Ascii.eqb c "*" then Some 1
      else if Ascii.eqb c "{" then
        match r with
        | String a (String b t) => if is_lower a && is_alnum b then option_map (fun n => n + 2) (name_end (String b t)) else None
        | _ => None
        end
      else None
  | EmptyString => None
  end.

(** route.go:72-90: FindAllStringIndex (leftmost, non-overlapping) and the parts
    joined.  [skip] counts the bytes of the current variable still to pass,
    [lit] is the text since the last variable, already quoted in case another
    variable follows. *)
Fixpoint translate_from (skip : nat) (lit : string) (s : string) : string :=
  match s with
  | EmptyString => lit
  | String c r =>
      match skip with
      | S k => translate_from k lit r
      | O =>
          match var_at s with
          | Some n => quote_meta lit +++ (if Ascii.eqb c "*" then "(.*)" else "([^/]+)") +++ translate_from (n - 1) "" r
          | None => translate_from 0 (lit +++ str1 c) r
          end
      end
  end.
Definition translate (pattern : string) : string := translate_from 0 "" pattern.

(** route.go:60-69: the first method whose lower-case name and ':' prefix the
    lower-case pattern (ASCII letters). *)
Definition method_prefix (pattern : string) : option (string * string) :=
  match find (fun m => has_prefix (to_lower m +++ ":") (to_lower pattern)) methods with
  | Some m => Some (to_lower m, skipn_s (String.length m + 1) pattern)
  | None => None
  end.

(** route.go:98-112 compileCached without the cache (the cache is modelled in
    RouteCache.v). *)
Definition compile_route (pettern : string) : res re := re_compile ("^" +++ pettern +++ "$").

(** route.go:59-96 Match. *)
Definition route_match (pattern method path : string) : res bool :=
  let '(fm, pat) := match method_prefix pattern with Some (m, p) => (m, p) | None => ("", pattern) end in
  if negb (String.eqb fm "") && negb (String.eqb method "") && negb (equal_fold fm method) then Ok false
  else do r <- compile_route (translate pat) ; Ok (match_string r path).
