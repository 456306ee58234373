(** internal/oapi/oapi.go: merging the root configuration, listing the
    operations of a document, applying default operations.  No proofs in this file. *)
From Coq Require Import String Ascii List Bool Arith.
From Verif Require Import GoStr Json Gabs Container Regex Route.
Import ListNotations.
Local Open Scope string_scope.
Local Open Scope nat_scope.
Local Open Scope list_scope.

(** Iteration orders of the maps met during one Merge. *)
Definition morder : Type := list string -> list (string * json) -> list (string * json).

(** *** MergeWithRoot (oapi.go:103-154) *)

(** oapi.go:114-125. *)
Definition sections : list (merger * string) :=
  [(merge_override, "info"); (merge_strict, "components"); (merge_default, "paths"); (merge_default, "externalDocs");
   (merge_default, "security"); (merge_default, "servers"); (merge_default, "tags")].

(** oapi.go:126-152: one section; its three merges iterate in the orders ord n, ord (n+1), ord (n+2). *)
Definition merge_section (ord : nat -> morder) (n : nat) (r c : cont) (x : merger * string) : res cont :=
  let z := c_path (snd x) c in
  let y := c_path (snd x) r in
  do zn <- c_is_nil z ;
  do yn <- (if zn then c_is_nil y else Ok false) ;
  if zn && yn then Ok c
  else
    do s <- c_merge (ord n) (fst x) c_new z ;
    do s <- c_merge (ord (n + 1)) (fst x) s y ;
    let p := match c_make (JObj [(snd x, c_data s)]) with Ok p => p | _ => c_zero end in
    c_merge (ord (n + 2)) merge_override c p.
Fixpoint merge_sections (ord : nat -> morder) (n : nat) (r c : cont) (l : list (merger * string)) : res cont :=
  match l with
  | [] => Ok c
  | x :: l' => do c' <- merge_section ord n r c x ; merge_sections ord (n + 3) r c' l'
  end.
(** [root]: the JSON form of the root configuration (spec.OpenAPI). *)
Definition merge_with_root (ord : nat -> morder) (root : json) (c : cont) : res cont :=
  do r <- c_make root ; merge_sections ord 0 r c sections.

(** *** Paths (oapi.go:37-61) *)

(** oapi.go:10-15 FlattenPath.  Operation is a container around a value inside
    the document: [fp_in] says that this value is a map that is still the one
    in the document, so that merging into it changes the document. *)
Record fpath := { fp_method : string; fp_path : string; fp_key : string; fp_op : cont; fp_in : bool }.

(** oapi.go:50-58. *)
Definition fpath_of (path m : string) (obj : json) : fpath :=
  {| fp_method := m; fp_path := path; fp_key := slice_to_dot_path ["paths"; path; m]; fp_op := Some obj; fp_in := is_obj obj |}.
(** oapi.go:43-59; [ordp] and [ordm path] are iteration orders. *)
Fixpoint items_of (ordm : morder) (ps : list (string * json)) : res (list fpath) :=
  match ps with
  | [] => Ok []
  | (path, methods) :: ps' =>
      do mx <- c_children (Some methods) ;
      do ff <- items_of ordm ps' ;
      Ok (map (fun kv => fpath_of path (fst kv) (snd kv)) (ordm [path] mx) ++ ff)
  end.
Definition paths_of (ordp : list (string * json) -> list (string * json)) (ordm : morder) (c : cont) : res (list fpath) :=
  do paths <- c_children (c_path "paths" c) ; items_of ordm (ordp paths).

(** *** SetPathsDefaults (oapi.go:66-100) *)

(** oapi.go:21-34 FlattenPaths.Match: positions of the matching entries, from position i. *)
Fixpoint match_idx (pattern : string) (i : nat) (fp : list fpath) : res (list nat) :=
  match fp with
  | [] => Ok []
  | x :: r =>
      do b <- route_match pattern (fp_method x) (fp_path x) ;
      do l <- match_idx pattern (S i) r ;
      Ok (if b then i :: l else l)
  end.

(** The document location a key (dot path) of [fpath_of] denotes. *)
Definition key_loc (f : fpath) : list string := dot_path (fp_key f).
Definition op_loc (f : fpath) : list string := ["paths"; fp_path f; fp_method f].

(** oapi.go:79-96: one matched entry.  The document changes through the
    merged map itself (if it is in the document) and through SetP, which puts
    a copy at the key's location; an entry whose map was there is no longer in
    the document afterwards. *)
Definition detach (loc : list string) (f : fpath) : fpath :=
  if list_eq_dec string_dec (op_loc f) loc
  then {| fp_method := fp_method f; fp_path := fp_path f; fp_key := fp_key f; fp_op := fp_op f; fp_in := false |} else f.
Definition apply_default (ord : morder) (override : json) (i : nat) (st : cont * list fpath) : res (cont * list fpath) :=
  match nth_error (snd st) i with
  | None => Ok st
  | Some f =>
      do ov <- c_make override ;
      do nc <- c_merge ord merge_default (fp_op f) ov ;
      do c1 <- (if fp_in f then c_set (c_data nc) (op_loc f) (fst st) else Ok (fst st)) ;
      do c2 <- c_setp (fp_key f) (c_data nc) c1 ;
      let f' := {| fp_method := fp_method f; fp_path := fp_path f; fp_key := fp_key f; fp_op := nc; fp_in := fp_in f |} in
      Ok (c2, map (detach (key_loc f)) (set_nth i f' (snd st)))
  end.
Fixpoint apply_defaults (ord : nat -> morder) (override : json) (l : list nat) (st : cont * list fpath) : res (cont * list fpath) :=
  match l with
  | [] => Ok st
  | i :: l' => do st' <- apply_default (ord i) override i st ; apply_defaults ord override l' st'
  end.
(** oapi.go:72-97; [defs] in iteration order. *)
Fixpoint defaults_loop (ord : nat -> nat -> morder) (n : nat) (defs : list (string * json)) (st : cont * list fpath) : res (cont * list fpath) :=
  match defs with
  | [] => Ok st
  | (pattern, override) :: defs' =>
      do l <- match_idx pattern 0 (snd st) ;
      do st' <- apply_defaults (ord n) override l st ;
      defaults_loop ord (S n) defs' st'
  end.
(** [defops]: pattern -> JSON form of the default operation (spec.Operation). *)
Definition set_paths_defaults (ordp : list (string * json) -> list (string * json)) (ordm : morder)
    (ordd : list (string * json) -> list (string * json)) (ord : nat -> nat -> morder)
    (defops : list (string * json)) (c : cont) : res cont :=
  do ff <- paths_of ordp ordm c ;
  do st <- defaults_loop ord 0 (ordd defops) (c, ff) ;
  Ok (fst st).
