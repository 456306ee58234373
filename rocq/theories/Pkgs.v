(** internal/pkgutil/util.go: visiting the packages of an import graph.
    No proofs in this file. *)
From Coq Require Import String Ascii List Bool Arith.
From Verif Require Import GoStr Json.
Import ListNotations.
Local Open Scope string_scope.
Local Open Scope list_scope.

(** golang.org/x/tools/go/packages.Package, the parts used by util.go:30-59:
    the import path, how many load errors it carries, and its imports (a Go
    map, so one entry per path).  A package is known by its address: an index
    into the list of all loaded packages; None is the nil pointer. *)
Record gpkg := { g_path : string; g_errors : nat; g_imports : list (string * option nat) }.
Definition pkgs := list gpkg.

(** One collected error: a load error of a package (util.go:41-43) or its
    scanner's (util.go:54-56).  Texts are not modelled. *)
Inductive serr := ELoad (i : nat) | EScan (i : nat).

Section Scan.
  (** The state of the scanner; what its Scan method does to it: Ok (a, true)
      is a returned error (the state may have changed all the same). *)
  Context {A : Type} (fn : nat -> A -> res (A * bool)).
  (** util.go:11-22,72-75: the set of standard library paths. *)
  Context (std : string -> bool).
  (** Go map iteration (util.go:46-49); sort.Strings (util.go:50). *)
  Context (ord : nat -> list string -> list string) (srt : list string -> list string).
  Context (ps : pkgs).

  (** Seen set, collected errors, scanner state. *)
  Definition vstate : Type := list nat * list serr * A.

  (** util.go:51-53: visit each import in turn. *)
  Fixpoint visit_all (v : option nat -> vstate -> res vstate) (l : list (option nat)) (s : vstate) : res vstate :=
    match l with
    | [] => Ok s
    | x :: r => do s' <- v x s ; visit_all v r s'
    end.

  (** util.go:50-51: pkg.Imports[path] for the sorted paths (a missing path would be nil). *)
  Definition import_list (i : nat) (p : gpkg) : list (option nat) :=
    map (fun path => match oget path (g_imports p) with Some x => x | None => None end)
      (srt (ord i (keys (g_imports p)))).

  (** util.go:33-59 visit.  seen[nil] is false and IsStdLibPkg(nil) dereferences
      nil before the nil check: a nil package panics.  [fuel] bounds the depth. *)
  Fixpoint visit (fuel : nat) (p : option nat) (s : vstate) : res vstate :=
    match fuel with
    | O => OutOfFuel
    | S fuel' =>
        match p with
        | None => Panic
        | Some i =>
            let '(seen, errs, a) := s in
            if existsb (Nat.eqb i) seen then Ok s else
            match nth_error ps i with
            | None => Panic
            | Some pkg =>
                if std (g_path pkg) then Ok s else
                do s1 <- visit_all (visit fuel') (import_list i pkg)
                           (i :: seen, errs ++ repeat (ELoad i) (g_errors pkg), a) ;
                let '(seen1, errs1, a1) := s1 in
                do r <- fn i a1 ;
                Ok (seen1, if snd r then errs1 ++ [EScan i] else errs1, fst r)
            end
        end
    end.

  (** util.go:30-69 Scan: the scanner's final state and the collected errors;
      it returns a non-nil error when there are any (util.go:65-69). *)
  Definition scan_pkgs (fuel : nat) (roots : list (option nat)) (a : A) : res (A * list serr) :=
    do s <- visit_all (visit fuel) roots ([], [], a) ;
    Ok (snd s, snd (fst s)).
End Scan.
