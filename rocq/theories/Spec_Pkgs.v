(** Import graphs. *)
From Coq Require Import String Ascii List Bool Arith Permutation Sorted.
From Verif Require Import GoStr Json Pkgs.
Import ListNotations.
Local Open Scope string_scope.
Local Open Scope list_scope.

(** Package i, not of the standard library, imports package j. *)
Definition imports (ps : pkgs) (i j : nat) : Prop :=
  exists p path, nth_error ps i = Some p /\ In (path, Some j) (g_imports p).
Definition nonstd (std : string -> bool) (ps : pkgs) (i : nat) : Prop :=
  exists p, nth_error ps i = Some p /\ std (g_path p) = false.

(** j is reachable from i through packages outside the standard library. *)
Inductive reach (std : string -> bool) (ps : pkgs) : nat -> nat -> Prop :=
| reach_here i : nonstd std ps i -> reach std ps i i
| reach_step i j k : nonstd std ps i -> imports ps i j -> reach std ps j k -> reach std ps i k.

(** A loaded import graph: no nil or dangling import, one import per path. *)
Definition loaded (ps : pkgs) : Prop :=
  Forall (fun p => NoDup (keys (g_imports p)) /\
                   Forall (fun kv => exists j, snd kv = Some j /\ j < length ps) (g_imports p)) ps.

(** x comes before y in l. *)
Definition precedes {A} (x y : A) (l : list A) : Prop := exists a b c, l = a ++ x :: b ++ y :: c.

(** sort.Strings: any function that returns the ascending arrangement. *)
Definition string_le (a b : string) : Prop := String.compare b a <> Lt.
Definition is_string_sort (srt : list string -> list string) : Prop :=
  forall l, Permutation (srt l) l /\ StronglySorted string_le (srt l).

(** Running a scanner over a list of packages, in order, whatever it returns. *)
Fixpoint run {A} (fn : nat -> A -> res (A * bool)) (l : list nat) (a : A) : res (A * list nat) :=
  match l with
  | [] => Ok (a, [])
  | i :: r => do x <- fn i a ;
              do y <- run fn r (fst x) ;
              Ok (fst y, if snd x then i :: snd y else snd y)
  end.

(** The load errors a package carries. *)
Definition load_errors (ps : pkgs) (i : nat) : list serr :=
  match nth_error ps i with Some p => repeat (ELoad i) (g_errors p) | None => [] end.
