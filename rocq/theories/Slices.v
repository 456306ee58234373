(** Fragments as Go slices: backing arrays shared between fragments.
    fragment.go: Clone, Descendant, RawDescendant, parseFragment;
    pointer.go:29-33 NewPointer.  No proofs in this file. *)
From Coq Require Import String Ascii List Bool Arith.
From Verif Require Import GoStr Pointer.
Import ListNotations.
Local Open Scope string_scope.
Local Open Scope nat_scope.
Local Open Scope list_scope.

(** A backing array is the list of all its cells (its length is the capacity).
    The heap is the list of allocated arrays, in allocation order. *)
Definition sheap := list (list string).
(** Slices in this package always start at cell 0 of their array. *)
Record slice := { s_arr : nat; s_len : nat }.

Definition s_cells (h : sheap) (s : slice) : list string := nth (s_arr s) h [].
Definition s_cap (h : sheap) (s : slice) : nat := length (s_cells h s).
(** The value of a slice. *)
Definition s_val (h : sheap) (s : slice) : fragment := firstn (s_len s) (s_cells h s).

(** A new array holding [l] plus [spare] zero cells. *)
Definition alloc (h : sheap) (l : list string) (spare : nat) : sheap * slice :=
  (h ++ [l ++ repeat "" spare], {| s_arr := length h; s_len := length l |}).

(** Overwrite the cells of array [a] from index [i] with [l]. *)
Fixpoint update {A} (n : nat) (f : A -> A) (l : list A) : list A :=
  match l, n with
  | [], _ => []
  | x :: r, O => f x :: r
  | x :: r, S k => x :: update k f r
  end.
Definition write_at (i : nat) (l cells : list string) : list string :=
  firstn i cells ++ l ++ skipn (i + length l) cells.

(** Go append(s, l...): in place when the capacity suffices, otherwise into a new
    array; [grow] is the spare capacity the runtime adds when growing. *)
Definition s_append (grow : nat) (h : sheap) (s : slice) (l : list string) : sheap * slice :=
  if s_len s + length l <=? s_cap h s
  then (update (s_arr s) (write_at (s_len s) l) h, {| s_arr := s_arr s; s_len := s_len s + length l |})
  else alloc h (s_val h s ++ l) grow.

(** fragment.go:60-64 Clone. *)
Definition s_clone (h : sheap) (s : slice) : sheap * slice := alloc h (s_val h s) 0.
(** pointer.go:29-33 NewPointer: length 0, capacity 32. *)
Definition s_new_pointer (h : sheap) : sheap * slice := (h ++ [repeat "" 32], {| s_arr := length h; s_len := 0 |}).
(** fragment.go:128-143 parseFragment: strings.Split allocates exactly. *)
Definition s_parse (h : sheap) (str : string) : res (sheap * slice) :=
  do f <- parse_fragment str ; Ok (alloc h f 0).
(** fragment.go:107-109 RawDescendant. *)
Definition s_raw_descendant (grow : nat) (h : sheap) (s : slice) (l : list string) := s_append grow h s l.
(** fragment.go:87-101 Descendant. *)
Definition s_descendant (grow : nat) (h : sheap) (s : slice) (path : string) : res (sheap * slice) :=
  let path := if has_prefix "/" path then path else "/" +++ path in
  do (h1, d) <- s_parse h path ;
  if String.eqb (frag_string (s_val h1 s)) "/" then Ok (h1, d)
  else Ok (s_append grow h1 s (s_val h1 d)).
