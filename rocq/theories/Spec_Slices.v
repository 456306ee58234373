(** Histories of fragment operations, and what each fragment should be. *)
From Coq Require Import String List Bool Arith.
From Verif Require Import GoStr Pointer Slices.
Import ListNotations.

(** An operation creates one new fragment; fragments are numbered in creation
    order and [i] is the number of the fragment operated on. *)
Inductive sop :=
| OParse (s : string)
| ONew                                       (* NewPointer().Fragment *)
| OClone (i : nat)
| ODesc (i : nat) (grow : nat) (path : string)
| ORaw (i : nat) (grow : nat) (l : list string).

(** Running on the heap: every fragment created so far, oldest first.
    [None]: an operand number out of range or a rejected text. *)
Definition sstep (st : sheap * list slice) (o : sop) : option (sheap * list slice) :=
  let (h, ss) := st in
  let done (r : sheap * slice) := Some (fst r, ss ++ [snd r]) in
  match o with
  | OParse s => match s_parse h s with Ok r => done r | _ => None end
  | ONew => done (s_new_pointer h)
  | OClone i => match nth_error ss i with Some s => done (s_clone h s) | None => None end
  | ODesc i g p => match nth_error ss i with
                   | Some s => match s_descendant g h s p with Ok r => done r | _ => None end
                   | None => None
                   end
  | ORaw i g l => match nth_error ss i with Some s => done (s_raw_descendant g h s l) | None => None end
  end.
Fixpoint srun (st : sheap * list slice) (ops : list sop) : option (sheap * list slice) :=
  match ops with
  | [] => Some st
  | o :: r => match sstep st o with Some st' => srun st' r | None => None end
  end.

(** What the fragments should be: operations on values, never changing old ones. *)
Definition vstep (vs : list fragment) (o : sop) : option (list fragment) :=
  match o with
  | OParse s => match parse_fragment s with Ok f => Some (vs ++ [f]) | _ => None end
  | ONew => Some (vs ++ [[]])
  | OClone i => option_map (fun f => vs ++ [f]) (nth_error vs i)
  | ODesc i _ p => match nth_error vs i with
                   | Some f => match descendant f p with Ok g => Some (vs ++ [g]) | _ => None end
                   | None => None
                   end
  | ORaw i _ l => option_map (fun f => vs ++ [raw_descendant f l]) (nth_error vs i)
  end.
Fixpoint vrun (vs : list fragment) (ops : list sop) : option (list fragment) :=
  match ops with
  | [] => Some vs
  | o :: r => match vstep vs o with Some vs' => vrun vs' r | None => None end
  end.

(** Every Descendant/RawDescendant is applied to a fragment whose backing array
    is full at that moment. *)
Definition full (h : sheap) (s : slice) : Prop := s_len s = s_cap h s.
Fixpoint from_full (st : sheap * list slice) (ops : list sop) : Prop :=
  match ops with
  | [] => True
  | o :: r =>
      match o with
      | ODesc i _ _ | ORaw i _ _ => forall s, nth_error (snd st) i = Some s -> full (fst st) s
      | _ => True
      end /\
      match sstep st o with Some st' => from_full st' r | None => True end
  end.
