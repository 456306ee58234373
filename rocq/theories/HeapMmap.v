(** utils.go:97-123 mmap in memory: what clone (utils.go:50-61) does to the
    caller's own value before it copies it.  No proofs. *)
From Coq Require Import String List Bool Arith.
From Verif Require Import GoStr Json Gabs.
Import ListNotations.
Local Open Scope string_scope.
Local Open Scope nat_scope.
Local Open Scope list_scope.

(** An interface value: anything that mmap returns as it is, or a slice or map. *)
Inductive yv := YLit (j : json) | YRef (a : nat).
(** []interface{}, map[string]interface{} and map[interface{}]interface{}, the
    keys of the last printed with fmt.Sprint. *)
Inductive ycell := YArr (l : list yv) | YObj (m : list (string * yv)) | YAny (m : list (string * yv)).
Definition yheap := list ycell.

Definition store_elem (a i : nat) (v : yv) (h : yheap) : yheap :=
  match nth_error h a with Some (YArr l) => set_nth a (YArr (set_nth i v l)) h | _ => h end.
Definition store_key (a : nat) (k : string) (v : yv) (h : yheap) : yheap :=
  match nth_error h a with Some (YObj m) => set_nth a (YObj (oset k v m)) h | _ => h end.

(** None: the value is cyclic and the call does not come back.  The loops store
    what the recursive call returns where the element was; entries are visited in
    the order of the list. *)
Fixpoint ymmap (n : nat) (h : yheap) (v : yv) : option (yheap * yv) :=
  match v with
  | YLit _ => Some (h, v)
  | YRef a =>
      match n with
      | O => None
      | S n' =>
          match nth_error h a with
          | None => None
          | Some (YAny m) =>
              (fix go (es acc : list (string * yv)) (h : yheap) : option (yheap * yv) :=
                 match es with
                 | [] => Some (h ++ [YObj acc], YRef (length h))
                 | (k, x) :: r => match ymmap n' h x with
                                  | Some (h1, y) => go r (oset k y acc) h1
                                  | None => None
                                  end
                 end) m [] h
          | Some (YArr l) =>
              (fix go (i : nat) (es : list yv) (h : yheap) : option (yheap * yv) :=
                 match es with
                 | [] => Some (h, v)
                 | x :: r => match ymmap n' h x with
                             | Some (h1, y) => go (S i) r (store_elem a i y h1)
                             | None => None
                             end
                 end) 0 l h
          | Some (YObj m) =>
              (fix go (es : list (string * yv)) (h : yheap) : option (yheap * yv) :=
                 match es with
                 | [] => Some (h, v)
                 | (k, x) :: r => match ymmap n' h x with
                                  | Some (h1, y) => go r (store_key a k y h1)
                                  | None => None
                                  end
                 end) m h
          end
      end
  end.
