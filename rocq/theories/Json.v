(** Dynamic values held by a container (Go [interface{}] after decoding).

    container.go:16-20 wraps gabs, whose payload is one of: nil, bool, number,
    string, []interface{}, map[string]interface{}.  A Go map is represented by
    the association list of its entries with strictly increasing keys: the
    canonical representation, so that equality of maps is Coq equality.  This
    order is *never* used as an iteration order by the model of /repo: every
    [range] over a map goes through an explicit permutation oracle.

    Simplifications: strings are assumed valid UTF-8 (encoding/json replaces
    invalid bytes by U+FFFD); a typed nil map (ReadJSON of the text "null") is
    not distinguished from nil.  No proofs in this file. *)

From Coq Require Import String Ascii List Bool Arith ZArith Permutation.
From Verif Require Import GoStr.
Import ListNotations.

(** Numbers: a Go integer of any integer type; a float64 given as mantissa and
    binary exponent (m * 2^e); a float64 NaN or infinity. *)
Inductive num : Type :=
| NInt (z : Z)
| NFlt (m e : Z)
| NBad.

Inductive json : Type :=
| JNull
| JBool (b : bool)
| JNum (n : num)
| JStr (s : string)
| JArr (l : list json)
| JObj (m : list (string * json)).

(** m[k], with the comma-ok flag. *)
Fixpoint oget {A} (k : string) (m : list (string * A)) : option A :=
  match m with
  | [] => None
  | (k', v) :: m' => if String.eqb k k' then Some v else oget k m'
  end.

(** m[k] = v. *)
Fixpoint oset {A} (k : string) (v : A) (m : list (string * A)) : list (string * A) :=
  match m with
  | [] => [(k, v)]
  | (k', v') :: m' =>
      match String.compare k k' with
      | Lt => (k, v) :: m
      | Eq => (k, v) :: m'
      | Gt => (k', v') :: oset k v m'
      end
  end.

(** delete(m, k). *)
Fixpoint odel {A} (k : string) (m : list (string * A)) : list (string * A) :=
  match m with
  | [] => []
  | (k', v') :: m' => if String.eqb k k' then m' else (k', v') :: odel k m'
  end.

(** The map with the given entries (the first of several entries with the same
    key wins). *)
Definition obj_of {A} (l : list (string * A)) : list (string * A) :=
  fold_right (fun kv m => oset (fst kv) (snd kv) m) [] l.

Definition keys {A} (m : list (string * A)) : list string := map fst m.

(** Keys strictly increasing: the list represents a Go map. *)
Fixpoint sorted {A} (m : list (string * A)) : Prop :=
  match m with
  | [] => True
  | (k, _) :: m' =>
      match m' with
      | [] => True
      | (k', _) :: _ => String.compare k k' = Lt
      end /\ sorted m'
  end.

(** A value all of whose maps are represented canonically. *)
Fixpoint wf (j : json) : Prop :=
  match j with
  | JArr l => (fix wl (l : list json) : Prop :=
                 match l with [] => True | x :: r => wf x /\ wl r end) l
  | JObj m => sorted m /\
              (fix wm (m : list (string * json)) : Prop :=
                 match m with [] => True | (_, x) :: r => wf x /\ wm r end) m
  | _ => True
  end.

(** Nesting height; used only as a recursion bound. *)
Fixpoint height (j : json) : nat :=
  match j with
  | JArr l => S ((fix hl (l : list json) : nat :=
                    match l with [] => 0 | x :: r => Nat.max (height x) (hl r) end) l)
  | JObj m => S ((fix hm (m : list (string * json)) : nat :=
                    match m with [] => 0 | (_, x) :: r => Nat.max (height x) (hm r) end) m)
  | _ => 0
  end.

Definition is_obj (j : json) : bool := match j with JObj _ => true | _ => false end.
Definition is_arr (j : json) : bool := match j with JArr _ => true | _ => false end.
Definition is_null (j : json) : bool := match j with JNull => true | _ => false end.
(** Neither a map nor a slice. *)
Definition is_scalar (j : json) : bool :=
  match j with JObj _ | JArr _ => false | _ => true end.

(** Iteration oracle: presents the entries of a map in some order. *)
Definition perm_oracle {A B} (ord : A -> list B -> list B) : Prop :=
  forall a l, Permutation (ord a l) l.
