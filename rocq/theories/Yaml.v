(** internal/container/utils.go:97-123 mmap, container.go:57-68 ReadYAML.
    Dynamic values produced by yaml.v2 before conversion.  No proofs here. *)
From Coq Require Import String List Bool ZArith Permutation.
From Verif Require Import GoStr Json.
Import ListNotations.

(** Key of a map[interface{}]interface{}: a string, or any other value, of which
    only its identity [id] and its fmt.Sprint text [printed] matter. *)
Inductive ykey : Type :=
| KStr (s : string)
| KOther (id : nat) (printed : string).

Inductive yval : Type :=
| YNull
| YBool (b : bool)
| YNum (n : num)
| YStr (s : string)
| YSeq (l : list yval)
| YMapS (m : list (string * yval))     (* map[string]interface{} *)
| YMapI (m : list (ykey * yval)).      (* map[interface{}]interface{} *)

(** utils.go:102-107: the string a key is stored under. *)
Definition key_text (k : ykey) : string :=
  match k with KStr s => s | KOther _ p => p end.

(** utils.go:97-123 mmap.  Iterating map[interface{}]interface{} happens in an
    arbitrary order, later entries overwriting earlier ones with the same text:
    [ord pos entries] is that order for the map found at position [pos]
    (child numbers from the root).  Iterating map[string]interface{} rewrites
    every entry in place, so the order is irrelevant. *)
Fixpoint mmap (ord : list nat -> list (string * yval) -> list (string * yval)) (pos : list nat) (v : yval) : yval :=
  match v with
  | YMapI m =>
      let es := (fix go (i : nat) (m : list (ykey * yval)) : list (string * yval) :=
                   match m with
                   | [] => []
                   | (k, x) :: r => (key_text k, mmap ord (pos ++ [i]) x) :: go (S i) r
                   end) 0 m in
      YMapS (fold_left (fun acc kv => oset (fst kv) (snd kv) acc) (ord pos es) [])
  | YSeq l =>
      YSeq ((fix go (i : nat) (l : list yval) : list yval :=
               match l with
               | [] => []
               | x :: r => mmap ord (pos ++ [i]) x :: go (S i) r
               end) 0 l)
  | YMapS m =>
      YMapS ((fix go (i : nat) (m : list (string * yval)) : list (string * yval) :=
                match m with
                | [] => []
                | (k, x) :: r => (k, mmap ord (pos ++ [i]) x) :: go (S i) r
                end) 0 m)
  | _ => v
  end.

(** A value without interface-keyed maps read as a container payload
    (Json.json); [None] when such a map remains. *)
Fixpoint to_json (v : yval) : option json :=
  match v with
  | YNull => Some JNull
  | YBool b => Some (JBool b)
  | YNum n => Some (JNum n)
  | YStr s => Some (JStr s)
  | YSeq l =>
      match (fix go (l : list yval) : option (list json) :=
               match l with
               | [] => Some []
               | x :: r => match to_json x, go r with Some a, Some b => Some (a :: b) | _, _ => None end
               end) l with
      | Some l' => Some (JArr l')
      | None => None
      end
  | YMapS m =>
      match (fix go (m : list (string * yval)) : option (list (string * json)) :=
               match m with
               | [] => Some []
               | (k, x) :: r => match to_json x, go r with Some a, Some b => Some ((k, a) :: b) | _, _ => None end
               end) m with
      | Some m' => Some (JObj m')
      | None => None
      end
  | YMapI _ => None
  end.
