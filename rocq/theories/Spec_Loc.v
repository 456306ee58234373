(** Locations in a document, independently of path texts. *)
From Coq Require Import String Ascii List Bool Arith ZArith.
From Verif Require Import GoStr Json.
Import ListNotations.

(** A step enters an object by key or an array by index. *)
Inductive step := SKey (k : string) | SIdx (i : nat).
Definition loc := list step.

Fixpoint lookup (q : loc) (j : json) : option json :=
  match q with
  | [] => Some j
  | SKey k :: q' => match j with
                    | JObj m => match oget k m with Some v => lookup q' v | None => None end
                    | _ => None
                    end
  | SIdx i :: q' => match j with
                    | JArr l => match nth_error l i with Some v => lookup q' v | None => None end
                    | _ => None
                    end
  end.

(** One location is above (or equal to) another. *)
Definition above (p q : loc) : Prop := exists r, q = (p ++ r)%list.
Definition apart (p q : loc) : Prop := ~ above p q /\ ~ above q p.

(** Text of a step and of a location: keys and decimal indices joined by dots. *)
Definition seg (s : step) : string := match s with SKey k => k | SIdx i => itoa i end.
Definition render (q : loc) : string := join "." (map seg q).

(** A key that needs no escaping in a dot path. *)
Definition plain (k : string) : Prop :=
  k <> EmptyString /\ has_char "." k = false /\ has_char "~" k = false.

(** All object keys of the document satisfy P, and all arrays have an int length. *)
Fixpoint keys_ok (P : string -> Prop) (j : json) : Prop :=
  match j with
  | JArr l => (Z.of_nat (length l) < 2 ^ 63)%Z /\
              (fix go (l : list json) : Prop :=
                 match l with [] => True | x :: r => keys_ok P x /\ go r end) l
  | JObj m => (fix go (m : list (string * json)) : Prop :=
                 match m with [] => True | (k, x) :: r => P k /\ keys_ok P x /\ go r end) m
  | _ => True
  end.

(** [addresses top p j q]: the path segments p, read in document j, designate
    the (existing or new) location q.  Objects are entered by any key, a missing
    or null member counting as an empty object; arrays by the index of an
    existing element (which must not be null if the path goes on) or by "-",
    the position after the last element (not for an array at the very top). *)
Inductive addresses : bool -> list string -> json -> loc -> Prop :=
| ad_here top j : addresses top [] j []
| ad_key top k p m q :
    addresses false p (match oget k m with None | Some JNull => JObj [] | Some c => c end) q ->
    addresses top (k :: p) (JObj m) (SKey k :: q)
| ad_idx top s n i p l c q :
    s <> "-"%string ->
    atoi s = Some n -> (0 <= n)%Z -> Z.to_nat n = i -> nth_error l i = Some c ->
    (p <> [] -> c <> JNull) ->
    addresses false p c q ->
    addresses top (s :: p) (JArr l) (SIdx i :: q)
| ad_new p l q :
    addresses false p (JObj []) q ->
    addresses false ("-"%string :: p) (JArr l) (SIdx (length l) :: q).

(** A null document is treated as an empty object. *)
Definition denull (j : json) : json := match j with JNull => JObj [] | _ => j end.
