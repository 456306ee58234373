(** Regular expressions as they are written at the end of a route pattern: their
    grammar and what they match, independently of how they are compiled. *)
From Coq Require Import String Ascii List Bool Arith.
From Verif Require Import GoStr.
Import ListNotations.
Local Open Scope string_scope.
Local Open Scope nat_scope.
Local Open Scope list_scope.

(** Part of a class: a character or a range. *)
Inductive citem := COne (c : ascii) | CRange (a b : ascii).
(** A class: negated or not, a bracket in front, characters and ranges, a dash at the end. *)
Record cls := { k_neg : bool; k_bracket : bool; k_items : list citem; k_dash : bool }.
Inductive rop := OStar | OPlus | OOpt.
Inductive rx :=
| XEps
| XChar (c : ascii)
| XEsc (c : ascii)                          (* after a backslash *)
| XAny | XBegin | XEnd
| XClass (k : cls)
| XGroup (r : rx)
| XRep (r : rx) (o : rop) (lazy : bool)
| XCat (r s : rx) | XAlt (r s : rx).

(** ** How they are written *)
Definition item_text (i : citem) : string := match i with COne c => str1 c | CRange a b => String a (String "-" (str1 b)) end.
Fixpoint items_text (l : list citem) : string := match l with [] => "" | i :: r => item_text i +++ items_text r end.
Definition cls_text (k : cls) : string :=
  "[" +++ (if k_neg k then "^" else "") +++ (if k_bracket k then "]" else "") +++ items_text (k_items k) +++ (if k_dash k then "-" else "") +++ "]".
Definition op_text (o : rop) : string := match o with OStar => "*" | OPlus => "+" | OOpt => "?" end.
Fixpoint rx_text (r : rx) : string :=
  match r with
  | XEps => ""
  | XChar c => str1 c
  | XEsc c => String "\" (str1 c)
  | XAny => "." | XBegin => "^" | XEnd => "$"
  | XClass k => cls_text k
  | XGroup r => "(" +++ rx_text r +++ ")"
  | XRep r o lazy => rx_text r +++ op_text o +++ (if lazy then "?" else "")
  | XCat r s => rx_text r +++ rx_text s
  | XAlt r s => rx_text r +++ "|" +++ rx_text s
  end.

(** ** Which are well formed: as an atom (level 0), an atom with an operator (1),
    a concatenation (2), an alternative (3) *)
Definition among (c : ascii) (s : string) : bool := has_char c s.
Definition is_ascii (c : ascii) : bool := nat_of_ascii c <? 128.
Definition class_ok (c : ascii) : bool := is_ascii c && negb (among c "\[]^-").
Definition item_ok (i : citem) : bool :=
  match i with COne c => class_ok c | CRange a b => class_ok a && class_ok b && (nat_of_ascii a <=? nat_of_ascii b) end.
Definition cls_ok (k : cls) : bool := (k_bracket k || k_dash k || negb (match k_items k with [] => true | _ => false end)) && forallb item_ok (k_items k).
Fixpoint rx_ok (n : nat) (r : rx) : bool :=
  match r with
  | XEps => 2 <=? n
  | XChar c => is_ascii c && negb (among c "\.+*?()|[{^$")
  | XEsc c => is_ascii c && negb (is_alnum c)
  | XAny | XBegin | XEnd => true
  | XClass k => cls_ok k
  | XGroup r => rx_ok 3 r
  | XRep r _ _ => (1 <=? n) && rx_ok 0 r
  | XCat r s => (2 <=? n) && rx_ok 2 r && rx_ok 2 s
  | XAlt r s => (3 <=? n) && rx_ok 3 r && rx_ok 3 s
  end.

(** ** What they match: [means r b w a], r matches w between b and a *)
Inductive repeated (P : string -> string -> string -> Prop) : string -> string -> string -> Prop :=
| rep_none b a : repeated P b "" a
| rep_more b w1 w2 a : P b w1 (w2 +++ a) -> repeated P (b +++ w1) w2 a -> repeated P b (w1 +++ w2) a.
Definition in_class (k : cls) (c : ascii) : Prop :=
  (k_bracket k = true /\ c = "]"%char) \/ (k_dash k = true /\ c = "-"%char) \/
  exists i, In i (k_items k) /\ match i with COne d => c = d | CRange a b => nat_of_ascii a <= nat_of_ascii c <= nat_of_ascii b end.
Fixpoint means (r : rx) (b w a : string) {struct r} : Prop :=
  match r with
  | XEps => w = ""
  | XChar c | XEsc c => w = str1 c
  | XAny => exists c, w = str1 c /\ nat_of_ascii c <> 10
  | XBegin => b = "" /\ w = ""
  | XEnd => a = "" /\ w = ""
  | XClass k => exists c, w = str1 c /\ (if k_neg k then ~ in_class k c else in_class k c)
  | XGroup r => means r b w a
  | XRep r OStar _ => repeated (means r) b w a
  | XRep r OPlus _ => exists w1 w2, w = w1 +++ w2 /\ means r b w1 (w2 +++ a) /\ repeated (means r) (b +++ w1) w2 a
  | XRep r OOpt _ => w = "" \/ means r b w a
  | XCat r s => exists w1 w2, w = w1 +++ w2 /\ means r b w1 (w2 +++ a) /\ means s (b +++ w1) w2 a
  | XAlt r s => means r b w a \/ means s b w a
  end.
