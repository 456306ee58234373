(** What cloning may change: numbers only. *)
From Coq Require Import String List ZArith.
From Verif Require Import Json.
Import ListNotations.

(** Two documents of the same shape whose numbers are related by R. *)
Inductive same_but_numbers (R : num -> num -> Prop) : json -> json -> Prop :=
| sn_null : same_but_numbers R JNull JNull
| sn_bool b : same_but_numbers R (JBool b) (JBool b)
| sn_num n n' : R n n' -> same_but_numbers R (JNum n) (JNum n')
| sn_str s : same_but_numbers R (JStr s) (JStr s)
| sn_arr l l' : Forall2 (same_but_numbers R) l l' -> same_but_numbers R (JArr l) (JArr l')
| sn_obj m m' :
    Forall2 (fun kv kv' => fst kv = fst kv' /\ same_but_numbers R (snd kv) (snd kv')) m m' ->
    same_but_numbers R (JObj m) (JObj m').

(** The double-precision number m * 2^e closest to the integer z: it has at most
    53 significant bits and no other integer with at most 53 significant bits
    (m' * 2^e', e' >= 0) is closer. *)
Definition nearest_double (z m e : Z) : Prop :=
  (0 <= e)%Z /\ (Z.abs m < 2 ^ 53)%Z /\
  forall m' e', (0 <= e')%Z -> (Z.abs m' < 2 ^ 53)%Z ->
    (Z.abs (m * 2 ^ e - z) <= Z.abs (m' * 2 ^ e' - z))%Z.

(** The number after a round trip through JSON text. *)
Definition as_double (n n' : num) : Prop :=
  match n with
  | NInt z => exists m e, n' = NFlt m e /\ nearest_double z m e
  | NFlt m e => n' = NFlt m e
  | NBad => False
  end.

(** The double denotes exactly the same number. *)
Definition same_value (n n' : num) : Prop :=
  match n with
  | NInt z => exists m e, n' = NFlt m e /\ (m * 2 ^ e = z)%Z
  | NFlt m e => n' = NFlt m e
  | NBad => False
  end.

(** All numbers occurring in a document. *)
Fixpoint numbers (j : json) : list num :=
  match j with
  | JNum n => [n]
  | JArr l => (fix go l := match l with [] => [] | x :: r => numbers x ++ go r end) l
  | JObj m => (fix go m := match m with [] => [] | (_, x) :: r => numbers x ++ go r end) m
  | _ => []
  end.
