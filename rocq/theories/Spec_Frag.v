(** Canonical fragment texts. *)
From Coq Require Import String Ascii List Bool.
From Verif Require Import GoStr.

(** Every '~' in the text is followed by '0' or '1'. *)
Fixpoint tilde_ok (s : string) : bool :=
  match s with
  | EmptyString => true
  | String c r =>
      (if Ascii.eqb c "~" then match r with
                               | String d _ => Ascii.eqb d "0" || Ascii.eqb d "1"
                               | EmptyString => false
                               end
       else true) && tilde_ok r
  end.
