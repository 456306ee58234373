(** The part of Go's regexp package used by internal/route: QuoteMeta, Compile
    on the syntax subset described below, MatchString.  Bytes stand for runes
    (exact for ASCII texts).  Not modelled syntax ("(?...", counted repetition
    {n,m}, escapes of letters and digits, escapes and named classes inside
    brackets) makes [re_compile] return [OutOfFuel], never a wrong answer.
    No proofs in this file. *)
From Coq Require Import String Ascii List Bool Arith.
From Verif Require Import GoStr.
Import ListNotations.
Local Open Scope string_scope.
Local Open Scope list_scope.
Local Open Scope nat_scope.

Inductive re : Type :=
| RChar (c : ascii)
| RAny                                              (* . : not a newline *)
| RSet (neg : bool) (items : list (ascii * ascii))  (* [..] and [^..] *)
| REps
| RBegin | REnd                                     (* ^ and $ *)
| RCat (a b : re) | RAlt (a b : re) | RStar (a : re) | RPlus (a : re) | ROpt (a : re).

Definition newline : ascii := ascii_of_nat 10.
Definition in_items (c : ascii) (l : list (ascii * ascii)) : bool :=
  existsb (fun r => (nat_of_ascii (fst r) <=? nat_of_ascii c) && (nat_of_ascii c <=? nat_of_ascii (snd r))) l.

(** regexp.QuoteMeta. *)
Definition special : string := "\.+*?()|[]{}^$".
Definition is_special (c : ascii) : bool := has_char c special.
Fixpoint quote_meta (s : string) : string :=
  match s with
  | EmptyString => EmptyString
  | String c r => if is_special c then String "\" (String c (quote_meta r)) else String c (quote_meta r)
  end.

(** *** Compile: regexp/syntax.Parse as a left-to-right machine. *)

(** An open group: the alternatives already closed by '|', and the current
    concatenation (latest first). *)
Record frame := { fr_alts : option re; fr_cat : list re }.
(** What the previous character was, for repetition operators. *)
Inductive rep := RepNone | RepOp | RepLazy.
Inductive mode :=
| MText
| MEscape
| MClass (neg : bool) (items : list (ascii * ascii)) (last : option ascii) (dash : bool) (started : bool).
Record pstate := { ps_cur : frame; ps_outer : list frame; ps_rep : rep; ps_mode : mode }.

Definition cat_of (l : list re) : re := fold_left (fun acc r => RCat r acc) l REps.
Definition close (f : frame) : re :=
  match fr_alts f with None => cat_of (fr_cat f) | Some a => RAlt a (cat_of (fr_cat f)) end.
Definition push (r : re) (p : pstate) : pstate :=
  {| ps_cur := {| fr_alts := fr_alts (ps_cur p); fr_cat := r :: fr_cat (ps_cur p) |};
     ps_outer := ps_outer p; ps_rep := RepNone; ps_mode := MText |}.
Definition set_mode (m : mode) (p : pstate) : pstate :=
  {| ps_cur := ps_cur p; ps_outer := ps_outer p; ps_rep := RepNone; ps_mode := m |}.

(** A repetition operator applied to the last element (op '?' right after
    another operator only makes that one lazy; two operators in a row are an
    error, as is a missing operand). *)
Definition repeat_op (op : ascii) (mk : re -> re) (p : pstate) : res pstate :=
  match ps_rep p with
  | RepLazy => Err
  | RepOp => if Ascii.eqb op "?"
             then Ok {| ps_cur := ps_cur p; ps_outer := ps_outer p; ps_rep := RepLazy; ps_mode := MText |}
             else Err
  | RepNone =>
      match fr_cat (ps_cur p) with
      | [] => Err
      | r :: l => Ok {| ps_cur := {| fr_alts := fr_alts (ps_cur p); fr_cat := mk r :: l |};
                        ps_outer := ps_outer p; ps_rep := RepOp; ps_mode := MText |}
      end
  end.

(** syntax.parseRepeat: digits, optionally a comma and digits, then '}'. *)
Fixpoint skip_digits (s : string) : string :=
  match s with String c r => if is_digit c then skip_digits r else s | EmptyString => s end.
Definition counted (s : string) : bool :=
  match s with
  | String c _ => is_digit c &&
      match skip_digits s with
      | String "}" _ => true
      | String "," r => match skip_digits r with String "}" _ => true | _ => false end
      | _ => false
      end
  | EmptyString => false
  end.

(** One character, [rest] being the text after it. *)
Definition step_text (c : ascii) (rest : string) (p : pstate) : res pstate :=
  if Ascii.eqb c "(" then
    match rest with
    | String "?" _ => OutOfFuel
    | _ => Ok {| ps_cur := {| fr_alts := None; fr_cat := [] |}; ps_outer := ps_cur p :: ps_outer p; ps_rep := RepNone; ps_mode := MText |}
    end
  else if Ascii.eqb c ")" then
    match ps_outer p with
    | [] => Err
    | f :: o => Ok {| ps_cur := {| fr_alts := fr_alts f; fr_cat := close (ps_cur p) :: fr_cat f |}; ps_outer := o; ps_rep := RepNone; ps_mode := MText |}
    end
  else if Ascii.eqb c "|" then
    Ok {| ps_cur := {| fr_alts := Some (close (ps_cur p)); fr_cat := [] |}; ps_outer := ps_outer p; ps_rep := RepNone; ps_mode := MText |}
  else if Ascii.eqb c "*" then repeat_op c RStar p
  else if Ascii.eqb c "+" then repeat_op c RPlus p
  else if Ascii.eqb c "?" then repeat_op c ROpt p
  else if Ascii.eqb c "{" then if counted rest then OutOfFuel else Ok (push (RChar c) p)
  else if Ascii.eqb c "." then Ok (push RAny p)
  else if Ascii.eqb c "^" then Ok (push RBegin p)
  else if Ascii.eqb c "$" then Ok (push REnd p)
  else if Ascii.eqb c "\" then Ok (set_mode MEscape p)
  else if Ascii.eqb c "[" then Ok (set_mode (MClass false [] None false false) p)
  else Ok (push (RChar c) p).

(** Inside brackets: '^' first negates, ']' first is literal, 'a-b' is a range. *)
Definition flush (items : list (ascii * ascii)) (last : option ascii) (dash : bool) : list (ascii * ascii) :=
  match last with
  | None => items
  | Some a => (a, a) :: (if dash then [("-"%char, "-"%char)] else []) ++ items
  end.
Definition step_class (c : ascii) (rest : string) (neg : bool) items last (dash started : bool) (p : pstate) : res pstate :=
  if Ascii.eqb c "\" then OutOfFuel
  else if Ascii.eqb c "[" && has_prefix ":" rest then OutOfFuel
  else if negb started && negb neg && Ascii.eqb c "^" then Ok (set_mode (MClass true items last dash false) p)
  else if started && Ascii.eqb c "]" then Ok (push (RSet neg (flush items last dash)) p)
  else if Ascii.eqb c "-" && match last with Some _ => negb dash | None => false end then
    Ok (set_mode (MClass neg items last true true) p)
  else match last, dash with
       | Some a, true => if nat_of_ascii c <? nat_of_ascii a then Err
                         else Ok (set_mode (MClass neg ((a, c) :: items) None false true) p)
       | Some a, false => Ok (set_mode (MClass neg ((a, a) :: items) (Some c) false true) p)
       | None, _ => Ok (set_mode (MClass neg items (Some c) false true) p)
       end.

Definition step (c : ascii) (rest : string) (p : pstate) : res pstate :=
  match ps_mode p with
  | MText => step_text c rest p
  | MEscape => if is_alnum c || negb (nat_of_ascii c <? 128) then OutOfFuel else Ok (push (RChar c) p)
  | MClass neg items last dash started => step_class c rest neg items last dash started p
  end.

Fixpoint parse_run (s : string) (p : pstate) : res pstate :=
  match s with
  | EmptyString => Ok p
  | String c r => do p' <- step c r p ; parse_run r p'
  end.

Definition pstart : pstate := {| ps_cur := {| fr_alts := None; fr_cat := [] |}; ps_outer := []; ps_rep := RepNone; ps_mode := MText |}.
(** Unclosed groups or brackets and a trailing backslash are errors. *)
Definition pfinish (p : pstate) : res re :=
  match ps_mode p, ps_outer p with
  | MText, [] => Ok (close (ps_cur p))
  | _, _ => Err
  end.
Definition re_compile (s : string) : res re := do p <- parse_run s pstart ; pfinish p.

(** *** MatchString: what remains of the text after matching a prefix of it;
    [first] says whether we are at the beginning of the whole text. *)
Fixpoint rests (r : re) (first : bool) (s : string) : list string :=
  match r with
  | RChar c => match s with String d t => if Ascii.eqb c d then [t] else [] | EmptyString => [] end
  | RAny => match s with String d t => if Ascii.eqb d newline then [] else [t] | EmptyString => [] end
  | RSet neg items => match s with String d t => if Bool.eqb (in_items d items) neg then [] else [t] | EmptyString => [] end
  | REps => [s]
  | RBegin => if first then [s] else []
  | REnd => match s with EmptyString => [s] | _ => [] end
  | RCat a b => flat_map (fun t => rests b (first && (String.length t =? String.length s)) t) (rests a first s)
  | RAlt a b => rests a first s ++ rests b first s
  | ROpt a => s :: rests a first s
  | RStar a => (fix star (n : nat) (first : bool) (s : string) : list string :=
                  match n with
                  | O => [s]
                  | S n' => s :: flat_map (fun t => if String.length t <? String.length s then star n' false t else []) (rests a first s)
                  end) (String.length s) first s
  | RPlus a => flat_map (fun t =>
                  (fix star (n : nat) (first : bool) (s : string) : list string :=
                     match n with
                     | O => [s]
                     | S n' => s :: flat_map (fun t => if String.length t <? String.length s then star n' false t else []) (rests a first s)
                     end) (String.length t) (first && (String.length t =? String.length s)) t) (rests a first s)
  end.

(** Unanchored search. *)
Fixpoint re_search (r : re) (first : bool) (s : string) : bool :=
  match rests r first s with
  | _ :: _ => true
  | [] => match s with String _ t => re_search r false t | EmptyString => false end
  end.
Definition match_string (r : re) (s : string) : bool := re_search r true s.
