(** Go strings and the standard-library string functions the repo calls.

    A Go string is a sequence of bytes: Coq's [string] (a list of 8-bit
    [ascii]) is exactly that.  Only the functions used by /repo are modelled,
    at the call shapes used there.  No proofs in this file. *)

From Coq Require Import String Ascii List Bool Arith NArith ZArith.
Import ListNotations.

Notation "a +++ b" := (String.append a b) (at level 60, right associativity).

(** Outcome of a modelled Go call.  [Err]: the call returned a non-nil error
    (error texts are not modelled).  [Panic]: a run-time panic.  [OutOfFuel]:
    the model's recursion bound was hit; it models nothing in the code and the
    termination theorems show it unreachable. *)
Inductive res (A : Type) : Type :=
| Ok (a : A)
| Err
| Panic
| OutOfFuel.
Arguments Ok {A} a.
Arguments Err {A}.
Arguments Panic {A}.
Arguments OutOfFuel {A}.

Definition bind {A B} (r : res A) (f : A -> res B) : res B :=
  match r with
  | Ok a => f a
  | Err => Err
  | Panic => Panic
  | OutOfFuel => OutOfFuel
  end.

Notation "'do' x <- e ; k" := (bind e (fun x => k))
  (at level 200, x pattern, e at level 100, k at level 200, right associativity).

(** One-character string. *)
Definition str1 (c : ascii) : string := String c EmptyString.

(** Does byte [c] occur in [s]? (strings.IndexByte(s,c) >= 0) *)
Fixpoint has_char (c : ascii) (s : string) : bool :=
  match s with
  | EmptyString => false
  | String d s' => Ascii.eqb c d || has_char c s'
  end.

(** strings.HasPrefix(s, p); used in fragment.go:88, route.go:63, cmds.go:38. *)
Fixpoint has_prefix (p s : string) : bool :=
  match p, s with
  | EmptyString, _ => true
  | String c p', String d s' => Ascii.eqb c d && has_prefix p' s'
  | String _ _, EmptyString => false
  end.

(** s[n:], for n <= len(s). *)
Fixpoint skipn_s (n : nat) (s : string) : string :=
  match n, s with
  | O, _ => s
  | S n', String _ s' => skipn_s n' s'
  | S _, EmptyString => EmptyString
  end.

(** s[:n], for n <= len(s). *)
Fixpoint firstn_s (n : nat) (s : string) : string :=
  match n, s with
  | O, _ => EmptyString
  | S n', String c s' => String c (firstn_s n' s')
  | S _, EmptyString => EmptyString
  end.

(** strings.Contains(s, sub); schema.go:33 (cmds). *)
Fixpoint contains (sub s : string) : bool :=
  has_prefix sub s ||
  match s with
  | EmptyString => false
  | String _ s' => contains sub s'
  end.

(** strings.Split(s, sep) for a one-byte separator; fragment.go:138,
    utils.go:20 (container), utils.go:84 (resolver), cmds.go:51.
    Never returns the empty list. *)
Fixpoint split_char (c : ascii) (s : string) : list string :=
  match s with
  | EmptyString => [EmptyString]
  | String d s' =>
      if Ascii.eqb c d then EmptyString :: split_char c s'
      else match split_char c s' with
           | [] => [str1 d]            (* unreachable *)
           | h :: t => String d h :: t
           end
  end.

(** strings.Join(l, sep); utils.go:45 (container), utils.go:92 (resolver). *)
Definition join (sep : string) (l : list string) : string := String.concat sep l.

(** strings.Replace(s, old, new, -1) for non-empty [old]: replaces the
    leftmost non-overlapping occurrences.  [skip] counts the bytes of the
    current occurrence still to be dropped. *)
Fixpoint replace_from (skip : nat) (old new s : string) : string :=
  match s with
  | EmptyString => EmptyString
  | String c s' =>
      match skip with
      | S k => replace_from k old new s'
      | O => if has_prefix old s
             then new +++ replace_from (String.length old - 1) old new s'
             else String c (replace_from 0 old new s')
      end
  end.
Definition replace_all (old new s : string) : string := replace_from 0 old new s.

(** strings.Replace(s, old, new, 1) for non-empty [old]; info.go:32. *)
Fixpoint replace_first (old new s : string) : string :=
  if has_prefix old s then new +++ skipn_s (String.length old) s
  else match s with
       | EmptyString => EmptyString
       | String c s' => String c (replace_first old new s')
       end.

(** ASCII letters and digits. *)
Definition in_range (lo hi : nat) (c : ascii) : bool :=
  let n := nat_of_ascii c in (lo <=? n) && (n <=? hi).
Definition is_lower (c : ascii) : bool := in_range 97 122 c.
Definition is_upper (c : ascii) : bool := in_range 65 90 c.
Definition is_digit (c : ascii) : bool := in_range 48 57 c.
Definition is_alpha (c : ascii) : bool := is_lower c || is_upper c.
Definition is_alnum (c : ascii) : bool := is_alpha c || is_digit c.

(** strings.ToLower restricted to ASCII (bytes >= 0x80 are left alone; the
    Unicode case tables are not modelled); route.go:62-63, logging.go:36. *)
Definition lower_char (c : ascii) : ascii :=
  if is_upper c then ascii_of_nat (nat_of_ascii c + 32) else c.
Fixpoint to_lower (s : string) : string :=
  match s with
  | EmptyString => EmptyString
  | String c s' => String (lower_char c) (to_lower s')
  end.

(** strings.EqualFold restricted to ASCII; route.go:69. *)
Definition equal_fold (a b : string) : bool := String.eqb (to_lower a) (to_lower b).

(** strings.TrimLeft / TrimRight / Trim with a cutset given as a predicate;
    cmds.go:43,56, args.go:11, types.go:439. *)
Fixpoint trim_left (p : ascii -> bool) (s : string) : string :=
  match s with
  | EmptyString => EmptyString
  | String c s' => if p c then trim_left p s' else s
  end.
Fixpoint trim_right (p : ascii -> bool) (s : string) : string :=
  match s with
  | EmptyString => EmptyString
  | String c s' =>
      match trim_right p s' with
      | EmptyString => if p c then EmptyString else str1 c
      | t => String c t
      end
  end.
Definition trim (p : ascii -> bool) (s : string) : string := trim_right p (trim_left p s).

(** Position-splitting at the first occurrence of a byte:
    [Some (before, after)] without the byte itself. *)
Fixpoint cut_char (c : ascii) (s : string) : option (string * string) :=
  match s with
  | EmptyString => None
  | String d s' =>
      if Ascii.eqb c d then Some (EmptyString, s')
      else match cut_char c s' with
           | Some (a, b) => Some (String d a, b)
           | None => None
           end
  end.

(** strconv.Itoa for a non-negative int (array indices in gabs Flatten). *)
Fixpoint itoa_fuel (fuel n : nat) : string :=
  match fuel with
  | O => EmptyString
  | S f =>
      if n <? 10 then str1 (ascii_of_nat (48 + n))
      else itoa_fuel f (n / 10) +++ str1 (ascii_of_nat (48 + n mod 10))
  end.
Definition itoa (n : nat) : string := itoa_fuel (S n) n.

(** Value of a string of decimal digits, [None] on any other byte or on "". *)
Fixpoint digits_val (acc : Z) (s : string) : option Z :=
  match s with
  | EmptyString => Some acc
  | String c s' =>
      if is_digit c
      then digits_val (acc * 10 + Z.of_nat (nat_of_ascii c - 48))%Z s'
      else None
  end.
Definition udigits (s : string) : option Z :=
  match s with EmptyString => None | _ => digits_val 0 s end.

(** strconv.Atoi on a 64-bit platform: optional sign, decimal digits, int64
    range; used by gabs for array segments and by tag.go:166. *)
Definition atoi (s : string) : option Z :=
  let r :=
    match s with
    | String "+"%char s' => udigits s'
    | String "-"%char s' => option_map Z.opp (udigits s')
    | _ => udigits s
    end in
  match r with
  | Some z => if ((- 2 ^ 63 <=? z) && (z <? 2 ^ 63))%Z then Some z else None
  | None => None
  end.

(** strconv.ParseBool; tag.go:201,215. *)
Definition parse_bool (s : string) : option bool :=
  if existsb (String.eqb s) ["1"; "t"; "T"; "true"; "TRUE"; "True"]%string then Some true
  else if existsb (String.eqb s) ["0"; "f"; "F"; "false"; "FALSE"; "False"]%string then Some false
  else None.
