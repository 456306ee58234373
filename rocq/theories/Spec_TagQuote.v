(** Struct tags written with quoted values: KEY:"NAME,OPT,OPT:VALUE,OPT:'VALUE'". *)
From Coq Require Import String Ascii List Bool Arith NArith.
From Verif Require Import GoStr Json Tag Spec_Tag.
Import ListNotations.
Local Open Scope string_scope.
Local Open Scope list_scope.

(** A Go string literal between its quotes: double quotes and backslashes get a
    backslash, a line feed is written as backslash n. *)
Fixpoint go_escape (s : string) : string :=
  match s with
  | EmptyString => EmptyString
  | String c r =>
      if Ascii.eqb c dquote || Ascii.eqb c backslash then String backslash (String c (go_escape r))
      else if Ascii.eqb c (ascii_of_nat 10) then String backslash (String "n" (go_escape r))
      else String c (go_escape r)
  end.
(** Between single quotes: single quotes get a backslash, nothing else does. *)
Fixpoint single_escape (s : string) : string :=
  match s with
  | EmptyString => EmptyString
  | String c r => if Ascii.eqb c quote1 then String backslash (String c (single_escape r)) else String c (single_escape r)
  end.
(** An option: its key, its value, and whether the value is quoted. *)
Record woption := { w_key : string; w_value : string; w_quoted : bool }.
Definition woption_text (o : woption) : string :=
  if w_quoted o then w_key o +++ ":" +++ str1 quote1 +++ single_escape (w_value o) +++ str1 quote1
  else opt_text (w_key o, w_value o).
Record wentry := { we_key : string; we_name : string; we_opts : list woption }.
Definition wentry_text (e : wentry) : string :=
  we_key e +++ ":" +++ str1 dquote +++ go_escape (join "," (we_name e :: map woption_text (we_opts e))) +++ str1 dquote.
Definition wtag_text (l : list wentry) : string := join " " (map wentry_text l).
(** Keys, names and unquoted values are plain.  A quoted value is any text that
    does not end in a backslash. *)
Definition woption_ok (o : woption) : Prop :=
  plain (w_key o) = true /\ w_key o <> "" /\
  if w_quoted o then forall u, w_value o <> u +++ str1 backslash else plain (w_value o) = true.
Definition wentry_ok (e : wentry) : Prop :=
  plain (we_key e) = true /\ we_key e <> "" /\ plain (we_name e) = true /\ Forall woption_ok (we_opts e).
(** What the options say: values lose the white space around them. *)
Definition woption_map (l : list woption) : list (string * string) := opt_map (map (fun o => (w_key o, trim_space (w_value o))) l).

(** *** Go string literals: what the text between the double quotes means *)

(** The escapes of one letter. *)
Definition letter_escapes : list (ascii * nat) :=
  [("a"%char, 7); ("b"%char, 8); ("f"%char, 12); ("n"%char, 10); ("r"%char, 13); ("t"%char, 9); ("v"%char, 11); (backslash, 92); (dquote, 34)].
(** A digit to base 8 or 16. *)
Definition digit (base : N) (c : ascii) (d : N) : Prop :=
  (d < base /\ (d < 10 /\ c = ascii_of_N (48 + d) \/ 10 <= d /\ (c = ascii_of_N (87 + d) \/ c = ascii_of_N (55 + d))))%N.
(** Digits, the most significant first, and the number they write. *)
Inductive digits (base : N) : string -> N -> Prop :=
| digits_none : digits base "" 0
| digits_snoc s n c d : digits base s n -> digit base c d -> digits base (s +++ str1 c) (base * n + d)%N.
(** UTF-8: the bytes of a Unicode scalar value (a code point that is not half of
    a surrogate pair), in the least number of bytes. *)
Definition cont_byte (c : ascii) (v : N) : Prop := (v < 64 /\ c = ascii_of_N (128 + v))%N.
Inductive utf8 (n : N) : string -> Prop :=
| utf8_1 : (n < 128)%N -> utf8 n (str1 (ascii_of_N n))
| utf8_2 a x c : (128 <= n < 2048)%N -> cont_byte c x -> (n = 64 * a + x)%N -> utf8 n (String (ascii_of_N (192 + a)) (str1 c))
| utf8_3 a x y c d : (2048 <= n < 65536)%N -> ~ (55296 <= n <= 57343)%N -> cont_byte c x -> cont_byte d y -> (n = 4096 * a + 64 * x + y)%N ->
    utf8 n (String (ascii_of_N (224 + a)) (String c (str1 d)))
| utf8_4 a x y z c d e : (65536 <= n < 1114112)%N -> cont_byte c x -> cont_byte d y -> cont_byte e z -> (n = 262144 * a + 4096 * x + 64 * y + z)%N ->
    utf8 n (String (ascii_of_N (240 + a)) (String c (String d (str1 e)))).
(** One element of a literal: a byte that is no quote, backslash or line feed
    stands for itself; an escape for a byte or for a code point. *)
Inductive element : string -> string -> Prop :=
| el_byte c : c <> dquote -> c <> backslash -> c <> ascii_of_nat 10 -> element (str1 c) (str1 c)
| el_letter c n : In (c, n) letter_escapes -> element (String backslash (str1 c)) (str1 (ascii_of_nat n))
| el_hex s n : String.length s = 2 -> digits 16 s n -> element (String backslash (String "x" s)) (str1 (ascii_of_N n))
| el_oct s n : String.length s = 3 -> digits 8 s n -> (n < 256)%N -> element (String backslash s) (str1 (ascii_of_N n))
| el_u4 s n u : String.length s = 4 -> digits 16 s n -> utf8 n u -> element (String backslash (String "u" s)) u
| el_u8 s n u : String.length s = 8 -> digits 16 s n -> utf8 n u -> element (String backslash (String "U" s)) u.
Inductive literal : string -> string -> Prop :=
| lit_nil : literal "" ""
| lit_cons e x s u : element e x -> literal s u -> literal (e +++ s) (x +++ u).
