(** tag/tag.go, with the parts of structtag v1.2.0 and tagparser v0.1.2 it
    calls.  No proofs in this file. *)
From Coq Require Import String Ascii List Bool Arith ZArith NArith.
From Verif Require Import GoStr Json Url.
Import ListNotations.
Local Open Scope string_scope.
Local Open Scope nat_scope.
Local Open Scope list_scope.

(** *** structtag.Parse *)

Definition dquote : ascii := ascii_of_nat 34.
Definition backslash : ascii := "\"%char.
Definition is_sp (c : ascii) : bool := Ascii.eqb c " ".

(** A key byte: above space, no colon, no double quote, no DEL. *)
Definition key_char (c : ascii) : bool :=
  (32 <? nat_of_ascii c) && negb (Ascii.eqb c ":") && negb (Ascii.eqb c dquote) && negb (nat_of_ascii c =? 127).
Fixpoint span (p : ascii -> bool) (s : string) : string * string :=
  match s with
  | String c r => if p c then let '(a, b) := span p r in (String c a, b) else (EmptyString, s)
  | EmptyString => (EmptyString, EmptyString)
  end.

(** The raw text up to the closing quote (a backslash takes the next byte with it), and what follows. *)
Fixpoint scan_quoted (s : string) : option (string * string) :=
  match s with
  | EmptyString => None
  | String c r =>
      if Ascii.eqb c dquote then Some (EmptyString, r)
      else if Ascii.eqb c backslash then
        match r with
        | EmptyString => None
        | String d t => match scan_quoted t with Some (a, b) => Some (String c (String d a), b) | None => None end
        end
      else match scan_quoted r with Some (a, b) => Some (String c a, b) | None => None end
  end.

(** utf8.EncodeRune of the number a Unicode escape gives; [None]: above MaxRune
    or half of a surrogate pair (an error since Go 1.18; before, the halves
    became U+FFFD). *)
Definition nbyte (n : N) : ascii := ascii_of_N n.
Definition encode_rune (n : N) : option string :=
  (if n <? 128 then Some (str1 (nbyte n))
   else if n <? 2048 then Some (String (nbyte (192 + n / 64)) (str1 (nbyte (128 + n mod 64))))
   else if (55296 <=? n) && (n <=? 57343) then None
   else if n <? 65536 then Some (String (nbyte (224 + n / 4096)) (String (nbyte (128 + (n / 64) mod 64)) (str1 (nbyte (128 + n mod 64)))))
   else if n <=? 1114111 then
     Some (String (nbyte (240 + n / 262144)) (String (nbyte (128 + (n / 4096) mod 64)) (String (nbyte (128 + (n / 64) mod 64)) (str1 (nbyte (128 + n mod 64))))))
   else None)%N.
(** The number some hexadecimal digits write. *)
Fixpoint hex_number (acc : N) (l : list ascii) : option N :=
  match l with
  | [] => Some acc
  | c :: r => match hex_val c with Some d => hex_number (16 * acc + N.of_nat d)%N r | None => None end
  end.
Definition unicode_escape (l : list ascii) : option string :=
  match hex_number 0 l with Some n => encode_rune n | None => None end.
(** strconv.Unquote of the text between double quotes. *)
Definition hex2 (a b : ascii) : option nat :=
  match hex_val a, hex_val b with Some x, Some y => Some (16 * x + y) | _, _ => None end.
Definition oct_val (c : ascii) : option nat := if in_range 48 55 c then Some (nat_of_ascii c - 48) else None.
Definition simple_escape (c : ascii) : option ascii :=
  if Ascii.eqb c "a" then Some (ascii_of_nat 7) else if Ascii.eqb c "b" then Some (ascii_of_nat 8)
  else if Ascii.eqb c "f" then Some (ascii_of_nat 12) else if Ascii.eqb c "n" then Some (ascii_of_nat 10)
  else if Ascii.eqb c "r" then Some (ascii_of_nat 13) else if Ascii.eqb c "t" then Some (ascii_of_nat 9)
  else if Ascii.eqb c "v" then Some (ascii_of_nat 11) else if Ascii.eqb c backslash then Some backslash
  else if Ascii.eqb c dquote then Some dquote else None.
Fixpoint unquote (s : string) : res string :=
  match s with
  | EmptyString => Ok EmptyString
  | String c r =>
      if Ascii.eqb c (ascii_of_nat 10) || Ascii.eqb c dquote then Err
      else if Ascii.eqb c backslash then
        match r with
        | EmptyString => Err
        | String e t =>
            match simple_escape e with
            | Some x => do u <- unquote t ; Ok (String x u)
            | None =>
                if Ascii.eqb e "x" then
                  match t with
                  | String h1 (String h2 t') =>
                      match hex2 h1 h2 with Some n => do u <- unquote t' ; Ok (String (ascii_of_nat n) u) | None => Err end
                  | _ => Err
                  end
                else if Ascii.eqb e "u" then
                  match t with
                  | String a (String b (String d (String f t'))) =>
                      match unicode_escape [a; b; d; f] with Some x => do u <- unquote t' ; Ok (x +++ u) | None => Err end
                  | _ => Err
                  end
                else if Ascii.eqb e "U" then
                  match t with
                  | String a (String b (String d (String f (String g (String h (String i (String j t'))))))) =>
                      match unicode_escape [a; b; d; f; g; h; i; j] with Some x => do u <- unquote t' ; Ok (x +++ u) | None => Err end
                  | _ => Err
                  end
                else match t with
                     | String o2 (String o3 t') =>
                         match oct_val e, oct_val o2, oct_val o3 with
                         | Some a, Some b, Some d =>
                             if 64 * a + 8 * b + d <? 256 then do u <- unquote t' ; Ok (String (ascii_of_nat (64 * a + 8 * b + d)) u) else Err
                         | _, _, _ => Err
                         end
                     | _ => Err
                     end
            end
        end
      else do u <- unquote r ; Ok (String c u)
  end.

(** One entry: its key, and its value split at commas (name first). *)
Record stag := { st_key : string; st_name : string; st_options : list string }.
Definition stag_of (key value : string) : stag :=
  match split_char "," value with
  | [] => {| st_key := key; st_name := ""; st_options := [] |}
  | n :: o => {| st_key := key; st_name := n; st_options := o |}
  end.
(** The loop of Parse; [fuel] bounds the number of entries (at most the length of the text). *)
Fixpoint stags_fuel (fuel : nat) (s : string) : res (list stag) :=
  match trim_left is_sp s with
  | EmptyString => Ok []
  | s' =>
      match fuel with
      | O => OutOfFuel
      | S fuel' =>
          let '(key, rest) := span key_char s' in
          match key, rest with
          | EmptyString, _ => Err
          | _, String c (String d v) =>
              if negb (Ascii.eqb c ":") then Err
              else if negb (Ascii.eqb d dquote) then Err
              else match scan_quoted v with
                   | None => Err
                   | Some (q, rest') =>
                       do value <- unquote q ;
                       do l <- stags_fuel fuel' rest' ;
                       Ok (stag_of key value :: l)
                   end
          | _, _ => Err
          end
      end
  end.
(** structtag.Parse; [None] is the nil result for a text without entries. *)
Definition stags_parse (s : string) : res (option (list stag)) :=
  do l <- stags_fuel (String.length s) s ;
  match l with
  | [] => Ok (if String.eqb s "" then Some [] else None)
  | _ => Ok (Some l)
  end.
(** Tags.Get: the first entry with the key. *)
Definition stags_get (l : list stag) (key : string) : option stag := find (fun t => String.eqb (st_key t) key) l.
(** Tag.Value. *)
Definition stag_value (t : stag) : string :=
  let options := join "," (st_options t) in
  if String.eqb options "" then st_name t else st_name t +++ "," +++ options.

(** *** tagparser.Parse *)

Record ptag := { pt_name : string; pt_options : list (string * string) }.
Record pst := { ps_tag : ptag; ps_named : bool }.
(** strings.TrimSpace on ASCII text. *)
Definition is_space (c : ascii) : bool := Ascii.eqb c " " || in_range 9 13 c.
Definition trim_space (s : string) : string := trim is_space s.
(** setTagOption. *)
Definition set_option (k v : string) (p : pst) : pst :=
  let key := trim_space k in
  let value := trim_space v in
  if negb (ps_named p) && String.eqb key "" then
    {| ps_tag := {| pt_name := value; pt_options := pt_options (ps_tag p) |}; ps_named := true |}
  else
    {| ps_tag := {| pt_name := pt_name (ps_tag p);
                    pt_options := if String.eqb key "" then oset value "" (pt_options (ps_tag p)) else oset key value (pt_options (ps_tag p)) |};
       ps_named := true |}.
(** parseKey, parseValue, readBrackets and parseQuotedValue as one machine over
    the bytes; [b] is the text collected so far. *)
Inductive pmode :=
| PKey (b : string)                             (* parseKey *)
| PSkip                                         (* after a comma: Skip of one space *)
| PVal0 (k : string)                            (* parseValue: first byte *)
| PVal (k b : string)                           (* parseValue *)
| PValEsc (k b : string)                        (* after a backslash *)
| PBr (k b : string) (lvl : nat)                (* readBrackets *)
| PBrEsc (k b : string) (lvl : nat)
| PQuoted (k b seg : string)                    (* parseQuotedValue: b, and the bytes since *)
| PAfter.                                       (* after the closing quote: Skip of a comma *)
Definition snoc (s : string) (c : ascii) : string := s +++ str1 c.
Definition quote1 : ascii := ascii_of_nat 39.
(** All but the last byte, if that byte is a backslash. *)
Fixpoint drop_backslash (s : string) : option string :=
  match s with
  | EmptyString => None
  | String c EmptyString => if Ascii.eqb c backslash then Some EmptyString else None
  | String c r => option_map (String c) (drop_backslash r)
  end.
Definition key_step (b : string) (c : ascii) (p : pst) : pmode * pst :=
  if Ascii.eqb c "," then (PSkip, set_option "" b p)
  else if Ascii.eqb c ":" then (PVal0 b, p)
  else if Ascii.eqb c quote1 then (PQuoted "" "" "", p)
  else (PKey (snoc b c), p).
Definition val_step (k b : string) (c : ascii) (p : pst) : pmode * pst :=
  if Ascii.eqb c backslash then (PValEsc k b, p)
  else if Ascii.eqb c "(" then (PBr k (snoc b c) 0, p)
  else if Ascii.eqb c "," then (PSkip, set_option k b p)
  else (PVal k (snoc b c), p).
Definition pstep (m : pmode) (c : ascii) (p : pst) : pmode * pst :=
  match m with
  | PKey b => key_step b c p
  | PSkip => if Ascii.eqb c " " then (PKey "", p) else key_step "" c p
  | PVal0 k => if Ascii.eqb c quote1 then (PQuoted k "" "", p) else val_step k "" c p
  | PVal k b => val_step k b c p
  | PValEsc k b => (PVal k (snoc b c), p)
  | PBr k b lvl =>
      if Ascii.eqb c backslash then (PBrEsc k b lvl, p)
      else if Ascii.eqb c "(" then (PBr k (snoc b c) (S lvl), p)
      else if Ascii.eqb c ")" then match lvl with O => (PVal k (snoc b c), p) | S l => (PBr k (snoc b c) l, p) end
      else (PBr k (snoc b c) lvl, p)
  | PBrEsc k b lvl => (PBr k (snoc b c) lvl, p)
  | PQuoted k b seg =>
      if Ascii.eqb c quote1 then
        match drop_backslash seg with
        | Some seg' => (PQuoted k (snoc (b +++ seg') quote1) "", p)
        | None => (PAfter, set_option k (b +++ seg) p)
        end
      else (PQuoted k b (snoc seg c), p)
  | PAfter => if Ascii.eqb c "," then (PSkip, p) else key_step "" c p
  end.
(** The end of the text (an escape at the end reads a zero byte). *)
Definition pend (m : pmode) (p : pst) : pst :=
  match m with
  | PKey b => if String.eqb b "" then p else set_option "" b p
  | PSkip | PAfter => p
  | PVal0 k => set_option k "" p
  | PVal k b | PBr k b _ => set_option k b p
  | PValEsc k b | PBrEsc k b _ => set_option k (snoc b (ascii_of_nat 0)) p
  | PQuoted k b seg => set_option k (b +++ seg) p
  end.
Fixpoint prun (m : pmode) (s : string) (p : pst) : pst :=
  match s with
  | EmptyString => pend m p
  | String c r => let '(m', p') := pstep m c p in prun m' r p'
  end.
Definition tagparser_parse (s : string) : ptag :=
  ps_tag (prun (PKey "") s {| ps_tag := {| pt_name := ""; pt_options := [] |}; ps_named := false |}).

(** *** tag.go *)

Section Tag.
  (** [F]: float64 values; [parse_float]: strconv.ParseFloat, [None] on error. *)
  Context {F : Type} (parse_float : string -> option F).

  (** tag.go:13-38; nil pointers are [None]. *)
  Record tag := {
    t_ignore : bool; t_inline : option bool; t_omitempty : bool; t_nullable : option bool;
    t_readonly : bool; t_writeonly : bool; t_deprecated : bool; t_required : bool;
    t_name : string; t_pattern : string; t_format : string; t_type : string;
    t_min : option F; t_max : option F; t_emin : option F; t_emax : option F; t_mulof : option F;
    t_minlen : option Z; t_maxlen : option Z; t_minitems : option Z; t_maxitems : option Z;
    t_uniqitems : bool; t_minprops : option Z; t_maxprops : option Z }.
  Definition tag_zero : tag :=
    {| t_ignore := false; t_inline := None; t_omitempty := false; t_nullable := None; t_readonly := false; t_writeonly := false;
       t_deprecated := false; t_required := false; t_name := ""; t_pattern := ""; t_format := ""; t_type := "";
       t_min := None; t_max := None; t_emin := None; t_emax := None; t_mulof := None; t_minlen := None; t_maxlen := None;
       t_minitems := None; t_maxitems := None; t_uniqitems := false; t_minprops := None; t_maxprops := None |}.

  (** Assignments to one field. *)
  Definition set_ignore (v : bool) (t : tag) : tag := {| t_ignore := v; t_inline := t_inline t; t_omitempty := t_omitempty t; t_nullable := t_nullable t; t_readonly := t_readonly t; t_writeonly := t_writeonly t; t_deprecated := t_deprecated t; t_required := t_required t; t_name := t_name t; t_pattern := t_pattern t; t_format := t_format t; t_type := t_type t; t_min := t_min t; t_max := t_max t; t_emin := t_emin t; t_emax := t_emax t; t_mulof := t_mulof t; t_minlen := t_minlen t; t_maxlen := t_maxlen t; t_minitems := t_minitems t; t_maxitems := t_maxitems t; t_uniqitems := t_uniqitems t; t_minprops := t_minprops t; t_maxprops := t_maxprops t |}.
  Definition set_inline (v : option bool) (t : tag) : tag := {| t_ignore := t_ignore t; t_inline := v; t_omitempty := t_omitempty t; t_nullable := t_nullable t; t_readonly := t_readonly t; t_writeonly := t_writeonly t; t_deprecated := t_deprecated t; t_required := t_required t; t_name := t_name t; t_pattern := t_pattern t; t_format := t_format t; t_type := t_type t; t_min := t_min t; t_max := t_max t; t_emin := t_emin t; t_emax := t_emax t; t_mulof := t_mulof t; t_minlen := t_minlen t; t_maxlen := t_maxlen t; t_minitems := t_minitems t; t_maxitems := t_maxitems t; t_uniqitems := t_uniqitems t; t_minprops := t_minprops t; t_maxprops := t_maxprops t |}.
  Definition set_omitempty (v : bool) (t : tag) : tag := {| t_ignore := t_ignore t; t_inline := t_inline t; t_omitempty := v; t_nullable := t_nullable t; t_readonly := t_readonly t; t_writeonly := t_writeonly t; t_deprecated := t_deprecated t; t_required := t_required t; t_name := t_name t; t_pattern := t_pattern t; t_format := t_format t; t_type := t_type t; t_min := t_min t; t_max := t_max t; t_emin := t_emin t; t_emax := t_emax t; t_mulof := t_mulof t; t_minlen := t_minlen t; t_maxlen := t_maxlen t; t_minitems := t_minitems t; t_maxitems := t_maxitems t; t_uniqitems := t_uniqitems t; t_minprops := t_minprops t; t_maxprops := t_maxprops t |}.
  Definition set_nullable (v : option bool) (t : tag) : tag := {| t_ignore := t_ignore t; t_inline := t_inline t; t_omitempty := t_omitempty t; t_nullable := v; t_readonly := t_readonly t; t_writeonly := t_writeonly t; t_deprecated := t_deprecated t; t_required := t_required t; t_name := t_name t; t_pattern := t_pattern t; t_format := t_format t; t_type := t_type t; t_min := t_min t; t_max := t_max t; t_emin := t_emin t; t_emax := t_emax t; t_mulof := t_mulof t; t_minlen := t_minlen t; t_maxlen := t_maxlen t; t_minitems := t_minitems t; t_maxitems := t_maxitems t; t_uniqitems := t_uniqitems t; t_minprops := t_minprops t; t_maxprops := t_maxprops t |}.
  Definition set_readonly (v : bool) (t : tag) : tag := {| t_ignore := t_ignore t; t_inline := t_inline t; t_omitempty := t_omitempty t; t_nullable := t_nullable t; t_readonly := v; t_writeonly := t_writeonly t; t_deprecated := t_deprecated t; t_required := t_required t; t_name := t_name t; t_pattern := t_pattern t; t_format := t_format t; t_type := t_type t; t_min := t_min t; t_max := t_max t; t_emin := t_emin t; t_emax := t_emax t; t_mulof := t_mulof t; t_minlen := t_minlen t; t_maxlen := t_maxlen t; t_minitems := t_minitems t; t_maxitems := t_maxitems t; t_uniqitems := t_uniqitems t; t_minprops := t_minprops t; t_maxprops := t_maxprops t |}.
  Definition set_writeonly (v : bool) (t : tag) : tag := {| t_ignore := t_ignore t; t_inline := t_inline t; t_omitempty := t_omitempty t; t_nullable := t_nullable t; t_readonly := t_readonly t; t_writeonly := v; t_deprecated := t_deprecated t; t_required := t_required t; t_name := t_name t; t_pattern := t_pattern t; t_format := t_format t; t_type := t_type t; t_min := t_min t; t_max := t_max t; t_emin := t_emin t; t_emax := t_emax t; t_mulof := t_mulof t; t_minlen := t_minlen t; t_maxlen := t_maxlen t; t_minitems := t_minitems t; t_maxitems := t_maxitems t; t_uniqitems := t_uniqitems t; t_minprops := t_minprops t; t_maxprops := t_maxprops t |}.
  Definition set_deprecated (v : bool) (t : tag) : tag := {| t_ignore := t_ignore t; t_inline := t_inline t; t_omitempty := t_omitempty t; t_nullable := t_nullable t; t_readonly := t_readonly t; t_writeonly := t_writeonly t; t_deprecated := v; t_required := t_required t; t_name := t_name t; t_pattern := t_pattern t; t_format := t_format t; t_type := t_type t; t_min := t_min t; t_max := t_max t; t_emin := t_emin t; t_emax := t_emax t; t_mulof := t_mulof t; t_minlen := t_minlen t; t_maxlen := t_maxlen t; t_minitems := t_minitems t; t_maxitems := t_maxitems t; t_uniqitems := t_uniqitems t; t_minprops := t_minprops t; t_maxprops := t_maxprops t |}.
  Definition set_required (v : bool) (t : tag) : tag := {| t_ignore := t_ignore t; t_inline := t_inline t; t_omitempty := t_omitempty t; t_nullable := t_nullable t; t_readonly := t_readonly t; t_writeonly := t_writeonly t; t_deprecated := t_deprecated t; t_required := v; t_name := t_name t; t_pattern := t_pattern t; t_format := t_format t; t_type := t_type t; t_min := t_min t; t_max := t_max t; t_emin := t_emin t; t_emax := t_emax t; t_mulof := t_mulof t; t_minlen := t_minlen t; t_maxlen := t_maxlen t; t_minitems := t_minitems t; t_maxitems := t_maxitems t; t_uniqitems := t_uniqitems t; t_minprops := t_minprops t; t_maxprops := t_maxprops t |}.
  Definition set_name (v : string) (t : tag) : tag := {| t_ignore := t_ignore t; t_inline := t_inline t; t_omitempty := t_omitempty t; t_nullable := t_nullable t; t_readonly := t_readonly t; t_writeonly := t_writeonly t; t_deprecated := t_deprecated t; t_required := t_required t; t_name := v; t_pattern := t_pattern t; t_format := t_format t; t_type := t_type t; t_min := t_min t; t_max := t_max t; t_emin := t_emin t; t_emax := t_emax t; t_mulof := t_mulof t; t_minlen := t_minlen t; t_maxlen := t_maxlen t; t_minitems := t_minitems t; t_maxitems := t_maxitems t; t_uniqitems := t_uniqitems t; t_minprops := t_minprops t; t_maxprops := t_maxprops t |}.
  Definition set_pattern (v : string) (t : tag) : tag := {| t_ignore := t_ignore t; t_inline := t_inline t; t_omitempty := t_omitempty t; t_nullable := t_nullable t; t_readonly := t_readonly t; t_writeonly := t_writeonly t; t_deprecated := t_deprecated t; t_required := t_required t; t_name := t_name t; t_pattern := v; t_format := t_format t; t_type := t_type t; t_min := t_min t; t_max := t_max t; t_emin := t_emin t; t_emax := t_emax t; t_mulof := t_mulof t; t_minlen := t_minlen t; t_maxlen := t_maxlen t; t_minitems := t_minitems t; t_maxitems := t_maxitems t; t_uniqitems := t_uniqitems t; t_minprops := t_minprops t; t_maxprops := t_maxprops t |}.
  Definition set_format (v : string) (t : tag) : tag := {| t_ignore := t_ignore t; t_inline := t_inline t; t_omitempty := t_omitempty t; t_nullable := t_nullable t; t_readonly := t_readonly t; t_writeonly := t_writeonly t; t_deprecated := t_deprecated t; t_required := t_required t; t_name := t_name t; t_pattern := t_pattern t; t_format := v; t_type := t_type t; t_min := t_min t; t_max := t_max t; t_emin := t_emin t; t_emax := t_emax t; t_mulof := t_mulof t; t_minlen := t_minlen t; t_maxlen := t_maxlen t; t_minitems := t_minitems t; t_maxitems := t_maxitems t; t_uniqitems := t_uniqitems t; t_minprops := t_minprops t; t_maxprops := t_maxprops t |}.
  Definition set_type (v : string) (t : tag) : tag := {| t_ignore := t_ignore t; t_inline := t_inline t; t_omitempty := t_omitempty t; t_nullable := t_nullable t; t_readonly := t_readonly t; t_writeonly := t_writeonly t; t_deprecated := t_deprecated t; t_required := t_required t; t_name := t_name t; t_pattern := t_pattern t; t_format := t_format t; t_type := v; t_min := t_min t; t_max := t_max t; t_emin := t_emin t; t_emax := t_emax t; t_mulof := t_mulof t; t_minlen := t_minlen t; t_maxlen := t_maxlen t; t_minitems := t_minitems t; t_maxitems := t_maxitems t; t_uniqitems := t_uniqitems t; t_minprops := t_minprops t; t_maxprops := t_maxprops t |}.
  Definition set_min (v : option F) (t : tag) : tag := {| t_ignore := t_ignore t; t_inline := t_inline t; t_omitempty := t_omitempty t; t_nullable := t_nullable t; t_readonly := t_readonly t; t_writeonly := t_writeonly t; t_deprecated := t_deprecated t; t_required := t_required t; t_name := t_name t; t_pattern := t_pattern t; t_format := t_format t; t_type := t_type t; t_min := v; t_max := t_max t; t_emin := t_emin t; t_emax := t_emax t; t_mulof := t_mulof t; t_minlen := t_minlen t; t_maxlen := t_maxlen t; t_minitems := t_minitems t; t_maxitems := t_maxitems t; t_uniqitems := t_uniqitems t; t_minprops := t_minprops t; t_maxprops := t_maxprops t |}.
  Definition set_max (v : option F) (t : tag) : tag := {| t_ignore := t_ignore t; t_inline := t_inline t; t_omitempty := t_omitempty t; t_nullable := t_nullable t; t_readonly := t_readonly t; t_writeonly := t_writeonly t; t_deprecated := t_deprecated t; t_required := t_required t; t_name := t_name t; t_pattern := t_pattern t; t_format := t_format t; t_type := t_type t; t_min := t_min t; t_max := v; t_emin := t_emin t; t_emax := t_emax t; t_mulof := t_mulof t; t_minlen := t_minlen t; t_maxlen := t_maxlen t; t_minitems := t_minitems t; t_maxitems := t_maxitems t; t_uniqitems := t_uniqitems t; t_minprops := t_minprops t; t_maxprops := t_maxprops t |}.
  Definition set_emin (v : option F) (t : tag) : tag := {| t_ignore := t_ignore t; t_inline := t_inline t; t_omitempty := t_omitempty t; t_nullable := t_nullable t; t_readonly := t_readonly t; t_writeonly := t_writeonly t; t_deprecated := t_deprecated t; t_required := t_required t; t_name := t_name t; t_pattern := t_pattern t; t_format := t_format t; t_type := t_type t; t_min := t_min t; t_max := t_max t; t_emin := v; t_emax := t_emax t; t_mulof := t_mulof t; t_minlen := t_minlen t; t_maxlen := t_maxlen t; t_minitems := t_minitems t; t_maxitems := t_maxitems t; t_uniqitems := t_uniqitems t; t_minprops := t_minprops t; t_maxprops := t_maxprops t |}.
  Definition set_emax (v : option F) (t : tag) : tag := {| t_ignore := t_ignore t; t_inline := t_inline t; t_omitempty := t_omitempty t; t_nullable := t_nullable t; t_readonly := t_readonly t; t_writeonly := t_writeonly t; t_deprecated := t_deprecated t; t_required := t_required t; t_name := t_name t; t_pattern := t_pattern t; t_format := t_format t; t_type := t_type t; t_min := t_min t; t_max := t_max t; t_emin := t_emin t; t_emax := v; t_mulof := t_mulof t; t_minlen := t_minlen t; t_maxlen := t_maxlen t; t_minitems := t_minitems t; t_maxitems := t_maxitems t; t_uniqitems := t_uniqitems t; t_minprops := t_minprops t; t_maxprops := t_maxprops t |}.
  Definition set_minlen (v : option Z) (t : tag) : tag := {| t_ignore := t_ignore t; t_inline := t_inline t; t_omitempty := t_omitempty t; t_nullable := t_nullable t; t_readonly := t_readonly t; t_writeonly := t_writeonly t; t_deprecated := t_deprecated t; t_required := t_required t; t_name := t_name t; t_pattern := t_pattern t; t_format := t_format t; t_type := t_type t; t_min := t_min t; t_max := t_max t; t_emin := t_emin t; t_emax := t_emax t; t_mulof := t_mulof t; t_minlen := v; t_maxlen := t_maxlen t; t_minitems := t_minitems t; t_maxitems := t_maxitems t; t_uniqitems := t_uniqitems t; t_minprops := t_minprops t; t_maxprops := t_maxprops t |}.
  Definition set_maxlen (v : option Z) (t : tag) : tag := {| t_ignore := t_ignore t; t_inline := t_inline t; t_omitempty := t_omitempty t; t_nullable := t_nullable t; t_readonly := t_readonly t; t_writeonly := t_writeonly t; t_deprecated := t_deprecated t; t_required := t_required t; t_name := t_name t; t_pattern := t_pattern t; t_format := t_format t; t_type := t_type t; t_min := t_min t; t_max := t_max t; t_emin := t_emin t; t_emax := t_emax t; t_mulof := t_mulof t; t_minlen := t_minlen t; t_maxlen := v; t_minitems := t_minitems t; t_maxitems := t_maxitems t; t_uniqitems := t_uniqitems t; t_minprops := t_minprops t; t_maxprops := t_maxprops t |}.
  Definition set_minitems (v : option Z) (t : tag) : tag := {| t_ignore := t_ignore t; t_inline := t_inline t; t_omitempty := t_omitempty t; t_nullable := t_nullable t; t_readonly := t_readonly t; t_writeonly := t_writeonly t; t_deprecated := t_deprecated t; t_required := t_required t; t_name := t_name t; t_pattern := t_pattern t; t_format := t_format t; t_type := t_type t; t_min := t_min t; t_max := t_max t; t_emin := t_emin t; t_emax := t_emax t; t_mulof := t_mulof t; t_minlen := t_minlen t; t_maxlen := t_maxlen t; t_minitems := v; t_maxitems := t_maxitems t; t_uniqitems := t_uniqitems t; t_minprops := t_minprops t; t_maxprops := t_maxprops t |}.
  Definition set_maxitems (v : option Z) (t : tag) : tag := {| t_ignore := t_ignore t; t_inline := t_inline t; t_omitempty := t_omitempty t; t_nullable := t_nullable t; t_readonly := t_readonly t; t_writeonly := t_writeonly t; t_deprecated := t_deprecated t; t_required := t_required t; t_name := t_name t; t_pattern := t_pattern t; t_format := t_format t; t_type := t_type t; t_min := t_min t; t_max := t_max t; t_emin := t_emin t; t_emax := t_emax t; t_mulof := t_mulof t; t_minlen := t_minlen t; t_maxlen := t_maxlen t; t_minitems := t_minitems t; t_maxitems := v; t_uniqitems := t_uniqitems t; t_minprops := t_minprops t; t_maxprops := t_maxprops t |}.
  Definition set_uniqitems (v : bool) (t : tag) : tag := {| t_ignore := t_ignore t; t_inline := t_inline t; t_omitempty := t_omitempty t; t_nullable := t_nullable t; t_readonly := t_readonly t; t_writeonly := t_writeonly t; t_deprecated := t_deprecated t; t_required := t_required t; t_name := t_name t; t_pattern := t_pattern t; t_format := t_format t; t_type := t_type t; t_min := t_min t; t_max := t_max t; t_emin := t_emin t; t_emax := t_emax t; t_mulof := t_mulof t; t_minlen := t_minlen t; t_maxlen := t_maxlen t; t_minitems := t_minitems t; t_maxitems := t_maxitems t; t_uniqitems := v; t_minprops := t_minprops t; t_maxprops := t_maxprops t |}.
  Definition set_minprops (v : option Z) (t : tag) : tag := {| t_ignore := t_ignore t; t_inline := t_inline t; t_omitempty := t_omitempty t; t_nullable := t_nullable t; t_readonly := t_readonly t; t_writeonly := t_writeonly t; t_deprecated := t_deprecated t; t_required := t_required t; t_name := t_name t; t_pattern := t_pattern t; t_format := t_format t; t_type := t_type t; t_min := t_min t; t_max := t_max t; t_emin := t_emin t; t_emax := t_emax t; t_mulof := t_mulof t; t_minlen := t_minlen t; t_maxlen := t_maxlen t; t_minitems := t_minitems t; t_maxitems := t_maxitems t; t_uniqitems := t_uniqitems t; t_minprops := v; t_maxprops := t_maxprops t |}.
  Definition set_maxprops (v : option Z) (t : tag) : tag := {| t_ignore := t_ignore t; t_inline := t_inline t; t_omitempty := t_omitempty t; t_nullable := t_nullable t; t_readonly := t_readonly t; t_writeonly := t_writeonly t; t_deprecated := t_deprecated t; t_required := t_required t; t_name := t_name t; t_pattern := t_pattern t; t_format := t_format t; t_type := t_type t; t_min := t_min t; t_max := t_max t; t_emin := t_emin t; t_emax := t_emax t; t_mulof := t_mulof t; t_minlen := t_minlen t; t_maxlen := t_maxlen t; t_minitems := t_minitems t; t_maxitems := t_maxitems t; t_uniqitems := t_uniqitems t; t_minprops := t_minprops t; t_maxprops := v |}.
  Definition opts := list (string * string).
  (** tag.go:135-159 parseTagFloatPtr. *)
  Definition read_float (o : opts) (k : string) (set : option F -> tag -> tag) (t : tag) : res tag :=
    match oget k o with
    | None => Ok t
    | Some v => match parse_float v with Some x => Ok (set (Some x) t) | None => Err end
    end.
  (** tag.go:161-185 parseTagIntPtr (int is 64 bits wide). *)
  Definition read_int (o : opts) (k : string) (set : option Z -> tag -> tag) (t : tag) : res tag :=
    match oget k o with
    | None => Ok t
    | Some v => match atoi v with Some x => Ok (set (Some x) t) | None => Err end
    end.
  (** tag.go:187-194 parseTagString. *)
  Definition read_string (o : opts) (k : string) (set : string -> tag -> tag) (t : tag) : res tag :=
    match oget k o with None => Ok t | Some v => Ok (set v t) end.
  (** tag.go:196-204 parseTagBool: always assigns; ParseBool's error is dropped (its value is then false). *)
  Definition read_bool (o : opts) (k : string) (set : bool -> tag -> tag) (t : tag) : res tag :=
    match oget k o with
    | None => Ok (set false t)
    | Some v => if String.eqb v "" then Ok (set true t)
                else Ok (set (match parse_bool v with Some b => b | None => false end) t)
    end.
  (** tag.go:206-222 parseTagBoolPtr. *)
  Definition read_boolptr (o : opts) (k : string) (set : option bool -> tag -> tag) (t : tag) : res tag :=
    match oget k o with
    | None => Ok t
    | Some v => if String.eqb v "" then Ok (set (Some true) t)
                else match parse_bool v with Some b => Ok (set (Some b) t) | None => Err end
    end.

  (** tag.go:63-69 and 107-113. *)
  Definition read_name (p : ptag) (t : tag) : tag := if String.eqb (pt_name p) "" then t else set_name (pt_name p) t.

  (** tag.go:102-124 parseJSONTag. *)
  Definition read_json (p : ptag) (t : tag) : res tag :=
    if String.eqb (pt_name p) "-" then Ok (set_ignore true t)
    else
      let o := pt_options p in
      do t <- read_boolptr o "inline" set_inline (read_name p t) ;
      read_bool o "omitempty" set_omitempty t.
  (** tag.go:58-100 parseOAPITag.  (The code evaluates all readers before
      looking at the errors; no reader depends on another one's error.) *)
  Definition read_oapi (p : ptag) (t : tag) : res tag :=
    if String.eqb (pt_name p) "-" then Ok (set_ignore true t)
    else
      let o := pt_options p in
      do t <- read_boolptr o "inline" set_inline (read_name p t) ;
      do t <- read_bool o "omitempty" set_omitempty t ;
      do t <- read_boolptr o "nullable" set_nullable t ;
      do t <- read_bool o "readonly" set_readonly t ;
      do t <- read_bool o "writeonly" set_writeonly t ;
      do t <- read_bool o "deprecated" set_deprecated t ;
      do t <- read_bool o "unique" set_uniqitems t ;
      do t <- read_bool o "required" set_required t ;
      do t <- read_int o "maxlen" set_maxlen t ;
      do t <- read_int o "minlen" set_minlen t ;
      do t <- read_int o "maxitems" set_maxitems t ;
      do t <- read_int o "minitems" set_minitems t ;
      do t <- read_int o "maxprops" set_maxprops t ;
      do t <- read_int o "minprops" set_minprops t ;
      do t <- read_string o "pattern" set_pattern t ;
      do t <- read_string o "format" set_format t ;
      do t <- read_string o "type" set_type t ;
      do t <- read_float o "max" set_max t ;
      do t <- read_float o "min" set_min t ;
      do t <- read_float o "emax" set_emax t ;
      do t <- read_float o "emin" set_emin t ;
      read_float o "mulof" set_emin t.

  (** tag.go:126-133 parseTag. *)
  Definition sub_tag (l : list stag) (key : string) : option ptag :=
    match stags_get l key with Some e => Some (tagparser_parse (stag_value e)) | None => None end.
  (** tag.go:41-56 Parse; Get on the nil result of structtag.Parse panics. *)
  Definition tag_parse (raw : string) : res tag :=
    if String.eqb raw "" then Ok tag_zero
    else
      do tags <- stags_parse raw ;
      match tags with
      | None => Panic
      | Some l =>
          do t <- (match sub_tag l "json" with Some p => read_json p tag_zero | None => Ok tag_zero end) ;
          match sub_tag l "oapi" with Some p => read_oapi p t | None => Ok t end
      end.
End Tag.
Arguments tag F : clear implicits.
