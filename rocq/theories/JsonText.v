(** encoding/json and strconv.Quote as used by the sorting marshaller
    (internal/container/sort.go), the reader (internal/container/container.go)
    and the generated Go file.  No proofs in this file.

    Strings are byte strings holding valid UTF-8 (see Json.v).  Number texts
    are parameters: [pn] prints a number (None: NaN or infinity, which
    json.Marshal rejects), [rd] reads a number token (strconv.ParseFloat). *)
From Coq Require Import String Ascii List Bool Arith ZArith.
From Verif Require Import GoStr Json Gabs Container.
Import ListNotations.
Local Open Scope string_scope.
Local Open Scope nat_scope.
Local Open Scope list_scope.

Definition chr (n : nat) : ascii := ascii_of_nat n.
Definition hexd (n : nat) : ascii := if n <? 10 then chr (48 + n) else chr (87 + n).
Definition DQ : ascii := chr 34.
Definition BS : ascii := chr 92.

(** The bytes of U+2028 and U+2029: E2 80 A8 and E2 80 A9. *)
Definition line_sep (a b c : ascii) : option string :=
  if Ascii.eqb a (chr 226) && Ascii.eqb b (chr 128) then
    if Ascii.eqb c (chr 168) then Some (String BS "u2028")
    else if Ascii.eqb c (chr 169) then Some (String BS "u2029") else None
  else None.

(** A pass over a string that replaces the line separators by their escapes and
    every other byte by [f] of it. *)
Fixpoint escape_by (f : ascii -> string) (s : string) : string :=
  match s with
  | EmptyString => EmptyString
  | String a r =>
      match r with
      | String b (String c r') =>
          match line_sep a b c with
          | Some e => e +++ escape_by f r'
          | None => f a +++ escape_by f r
          end
      | _ => f a +++ escape_by f r
      end
  end.

Definition u00 (c : ascii) : string :=
  let n := nat_of_ascii c in
  String BS (String "u" (String "0" (String "0" (String (hexd (n / 16)) (str1 (hexd (n mod 16))))))).
Definition is_html (c : ascii) : bool := Ascii.eqb c "<" || Ascii.eqb c ">" || Ascii.eqb c "&".

(** encoding/json encodeState.string with escapeHTML: the body of a string literal. *)
Definition jesc1 (c : ascii) : string :=
  if Ascii.eqb c DQ || Ascii.eqb c BS then String BS (str1 c)
  else if Ascii.eqb c (chr 10) then String BS "n"
  else if Ascii.eqb c (chr 13) then String BS "r"
  else if Ascii.eqb c (chr 9) then String BS "t"
  else if (nat_of_ascii c <? 32) || is_html c then u00 c
  else str1 c.
Definition jquote (s : string) : string := String DQ (escape_by jesc1 s +++ str1 DQ).

(** strconv.Quote, the %q of sort.go:135.  Non-ASCII characters are taken to be
    printable (a non-printable one would be written as an escape: the same
    string for JSON up to U+FFFF, malformed JSON above). *)
Definition gquote1 (c : ascii) : string :=
  let n := nat_of_ascii c in
  if Ascii.eqb c DQ || Ascii.eqb c BS then String BS (str1 c)
  else if n =? 7 then String BS "a" else if n =? 8 then String BS "b"
  else if n =? 12 then String BS "f" else if n =? 10 then String BS "n"
  else if n =? 13 then String BS "r" else if n =? 9 then String BS "t"
  else if n =? 11 then String BS "v"
  else if (n <? 32) || (n =? 127) then String BS (String "x" (String (hexd (n / 16)) (str1 (hexd (n mod 16)))))
  else str1 c.
Fixpoint gquote_body (s : string) : string :=
  match s with EmptyString => EmptyString | String c r => gquote1 c +++ gquote_body r end.
Definition gquote (s : string) : string := String DQ (gquote_body s +++ str1 DQ).

(** ** Reading *)
Definition is_ws (c : ascii) : bool :=
  Ascii.eqb c " " || Ascii.eqb c (chr 9) || Ascii.eqb c (chr 10) || Ascii.eqb c (chr 13).
Fixpoint skip_ws (s : string) : string :=
  match s with String c r => if is_ws c then skip_ws r else s | EmptyString => s end.

Definition hexv (c : ascii) : option nat :=
  let n := nat_of_ascii c in
  if in_range 48 57 c then Some (n - 48)
  else if in_range 97 102 c then Some (n - 87)
  else if in_range 65 70 c then Some (n - 55) else None.
Definition hex4 (a b c d : ascii) : option nat :=
  match hexv a, hexv b, hexv c, hexv d with
  | Some a, Some b, Some c, Some d => Some (((a * 16 + b) * 16 + c) * 16 + d)
  | _, _, _, _ => None
  end.
(** UTF-8 of a code point below 65536; None for a surrogate (D800 to DFFF). *)
Definition utf8 (n : nat) : option string :=
  if n <? 128 then Some (str1 (chr n))
  else if n / 64 <? 32 then Some (String (chr (192 + n / 64)) (str1 (chr (128 + n mod 64))))
  else if n / 64 / 32 =? 27 then None
  else Some (String (chr (224 + n / 64 / 64)) (String (chr (128 + (n / 64) mod 64)) (str1 (chr (128 + n mod 64))))).
Definition unesc1 (c : ascii) : option ascii :=
  if Ascii.eqb c DQ then Some DQ else if Ascii.eqb c BS then Some BS
  else if Ascii.eqb c "/" then Some ("/"%char) else if Ascii.eqb c "b" then Some (chr 8)
  else if Ascii.eqb c "f" then Some (chr 12) else if Ascii.eqb c "n" then Some (chr 10)
  else if Ascii.eqb c "r" then Some (chr 13) else if Ascii.eqb c "t" then Some (chr 9) else None.
Definition before (a : string) (x : option (string * string)) : option (string * string) :=
  match x with Some (s, r) => Some (a +++ s, r) | None => None end.
(** utf16.DecodeRune: a high surrogate followed by a low one is one code point
    above 65535; its UTF-8.  Any other surrogate becomes U+FFFD. *)
Definition high_half (n : nat) : bool := n / 64 / 16 =? 54.
Definition low_half (n : nat) : bool := n / 64 / 16 =? 55.
Definition utf8_pair (n k : nat) : string :=
  let a := n mod 1024 in let b := k mod 1024 in let w := a / 64 + 1 in
  String (chr (240 + w / 4)) (String (chr (128 + (w mod 4) * 16 + (a mod 64) / 4))
    (String (chr (128 + (a mod 4) * 16 + b / 64)) (str1 (chr (128 + b mod 64))))).
Definition replacement : string := String (chr 239) (String (chr 191) (str1 (chr 189))).
(** The low surrogate escaped at the start of a text, if one is (encoding/json
    decode.go, getu4). *)
Definition low_next (s : string) : option nat :=
  match s with
  | String c (String d (String h1 (String h2 (String h3 (String h4 _))))) =>
      if Ascii.eqb c BS then if Ascii.eqb d "u" then
        match hex4 h1 h2 h3 h4 with Some k => if low_half k then Some k else None | None => None end
      else None else None
  | _ => None
  end.
(** The rest of a string literal after its opening quote: its value and what
    follows (encoding/json decode.go, unquoteBytes). *)
Fixpoint read_str (s : string) : option (string * string) :=
  match s with
  | EmptyString => None
  | String c r =>
      if Ascii.eqb c DQ then Some (EmptyString, r)
      else if Ascii.eqb c BS then
        match r with
        | String d r1 =>
            if Ascii.eqb d "u" then
              match r1 with
              | String h1 (String h2 (String h3 (String h4 r2))) =>
                  match hex4 h1 h2 h3 h4 with
                  | Some n =>
                      match utf8 n with
                      | Some u => before u (read_str r2)
                      | None =>
                          match (if high_half n then low_next r2 else None), r2 with
                          | Some k, String _ (String _ (String _ (String _ (String _ (String _ r3))))) => before (utf8_pair n k) (read_str r3)
                          | _, _ => before replacement (read_str r2)
                          end
                      end
                  | None => None
                  end
              | _ => None
              end
            else match unesc1 d with Some x => before (str1 x) (read_str r1) | None => None end
        | EmptyString => None
        end
      else if nat_of_ascii c <? 32 then None
      else before (str1 c) (read_str r)
  end.

(** A number token: JSON's grammar  -?(0|[1-9][0-9]* )(.[0-9]+)?([eE][+-]?[0-9]+)? *)
Fixpoint digits (s : string) : string :=
  match s with String c r => if is_digit c then digits r else s | EmptyString => s end.
Definition digits1 (s : string) : option string :=
  match s with String c r => if is_digit c then Some (digits r) else None | EmptyString => None end.
Definition num_int (s : string) : option string :=
  match s with
  | String c r => if Ascii.eqb c "0" then Some r else digits1 s
  | EmptyString => None
  end.
Definition num_frac (s : string) : option string :=
  match s with String c r => if Ascii.eqb c "." then digits1 r else Some s | EmptyString => Some s end.
Definition num_exp (s : string) : option string :=
  match s with
  | String c r =>
      if Ascii.eqb c "e" || Ascii.eqb c "E" then
        match r with
        | String d r' => if Ascii.eqb d "+" || Ascii.eqb d "-" then digits1 r' else digits1 r
        | EmptyString => None
        end
      else Some s
  | EmptyString => Some s
  end.
Definition is_number (s : string) : bool :=
  match (match s with String c r => if Ascii.eqb c "-" then num_int r else num_int s | EmptyString => None end) with
  | Some s1 => match num_frac s1 with
               | Some s2 => match num_exp s2 with Some s3 => String.eqb s3 "" | None => false end
               | None => false
               end
  | None => false
  end.
Definition num_char (c : ascii) : bool :=
  is_digit c || Ascii.eqb c "-" || Ascii.eqb c "+" || Ascii.eqb c "." || Ascii.eqb c "e" || Ascii.eqb c "E".
Fixpoint span_num (s : string) : string * string :=
  match s with
  | String c r => if num_char c then let '(a, b) := span_num r in (String c a, b) else (EmptyString, s)
  | EmptyString => (EmptyString, s)
  end.

Section Read.
  Context (rd : string -> option num).

  Fixpoint read_elems (n : nat) (v : string -> option (json * string)) (s : string) : option (list json * string) :=
    match n with
    | O => None
    | S n' =>
        match v s with
        | Some (x, r) =>
            match skip_ws r with
            | String c r' =>
                if Ascii.eqb c "," then
                  match read_elems n' v r' with Some (l, r'') => Some (x :: l, r'') | None => None end
                else if Ascii.eqb c "]" then Some ([x], r') else None
            | EmptyString => None
            end
        | None => None
        end
    end.
  Fixpoint read_members (n : nat) (v : string -> option (json * string)) (s : string) : option (list (string * json) * string) :=
    match n with
    | O => None
    | S n' =>
        match skip_ws s with
        | String q s1 =>
            if negb (Ascii.eqb q DQ) then None else
            match read_str s1 with
            | Some (k, s2) =>
                match skip_ws s2 with
                | String c s3 =>
                    if negb (Ascii.eqb c ":") then None else
                    match v s3 with
                    | Some (x, r) =>
                        match skip_ws r with
                        | String c r' =>
                            if Ascii.eqb c "," then
                              match read_members n' v r' with Some (l, r'') => Some ((k, x) :: l, r'') | None => None end
                            else if Ascii.eqb c "}" then Some ([(k, x)], r') else None
                        | EmptyString => None
                        end
                    | None => None
                    end
                | EmptyString => None
                end
            | None => None
            end
        | EmptyString => None
        end
    end.
  (** Decoding into a Go map: later members replace earlier ones. *)
  Definition map_of (l : list (string * json)) : list (string * json) :=
    fold_left (fun m kv => oset (fst kv) (snd kv) m) l [].

  Fixpoint read_value (fuel : nat) (s : string) : option (json * string) :=
    match fuel with
    | O => None
    | S f =>
        match skip_ws s with
        | EmptyString => None
        | String c r =>
            if Ascii.eqb c DQ then match read_str r with Some (x, r') => Some (JStr x, r') | None => None end
            else if Ascii.eqb c "{" then
              match skip_ws r with
              | String d r' => if Ascii.eqb d "}" then Some (JObj [], r')
                               else match read_members f (read_value f) r with Some (l, r'') => Some (JObj (map_of l), r'') | None => None end
              | EmptyString => None
              end
            else if Ascii.eqb c "[" then
              match skip_ws r with
              | String d r' => if Ascii.eqb d "]" then Some (JArr [], r')
                               else match read_elems f (read_value f) r with Some (l, r'') => Some (JArr l, r'') | None => None end
              | EmptyString => None
              end
            else if has_prefix "null" (String c r) then Some (JNull, skipn_s 4 (String c r))
            else if has_prefix "true" (String c r) then Some (JBool true, skipn_s 4 (String c r))
            else if has_prefix "false" (String c r) then Some (JBool false, skipn_s 5 (String c r))
            else let '(t, r') := span_num (String c r) in
                 if is_number t then match rd t with Some n => Some (JNum n, r') | None => None end else None
        end
    end.

  (** json.Unmarshal into interface{} (its limit of 10000 nested values is not
      modelled), and container.go:46-55 ReadJSON, which wants an object or null. *)
  Definition read_json (s : string) : option json :=
    match read_value (S (String.length s)) s with
    | Some (j, r) => if String.eqb (skip_ws r) "" then Some j else None
    | None => None
    end.
  Definition read_container (s : string) : res cont :=
    match read_json s with
    | Some (JObj m) => Ok (Some (JObj m))
    | Some JNull => Ok (Some JNull)
    | _ => Err
    end.
End Read.

(** ** Writing *)
Section Write.
  Context (pn : num -> option string).

  Definition bracket (a : ascii) (l : list string) (b : ascii) : string := String a (join "," l +++ str1 b).
  (** json.Marshal of an interface{} value: object members in the order of their keys. *)
  Fixpoint marshal (j : json) : res string :=
    match j with
    | JNull => Ok "null"
    | JBool true => Ok "true"
    | JBool false => Ok "false"
    | JNum n => match pn n with Some t => Ok t | None => Err end
    | JStr s => Ok (jquote s)
    | JArr l => do ts <- (fix go (l : list json) : res (list string) :=
                            match l with [] => Ok [] | x :: r => do t <- marshal x ; do ts <- go r ; Ok (t :: ts) end) l ;
                Ok (bracket "[" ts "]")
    | JObj m => do ts <- (fix go (m : list (string * json)) : res (list string) :=
                            match m with [] => Ok [] | (k, x) :: r => do t <- marshal x ; do ts <- go r ; Ok ((jquote k +++ ":" +++ t) :: ts) end) m ;
                Ok (bracket "{" ts "}")
    end.

  (** sort.go:127-143 MapSlice.MarshalJSON over the sorted items. *)
  Fixpoint marshal_items (l : list (string * json)) : res (list string) :=
    match l with
    | [] => Ok []
    | (k, x) :: r => do t <- marshal x ; do ts <- marshal_items r ; Ok ((gquote k +++ ":" +++ t) :: ts)
    end.
  Definition marshal_slice (l : list (string * json)) : res string :=
    do ts <- marshal_items l ; Ok (bracket "{" ts "}").

  Context (rd : string -> option num).
  (** encoding/json compact with escapeHTML, applied by json.Marshal to the
      output of a MarshalJSON method: the text must be valid JSON; white space
      outside strings would be removed (there is none in this output). *)
  Definition html1 (c : ascii) : string := if is_html c then u00 c else str1 c.
  Definition compact (s : string) : res string :=
    match read_json rd s with
    | Some _ => Ok (escape_by html1 s)
    | None => Err
    end.

  (** sort.go:29-35 Sorter.MarshalJSON with SortMapMarhsaler(order) (sort.go:68-90). *)
  Definition marshal_sorted (ord : list (string * json) -> list (string * json)) (srt1 srt2 : list map_item -> list map_item)
      (order : list string) (j : json) : res string :=
    match j with
    | JObj m => do s <- marshal_slice (sort_entries ord srt1 srt2 order m) ; compact s
    | _ => marshal j
    end.

  (** encoding/json Indent with prefix "" (sort.go:40-46, oapi.go:217): one pass
      over the bytes.  [str]: inside a string literal; [esc]: after a backslash
      in it; [need]: after an opening bracket; [d]: depth. *)
  Definition newline (indent : string) (d : nat) : string :=
    String (chr 10) (String.concat "" (repeat indent d)).
  Fixpoint indent_from (indent : string) (str esc need : bool) (d : nat) (s : string) : string :=
    match s with
    | EmptyString => EmptyString
    | String c r =>
        if str then
          String c (indent_from indent (esc || negb (Ascii.eqb c DQ)) (negb esc && Ascii.eqb c BS) need d r)
        else if is_ws c then indent_from indent false false need d r
        else
          let closing := Ascii.eqb c "}" || Ascii.eqb c "]" in
          let '(pre, need1, d1) := if need && negb closing then (newline indent (S d), false, S d) else (EmptyString, need, d) in
          pre +++
          (if Ascii.eqb c "{" || Ascii.eqb c "[" then String c (indent_from indent false false true d1 r)
           else if Ascii.eqb c "," then String c (newline indent d1 +++ indent_from indent false false need1 d1 r)
           else if Ascii.eqb c ":" then String c (String " " (indent_from indent false false need1 d1 r))
           else if closing then
             if need1 then String c (indent_from indent false false false d1 r)
             else newline indent (d1 - 1) +++ String c (indent_from indent false false false (d1 - 1) r)
           else String c (indent_from indent (Ascii.eqb c DQ) false need1 d1 r))
    end.
  Definition indent_json (indent s : string) : string := indent_from indent false false false 0 s.
End Write.

(** oapi.go:24-29 order. *)
Definition oapi_order : list string := ["openapi"; "info"; "components"; "paths"].

(** temp.go:8-15 tpl, 22-29 produceGoFile (text/template does not escape). *)
Definition BQ : ascii := chr 96.
Definition NL : string := str1 (chr 10).
Definition go_header (pkg : string) : string :=
  "// Code generated by oapi-go, DO NOT EDIT." +++ NL +++ "package " +++ pkg +++ NL +++ NL +++
  "// OpenAPIJsonSpec is json generated specification produced " +++ NL +++ "// by oapi-go tool." +++ NL +++
  "const OpenAPIJsonSpec = ".
Definition go_file (pkg json_text : string) : string := go_header pkg +++ String BQ (json_text +++ String BQ NL).

(** oapi.go:208-231 Format, except the YAML formats (gopkg.in/yaml.v2 is not modelled). *)
Inductive fmt := FJson | FPretty | FGo | FYaml | FUnknown.
Definition parse_fmt (f : string) : fmt :=
  if String.eqb f "yaml" || String.eqb f "yml" then FYaml
  else if String.eqb f "json" then FJson
  else if String.eqb f "json:pretty" then FPretty
  else if String.eqb f "go" then FGo else FUnknown.
Definition format (pn : num -> option string) (rd : string -> option num) (yaml : json -> res string)
    (ord : list (string * json) -> list (string * json)) (srt1 srt2 : list map_item -> list map_item) (f : string) (j : json) : res string :=
  let js := marshal_sorted pn rd ord srt1 srt2 oapi_order j in
  match parse_fmt f with
  | FYaml => yaml j
  | FJson => js
  | FPretty => do s <- js ; Ok (indent_json "  " s)
  | FGo => do s <- js ; Ok (go_file "main" s)
  | FUnknown => Err
  end.
