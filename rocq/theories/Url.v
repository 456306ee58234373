(** The part of net/url (Go 1.15) used by internal/pointer: url.Parse and
    URL.String.  Simplification: RawFragment is not kept (pointer.go never prints
    it).  No proofs in this file. *)
From Coq Require Import String Ascii List Bool Arith NArith.
From Verif Require Import GoStr.
Import ListNotations.
Local Open Scope string_scope.
Local Open Scope nat_scope.

Record url := {
  u_scheme : string; u_opaque : string;
  u_user : option (string * option string); (* Userinfo: username and, if set, password *)
  u_host : string; u_path : string;
  u_rawpath : string; u_forcequery : bool; u_query : string; u_fragment : string }.
Definition url_zero : url :=
  {| u_scheme := ""; u_opaque := ""; u_user := None; u_host := ""; u_path := ""; u_rawpath := "";
     u_forcequery := false; u_query := ""; u_fragment := "" |}.

Inductive emode := EPath | EHost | EZone | EUser | EFragment.

Definition in_list (c : ascii) (s : string) : bool := has_char c s.

(** url.go shouldEscape. *)
Definition should_escape (mode : emode) (c : ascii) : bool :=
  if is_alnum c then false else
  if (match mode with EHost | EZone => in_list c "!$&'()*+,;=:[]<>""" | _ => false end) then false else
  if in_list c "-_.~" then false else
  if in_list c "$&+,/:;=?@" then
    match mode with
    | EPath => Ascii.eqb c "?"
    | EUser => in_list c "@/?:"
    | EFragment => false
    | EHost | EZone => true
    end
  else match mode with
       | EFragment => negb (in_list c "!()*")
       | _ => true
       end.

Definition upper_hex (n : nat) : ascii := ascii_of_nat (if n <? 10 then 48 + n else 55 + n).
(** url.go ishex / unhex. *)
Definition hex_val (c : ascii) : option nat :=
  let n := nat_of_ascii c in
  if is_digit c then Some (n - 48)
  else if in_range 97 102 c then Some (n - 87)
  else if in_range 65 70 c then Some (n - 55)
  else None.

(** url.go escape. *)
Fixpoint escape (mode : emode) (s : string) : string :=
  match s with
  | EmptyString => EmptyString
  | String c r =>
      if should_escape mode c
      then String "%" (String (upper_hex (nat_of_ascii c / 16)) (String (upper_hex (nat_of_ascii c mod 16)) (escape mode r)))
      else String c (escape mode r)
  end.

(** url.go unescape; [None] is an error (malformed escape, or a byte not allowed
    in a host). *)
Fixpoint unescape (mode : emode) (s : string) : option string :=
  match s with
  | EmptyString => Some EmptyString
  | String "%" (String a (String b r)) =>
      match hex_val a, hex_val b with
      | Some x, Some y =>
          let v := 16 * x + y in
          if (match mode with
              | EHost => (x <? 8) && negb (v =? 37)
              | EZone => negb (v =? 37) && negb (v =? 32) && should_escape EHost (ascii_of_nat v)
              | _ => false
              end) then None
          else option_map (String (ascii_of_nat v)) (unescape mode r)
      | _, _ => None
      end
  | String "%" _ => None
  | String c r =>
      if (match mode with EHost | EZone => (nat_of_ascii c <? 128) && should_escape mode c | _ => false end) then None
      else option_map (String c) (unescape mode r)
  end.

(** url.go stringContainsCTLByte. *)
Fixpoint has_ctl (s : string) : bool :=
  match s with
  | EmptyString => false
  | String c r => (nat_of_ascii c <? 32) || (nat_of_ascii c =? 127) || has_ctl r
  end.

(** url.go getscheme: [None] is an error; otherwise (scheme, rest). [pre] is the
    part already read. *)
Fixpoint getscheme_from (first : bool) (pre s whole : string) : option (string * string) :=
  match s with
  | EmptyString => Some ("", whole)
  | String c r =>
      if is_alpha c then getscheme_from false (pre +++ str1 c) r whole
      else if is_digit c || in_list c "+-." then
        if first then Some ("", whole) else getscheme_from false (pre +++ str1 c) r whole
      else if Ascii.eqb c ":" then if first then None else Some (pre, r)
      else Some ("", whole)
  end.
Definition getscheme (s : string) : option (string * string) := getscheme_from true "" s s.

(** The host's port: url.go validOptionalPort after the last ':'. *)
Fixpoint after_last_colon (s : string) : option string :=
  match s with
  | EmptyString => None
  | String c r =>
      match after_last_colon r with
      | Some x => Some x
      | None => if Ascii.eqb c ":" then Some r else None
      end
  end.
Fixpoint all_digits (s : string) : bool :=
  match s with EmptyString => true | String c r => is_digit c && all_digits r end.

(** s split at the last c (strings.LastIndex). *)
Fixpoint cut_last (c : ascii) (s : string) : option (string * string) :=
  match s with
  | EmptyString => None
  | String d r =>
      match cut_last c r with
      | Some (a, b) => Some (String d a, b)
      | None => if Ascii.eqb c d then Some ("", r) else None
      end
  end.
(** url.go validOptionalPort. *)
Definition valid_port (s : string) : bool :=
  match s with EmptyString => true | String c r => Ascii.eqb c ":" && all_digits r end.
(** s split before the first "%25" (the zone of an address). *)
Fixpoint cut_zone (s : string) : option (string * string) :=
  if has_prefix "%25" s then Some ("", s) else
  match s with
  | EmptyString => None
  | String c r => match cut_zone r with Some (a, b) => Some (String c a, b) | None => None end
  end.
(** url.go parseHost. *)
Definition parse_host (a : string) : option string :=
  if has_prefix "[" a then
    match cut_last "]" a with
    | None => None
    | Some (x, port) =>
        if valid_port port then
          match cut_zone x with
          | Some (h, z) =>
              match unescape EHost h, unescape EZone z, unescape EHost (String "]" port) with
              | Some h1, Some h2, Some h3 => Some (h1 +++ h2 +++ h3)
              | _, _, _ => None
              end
          | None => unescape EHost a
          end
        else None
    end
  else
  match after_last_colon a with
  | Some p => if all_digits p then unescape EHost a else None
  | None => unescape EHost a
  end.
(** url.go validUserinfo. *)
Fixpoint valid_userinfo (s : string) : bool :=
  match s with EmptyString => true | String c r => (is_alnum c || in_list c "-._:~!$&'()*+,;=%@") && valid_userinfo r end.
(** url.go parseAuthority. *)
Definition parse_authority (a : string) : option (option (string * option string) * string) :=
  match cut_last "@" a with
  | None => match parse_host a with Some h => Some (None, h) | None => None end
  | Some (ui, b) =>
      match parse_host b with
      | None => None
      | Some h =>
          if valid_userinfo ui then
            match cut_char ":" ui with
            | None => match unescape EUser ui with Some n => Some (Some (n, None), h) | None => None end
            | Some (x, y) =>
                match unescape EUser x, unescape EUser y with
                | Some n, Some p => Some (Some (n, Some p), h)
                | _, _ => None
                end
            end
          else None
      end
  end.

(** url.go setPath. *)
Definition set_path (p : string) : option (string * string) :=
  match unescape EPath p with
  | None => None
  | Some path => Some (path, if String.eqb p (escape EPath path) then "" else p)
  end.

(** s split at the first '/', the '/' staying in the second part. *)
Fixpoint cut_slash (s : string) : string * string :=
  match s with
  | EmptyString => ("", "")
  | String c r => if Ascii.eqb c "/" then ("", s) else let (a, b) := cut_slash r in (String c a, b)
  end.

(** url.go parse on the part before '#'. *)
Definition parse_nofrag (s : string) : option url :=
  if has_ctl s then None else
  if String.eqb s "*" then
    Some {| u_scheme := ""; u_opaque := ""; u_user := None; u_host := ""; u_path := "*"; u_rawpath := "";
            u_forcequery := false; u_query := ""; u_fragment := "" |} else
  match getscheme s with
  | None => None
  | Some (sch, rest0) =>
      let sch := to_lower sch in
      let '(rest, fq, q) :=
        match cut_char "?" rest0 with
        | Some (a, "") => (a, true, "")
        | Some (a, b) => (a, false, b)
        | None => (rest0, false, "")
        end in
      if negb (has_prefix "/" rest) && negb (String.eqb sch "") then
        Some {| u_scheme := sch; u_opaque := rest; u_user := None; u_host := ""; u_path := ""; u_rawpath := "";
                u_forcequery := fq; u_query := q; u_fragment := "" |}
      else if negb (has_prefix "/" rest) && has_char ":" (fst (cut_slash rest)) then None
      else
        let auth :=
          if (negb (String.eqb sch "") || negb (has_prefix "///" rest)) && has_prefix "//" rest
          then let (a, r) := cut_slash (skipn_s 2 rest) in
               match parse_authority a with Some (us, h) => Some (us, h, r) | None => None end
          else Some (None, "", rest) in
        match auth with
        | None => None
        | Some (us, h, r) =>
            match set_path r with
            | None => None
            | Some (p, rp) =>
                Some {| u_scheme := sch; u_opaque := ""; u_user := us; u_host := h; u_path := p; u_rawpath := rp;
                        u_forcequery := fq; u_query := q; u_fragment := "" |}
            end
        end
  end.

Definition with_fragment (f : string) (u : url) : url :=
  {| u_scheme := u_scheme u; u_opaque := u_opaque u; u_user := u_user u; u_host := u_host u; u_path := u_path u;
     u_rawpath := u_rawpath u; u_forcequery := u_forcequery u; u_query := u_query u; u_fragment := f |}.

(** url.go Parse. *)
Definition url_parse (s : string) : option url :=
  match cut_char "#" s with
  | None => parse_nofrag s
  | Some (a, f) =>
      match parse_nofrag a with
      | None => None
      | Some u => match unescape EFragment f with
                  | None => None
                  | Some f' => Some (with_fragment f' u)
                  end
      end
  end.

(** url.go validEncodedPath for EscapedPath. *)
Fixpoint valid_encoded_path (s : string) : bool :=
  match s with
  | EmptyString => true
  | String c r => (in_list c "!$&'()*+,;=:@[]%" || negb (should_escape EPath c)) && valid_encoded_path r
  end.
Definition escaped_path (u : url) : string :=
  if negb (String.eqb (u_rawpath u) "") && valid_encoded_path (u_rawpath u) &&
     match unescape EPath (u_rawpath u) with Some p => String.eqb p (u_path u) | None => false end
  then u_rawpath u
  else if String.eqb (u_path u) "*" then "*" else escape EPath (u_path u).

Definition nonempty (s : string) : bool := negb (String.eqb s "").

(** url.go Userinfo.String and the "@" after it; nothing without user information. *)
Definition user_text (us : option (string * option string)) : string :=
  match us with
  | None => ""
  | Some (n, pw) => escape EUser n +++ (match pw with Some p => ":" +++ escape EUser p | None => "" end) +++ "@"
  end.
Definition has_user (us : option (string * option string)) : bool := match us with Some _ => true | None => false end.
(** url.go URL.String. *)
Definition url_string (u : url) : string :=
  let pre := if nonempty (u_scheme u) then u_scheme u +++ ":" else "" in
  let body :=
    if nonempty (u_opaque u) then u_opaque u
    else
      let auth :=
        if nonempty (u_scheme u) || nonempty (u_host u) || has_user (u_user u)
        then (if nonempty (u_host u) || nonempty (u_path u) || has_user (u_user u) then "//" else "")
             +++ user_text (u_user u) +++ escape EHost (u_host u)
        else "" in
      let path := escaped_path u in
      let sl := if nonempty path && negb (has_prefix "/" path) && nonempty (u_host u) then "/" else "" in
      let dot := if String.eqb (pre +++ auth +++ sl) "" && has_char ":" (fst (cut_slash path)) then "./" else "" in
      auth +++ sl +++ dot +++ path in
  pre +++ body
  +++ (if u_forcequery u || nonempty (u_query u) then "?" +++ u_query u else "")
  +++ (if nonempty (u_fragment u) then "#" +++ escape EFragment (u_fragment u) else "").

(** url.go Hostname: the host without ":port", and without the brackets. *)
Definition hostname (h : string) : string :=
  let h1 := match after_last_colon h with
            | Some p => if all_digits p then firstn_s (String.length h - String.length p - 1) h else h
            | None => h
            end in
  match h1 with
  | String "[" r => match cut_last "]" r with Some (x, "") => x | _ => h1 end
  | _ => h1
  end.
