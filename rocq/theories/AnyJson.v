(** internal/oapi/spec: any.go, any_or_expressions.go, callback.go; pointer.go
    UnmarshalJSON; the parts of encoding/json and strconv they rest on.
    No proofs in this file. *)
From Coq Require Import String Ascii List Bool Arith ZArith.
From Verif Require Import GoStr Json Url Pointer JsonText.
Import ListNotations.
Local Open Scope string_scope.
Local Open Scope nat_scope.
Local Open Scope list_scope.

(** ** encoding/json *)
(** checkValid: the syntax only, whatever the numbers. *)
Definition valid_json (s : string) : bool :=
  match read_json (fun _ => Some (NInt 0%Z)) s with Some _ => true | None => false end.

(** compact(escape = true): one pass over a valid text; white space outside
    strings goes, <, >, & and U+2028, U+2029 are escaped.  [str]: inside a string
    literal; [esc]: after a backslash in it. *)
Fixpoint squeeze (str esc : bool) (s : string) : string :=
  match s with
  | EmptyString => EmptyString
  | String a r =>
      if str then
        let plain := html1 a +++ squeeze (esc || negb (Ascii.eqb a DQ)) (negb esc && Ascii.eqb a BS) r in
        match r with
        | String b (String c r') =>
            match line_sep a b c with Some e => e +++ squeeze true false r' | None => plain end
        | _ => plain
        end
      else if is_ws a then squeeze false false r
      else String a (squeeze (Ascii.eqb a DQ) false r)
  end.
(** json.Marshal on the output of a MarshalJSON method. *)
Definition compacted (s : string) : res string := if valid_json s then Ok (squeeze false false s) else Err.

(** The bytes an UnmarshalJSON method is given: the value without the white
    space around it. *)
Definition value_text (s : string) : string := trim_right is_ws (skip_ws s).

(** ** Any (any.go) *)
(** [None] is the nil slice. *)
Definition any := option string.
(** any.go:20-25 Any.MarshalJSON, then json.Marshal. *)
Definition marshal_any (a : any) : res string :=
  match a with None => compacted "null" | Some s => compacted s end.
(** any.go:28-34 Any.UnmarshalJSON under json.Unmarshal. *)
Definition unmarshal_any (s : string) : res any :=
  if valid_json s then Ok (Some (value_text s)) else Err.

(** ** AnyOrExpressions (any_or_expressions.go) *)
Record union := { u_expr : string; u_any : any }.
Definition union_zero : union := {| u_expr := ""; u_any := None |}.
(** any_or_expressions.go:15-20 MarshalJSON, then json.Marshal of that. *)
Definition marshal_union (m : union) : res string :=
  do t <- if negb (String.eqb (u_expr m) "") then Ok (jquote (u_expr m)) else marshal_any (u_any m) ;
  compacted t.
(** any_or_expressions.go:23-34 UnmarshalJSON under json.Unmarshal, into [m]. *)
Definition unmarshal_union (m : union) (s : string) : res union :=
  if negb (valid_json s) then Err else
  match value_text s with
  | EmptyString => Ok m
  | String c r =>
      if Ascii.eqb c DQ
      then match read_str r with
           | Some (x, EmptyString) => Ok {| u_expr := x; u_any := u_any m |}
           | _ => Err
           end
      else do a <- unmarshal_any (String c r) ; Ok {| u_expr := u_expr m; u_any := a |}
  end.

(** ** Pointers (pointer.go) *)
(** strconv.Unquote of a double-quoted text, after the opening quote; None is
    ErrSyntax.  The escapes \x, \U and octal are left out: JSON text has none. *)
Definition gunesc1 (c : ascii) : option ascii :=
  if Ascii.eqb c "a" then Some (chr 7) else if Ascii.eqb c "b" then Some (chr 8)
  else if Ascii.eqb c "f" then Some (chr 12) else if Ascii.eqb c "n" then Some (chr 10)
  else if Ascii.eqb c "r" then Some (chr 13) else if Ascii.eqb c "t" then Some (chr 9)
  else if Ascii.eqb c "v" then Some (chr 11) else if Ascii.eqb c BS then Some BS
  else if Ascii.eqb c DQ then Some DQ else None.
Fixpoint unquote_body (s : string) : option string :=
  match s with
  | EmptyString => None
  | String c r =>
      if Ascii.eqb c DQ then (if String.eqb r "" then Some EmptyString else None)
      else if Ascii.eqb c (chr 10) then None
      else if Ascii.eqb c BS then
        match r with
        | String d r1 =>
            if Ascii.eqb d "u" then
              match r1 with
              | String h1 (String h2 (String h3 (String h4 r2))) =>
                  match hex4 h1 h2 h3 h4 with
                  | Some n => match utf8 n with Some u => option_map (append u) (unquote_body r2) | None => None end
                  | None => None
                  end
              | _ => None
              end
            else match gunesc1 d with Some x => option_map (String x) (unquote_body r1) | None => None end
        | EmptyString => None
        end
      else option_map (String c) (unquote_body r)
  end.
Definition unquote (s : string) : option string :=
  match s with
  | String c r => if Ascii.eqb c DQ then unquote_body r else None
  | EmptyString => None
  end.
(** pointer.go:70-84 Pointer.UnmarshalJSON on the bytes of a value. *)
Definition ptr_unmarshal (raw : string) : res ptr :=
  ptr_parse (match unquote raw with Some t => t | None => raw end).
(** pointer.go:86-89 Pointer.MarshalJSON, then json.Marshal. *)
Definition ptr_marshal (p : ptr) : res string := compacted (gquote (ptr_string p)).

(** ** Callback (callback.go) *)
(** The members of an object with the bytes of their values, in text order.
    As [read_members], but the value is kept as text. *)
Fixpoint raw_members (n : nat) (s : string) : option (list (string * string) * string) :=
  match n with
  | O => None
  | S n' =>
      match skip_ws s with
      | String q s1 =>
          if negb (Ascii.eqb q DQ) then None else
          match read_str s1 with
          | Some (k, s2) =>
              match skip_ws s2 with
              | String c s3 =>
                  if negb (Ascii.eqb c ":") then None else
                  match read_value (fun _ => Some (NInt 0%Z)) (S (String.length s3)) s3 with
                  | Some (_, r) =>
                      let raw := value_text (firstn_s (String.length s3 - String.length r) s3) in
                      match skip_ws r with
                      | String c r' =>
                          if Ascii.eqb c "," then
                            match raw_members n' r' with Some (l, r'') => Some ((k, raw) :: l, r'') | None => None end
                          else if Ascii.eqb c "}" then Some ([(k, raw)], r') else None
                      | EmptyString => None
                      end
                  | None => None
                  end
              | EmptyString => None
              end
          | None => None
          end
      | EmptyString => None
      end
  end.
(** The members of the object [s] is the text of. *)
Definition raw_object (s : string) : option (list (string * string)) :=
  match skip_ws s with
  | String c r =>
      if negb (Ascii.eqb c "{") then None else
      match skip_ws r with
      | String d _ => if Ascii.eqb d "}" then Some [] else option_map fst (raw_members (String.length r) r)
      | EmptyString => None
      end
  | EmptyString => None
  end.

Section Callback.
  (** Path items and their JSON: [enc] is json.Marshal of a *PathItem that is
      not nil, [dec] json.Unmarshal into a new one. *)
  Context {P : Type} (enc : P -> res string) (dec : string -> res P).
  (** callback.go:9-12; nil map and nil path items are [None]. *)
  Record callback := { cb_ref : option ptr; cb_map : option (list (string * option P)) }.
  Definition cb_zero : callback := {| cb_ref := None; cb_map := None |}.

  Fixpoint marshal_items_of (l : list (string * option P)) : res (list string) :=
    match l with
    | [] => Ok []
    | (k, x) :: r => do t <- match x with None => Ok "null" | Some p => enc p end ; do ts <- marshal_items_of r ; Ok ((jquote k +++ ":" +++ t) :: ts)
    end.
  (** callback.go:15-20 MarshalJSON, then json.Marshal of that.  refable.go:14
      the one member of Refable. *)
  Definition marshal_callback (c : callback) : res string :=
    do t <- match cb_ref c with
            | Some p => do t <- ptr_marshal p ; Ok ("{""$ref"":" +++ t +++ "}")
            | None => match cb_map c with
                      | None => Ok "null"
                      | Some l => do ts <- marshal_items_of l ; Ok (bracket "{" ts "}")
                      end
            end ;
    compacted t.

  (** json.Unmarshal into a Refable: the member "$ref", in any case; the last
      one counts, null resets it. *)
  Fixpoint decode_ref (l : list (string * string)) (was : option ptr) : res (option ptr) :=
    match l with
    | [] => Ok was
    | (k, raw) :: r =>
        if equal_fold k "$ref" then
          if String.eqb raw "null" then decode_ref r None
          else do p <- ptr_unmarshal raw ; decode_ref r (Some p)
        else decode_ref r was
    end.
  (** json.Unmarshal into the map (already holding [m]). *)
  Fixpoint decode_items (l : list (string * string)) (m : list (string * option P)) : res (list (string * option P)) :=
    match l with
    | [] => Ok m
    | (k, raw) :: r =>
        if String.eqb raw "null" then decode_items r (oset k None m)
        else do p <- dec raw ; decode_items r (oset k (Some p) m)
    end.
  (** callback.go:23-37 UnmarshalJSON under json.Unmarshal, into a new Callback. *)
  Definition unmarshal_callback (s : string) : res callback :=
    if negb (valid_json s) then Err else
    if String.eqb (value_text s) "null" then Ok cb_zero else
    match raw_object (value_text s) with
    | None => Err
    | Some l =>
        do r <- decode_ref l None ;
        match r with
        | Some p => Ok {| cb_ref := Some p; cb_map := None |}
        | None => do m <- decode_items l [] ; Ok {| cb_ref := None; cb_map := Some m |}
        end
    end.
End Callback.
Arguments cb_ref {P}. Arguments cb_map {P}. Arguments Build_callback {P}.
