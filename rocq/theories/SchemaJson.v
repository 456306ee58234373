(** internal/oapi/spec/schema.go, refable.go and pointer.go: the JSON form of a
    schema.  No proofs in this file. *)
From Coq Require Import String Ascii List Bool ZArith.
From Verif Require Import GoStr Json Url Pointer Tag Types JsonText.
Import ListNotations.
Local Open Scope string_scope.
Local Open Scope list_scope.

(** pointer.go:86-89 Pointer.MarshalJSON writes the text with %q; encoding/json
    then reads that (compact), failing where %q is not JSON: an escape JSON does
    not have. *)
Definition marshal_ptr (p : ptr) : res json :=
  match read_str (gquote_body (ptr_string p) +++ str1 DQ) with
  | Some (s, EmptyString) => Ok (JStr s)
  | _ => Err
  end.

(** Members with omitempty: false, "", nil and empty slices and maps are left out. *)
Definition m_bool (k : string) (b : bool) : list (string * json) := if b then [(k, JBool true)] else [].
Definition m_str (k s : string) : list (string * json) := if String.eqb s "" then [] else [(k, JStr s)].
Definition m_int (k : string) (o : option Z) : list (string * json) := match o with Some z => [(k, JNum (NInt z))] | None => [] end.

Section Schema.
  (** [fnum]: the number a float64 is written as; NBad when it cannot be. *)
  Context {F : Type} (fnum : F -> num).
  Definition m_flt (k : string) (o : option F) : list (string * json) := match o with Some f => [(k, JNum (fnum f))] | None => [] end.

  (** schema.go:8-108: the fields by their JSON names, here in key order (what is
      decoded from the text is a map).  Fields the scanner never sets (title,
      description, enum, allOf, ...) are empty and so left out. *)
  Fixpoint schema_json (s : schema F) : res json :=
    do r <- match s_ref s with Some p => do j <- marshal_ptr p ; Ok [("$ref", j)] | None => Ok [] end ;
    do addl <- match s_addl s with Some x => do j <- schema_json x ; Ok [("additionalProperties", j)] | None => Ok [] end ;
    do items <- match s_items s with Some x => do j <- schema_json x ; Ok [("items", j)] | None => Ok [] end ;
    do oneof <- (fix go (l : list (schema F)) : res (list json) :=
                   match l with [] => Ok [] | x :: l' => do j <- schema_json x ; do js <- go l' ; Ok (j :: js) end) (s_oneof s) ;
    do props <- (fix go (l : list (string * schema F)) : res (list (string * json)) :=
                   match l with [] => Ok [] | (k, x) :: l' => do j <- schema_json x ; do js <- go l' ; Ok ((k, j) :: js) end) (s_props s) ;
    Ok (JObj (r ++ addl ++ m_bool "deprecated" (s_deprecated s) ++ m_bool "exclusiveMaximum" (s_emax s) ++ m_bool "exclusiveMinimum" (s_emin s) ++
              m_str "format" (s_format s) ++ items ++ m_int "maxItems" (s_maxitems s) ++ m_int "maxLength" (s_maxlen s) ++ m_int "maxProperties" (s_maxprops s) ++
              m_flt "maximum" (s_max s) ++ m_int "minItems" (s_minitems s) ++ m_int "minLength" (s_minlen s) ++ m_int "minProperties" (s_minprops s) ++
              m_flt "minimum" (s_min s) ++ m_flt "multipleOf" (s_mulof s) ++ m_bool "nullable" (s_nullable s) ++
              (match oneof with [] => [] | l => [("oneOf", JArr l)] end) ++ m_str "pattern" (s_pattern s) ++
              (match props with [] => [] | l => [("properties", JObj l)] end) ++ m_bool "readOnly" (s_readonly s) ++
              (match s_required s with [] => [] | l => [("required", JArr (map JStr l))] end) ++ m_str "type" (s_type s) ++
              m_bool "uniqueItems" (s_unique s) ++ m_bool "writeOnly" (s_writeonly s))).
End Schema.
