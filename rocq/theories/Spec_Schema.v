(** What the schema of a Go type should be. *)
From Coq Require Import String Ascii List Bool Arith ZArith.
From Verif Require Import GoStr Json Pointer Tag Types Spec_Types.
Import ListNotations.
Local Open Scope string_scope.
Local Open Scope nat_scope.
Local Open Scope list_scope.

(** Underlying types are not declared types themselves (go/types guarantees it). *)
Definition flat_env (env : genv) : Prop := Forall (fun d => forall i, d_under d <> TNamed i) env.
(** Reaching a type through any number of steps. *)
Definition reachable (env : genv) (t t' : gty) : Prop := exists toks ts, trail env t toks ts t'.

(** The element of a pointer, slice, array or map. *)
Inductive elem_step (env : genv) : gty -> gty -> Prop :=
| es_ptr t e : under env t = TPtr e -> elem_step env t e
| es_slice t e : under env t = TSlice e -> elem_step env t e
| es_array t n e : under env t = TArray n e -> elem_step env t e
| es_map t k e : under env t = TMap k e -> elem_step env t e.
Inductive elem_reach (env : genv) : gty -> gty -> Prop :=
| er_refl t : elem_reach env t t
| er_step t e t' : elem_step env t e -> elem_reach env e t' -> elem_reach env t t'.
(** The kinds with a schema. *)
Definition supported_kinds : list basic :=
  [KBool; KInt; KInt8; KInt16; KInt32; KInt64; KUint; KUint8; KUint16; KUint32; KUint64; KFloat32; KFloat64; KString].
(** Everything on the way down to the innermost element has a schema. *)
Definition elem_ok (u : gty) : Prop :=
  match u with
  | TBasic k => In k supported_kinds
  | TStruct _ | TPtr _ | TSlice _ | TArray _ _ | TMap _ _ => True
  | _ => False
  end.
Definition elems_ok (env : genv) (t : gty) : Prop := forall t', elem_reach env t t' -> elem_ok (under env t').

Section Fields.
  Context {F : Type} (pf : string -> option F) (env : genv).

  (** The struct whose fields a field contributes in place. *)
  Definition inlined (i : finfo) (t : gty) (tg : tag F) (fs : list (finfo * gty)) : Prop :=
    (under env t = TStruct fs \/ exists e, under env t = TPtr e /\ under env e = TStruct fs) /\
    (t_inline tg = Some true \/ (t_inline tg = None /\ f_emb i = true)).
  Definition kept (i : finfo) (tg : tag F) : Prop := tag_parse pf (f_tag i) = Ok tg /\ t_ignore tg = false /\ exported (f_name i) = true.
  (** The visible fields of a struct: exported, not ignored, own ones or those of inlined structs. *)
  Inductive visible : list (finfo * gty) -> sfield F -> Prop :=
  | vis_own fs i t tg : In (i, t) fs -> kept i tg -> (forall fs', ~ inlined i t tg fs') -> visible fs {| sf_info := i; sf_type := t; sf_tag := tg |}
  | vis_inline fs i t tg fs' x : In (i, t) fs -> kept i tg -> inlined i t tg fs' -> visible fs' x -> visible fs x.
  (** A struct whose tags are looked at: the struct itself and those inlined into it. *)
  Inductive looked_at : list (finfo * gty) -> list (finfo * gty) -> Prop :=
  | la_self fs : looked_at fs fs
  | la_inline fs i t tg fs1 fs' : In (i, t) fs -> kept i tg -> inlined i t tg fs1 -> looked_at fs1 fs' -> looked_at fs fs'.
  (** All the tags looked at are well formed. *)
  Definition tags_fine (fs : list (finfo * gty)) : Prop :=
    forall fs' i t, looked_at fs fs' -> In (i, t) fs' -> exists tg, tag_parse pf (f_tag i) = Ok tg.
  (** The visible fields in order: those of an inlined struct take the place of
      the field; a struct inlined into itself contributes nothing the second time.
      [p] are the structs one is in. *)
  Inductive in_place : list gty -> list (finfo * gty) -> list (sfield F) -> Prop :=
  | ip_nil p : in_place p [] []
  | ip_skip p i t fs l : (forall tg, ~ kept i tg) -> in_place p fs l -> in_place p ((i, t) :: fs) l
  | ip_own p i t tg fs l : kept i tg -> (forall fs', ~ inlined i t tg fs') -> in_place p fs l ->
      in_place p ((i, t) :: fs) ({| sf_info := i; sf_type := t; sf_tag := tg |} :: l)
  | ip_again p i t tg fs' fs l : kept i tg -> inlined i t tg fs' -> In (TStruct fs') p -> in_place p fs l -> in_place p ((i, t) :: fs) l
  | ip_inline p i t tg fs' l' fs l : kept i tg -> inlined i t tg fs' -> ~ In (TStruct fs') p ->
      in_place (p ++ [TStruct fs']) fs' l' -> in_place p fs l -> in_place p ((i, t) :: fs) (l' ++ l).
  (** The property name of a field. *)
  Definition prop_name (x : sfield F) : string := match t_name (sf_tag x) with EmptyString => f_name (sf_info x) | n => n end.
End Fields.

(** The types a tag can name. *)
Definition known_types : list string :=
  ["string"; "float32"; "float"; "float64"; "double"; "uint"; "uint8"; "uint16"; "uint32"; "uint64"; "int"; "int8"; "int16"; "int32"; "integer";
   "int64"; "bool"; "base64"; "uuid"; "password"; "number"; "object"].
(** A field has a schema if its tag names a known type or its own type has one. *)
Definition field_ok {F} (env : genv) (x : sfield F) : Prop :=
  (t_type (sf_tag x) <> "" /\ In (trim is_sp (t_type (sf_tag x))) known_types) \/ (t_type (sf_tag x) = "" /\ elems_ok env (sf_type x)).

(** A reference occurring anywhere in a schema. *)
Inductive has_ref {F} (p : ptr) : schema F -> Prop :=
| hr_here s : s_ref s = Some p -> has_ref p s
| hr_prop s k x : In (k, x) (s_props s) -> has_ref p x -> has_ref p s
| hr_items s x : s_items s = Some x -> has_ref p x -> has_ref p s
| hr_addl s x : s_addl s = Some x -> has_ref p x -> has_ref p s
| hr_oneof s x : In x (s_oneof s) -> has_ref p x -> has_ref p s.

(** sort.Sort puts a point with a shortest fragment first. *)
Definition picks_shortest (pk : nat -> list ptr -> ptr) : Prop :=
  forall n l, l <> [] -> In (pk n l) l /\ forall q, In q l -> length (p_frag (pk n l)) <= length (p_frag q).

(** The documented type and format of the basic kinds, and whether it is unsigned. *)
Definition kind_table : list (basic * (string * string * bool)) :=
  [(KBool, ("boolean", "", false)); (KString, ("string", "", false));
   (KInt, ("integer", "int32", false)); (KInt8, ("integer", "int32", false)); (KInt16, ("integer", "int32", false)); (KInt32, ("integer", "int32", false)); (KInt64, ("integer", "int64", false));
   (KUint, ("integer", "int32", true)); (KUint8, ("integer", "int32", true)); (KUint16, ("integer", "int32", true)); (KUint32, ("integer", "int32", true)); (KUint64, ("integer", "int64", true));
   (KFloat32, ("number", "float", false)); (KFloat64, ("number", "double", false))].
Definition or_else {A} (a b : option A) : option A := match a with Some _ => a | None => b end.
Definition is_set {A} (a : option A) : bool := match a with Some _ => true | None => false end.
Definition number_type (ty : string) : bool := String.eqb ty "integer" || String.eqb ty "number".
Definition string_type (ty : string) : bool := String.eqb ty "string".
Definition only {A} (b : bool) (a : option A) : option A := if b then a else None.
(** The schema of a basic kind: bounds on numbers only, lengths and pattern on
    strings only, an exclusive bound in place of an inclusive one. *)
Definition kind_schema {F} (zero : F) (ty fmt : string) (unsigned : bool) (tg : tag F) : schema F :=
  {| s_ref := None; s_type := ty; s_format := fmt; s_nullable := false; s_deprecated := false; s_readonly := false; s_writeonly := false;
     s_min := only (number_type ty) (or_else (t_emin tg) (or_else (t_min tg) (only unsigned (Some zero))));
     s_max := only (number_type ty) (or_else (t_emax tg) (t_max tg));
     s_emin := number_type ty && is_set (t_emin tg); s_emax := number_type ty && is_set (t_emax tg); s_mulof := only (number_type ty) (t_mulof tg);
     s_minlen := only (string_type ty) (t_minlen tg); s_maxlen := only (string_type ty) (t_maxlen tg); s_pattern := if string_type ty then t_pattern tg else "";
     s_minitems := None; s_maxitems := None; s_unique := false; s_minprops := None; s_maxprops := None; s_required := []; s_props := []; s_items := None; s_addl := None; s_oneof := [] |}.
(** The kind and format that a type named in a tag stands for. *)
Definition name_table : list (string * (string * string * bool)) :=
  [("string", ("string", "", false)); ("base64", ("string", "binary", false)); ("uuid", ("string", "uuid", false)); ("password", ("string", "password", false)); ("bool", ("boolean", "", false));
   ("int", ("integer", "int32", false)); ("int8", ("integer", "int32", false)); ("int16", ("integer", "int32", false)); ("int32", ("integer", "int32", false)); ("integer", ("integer", "int32", false)); ("int64", ("integer", "int64", false));
   ("uint", ("integer", "int32", true)); ("uint8", ("integer", "int32", true)); ("uint16", ("integer", "int32", true)); ("uint32", ("integer", "int32", true)); ("uint64", ("integer", "int64", true));
   ("float32", ("number", "float", false)); ("float", ("number", "float", false)); ("float64", ("number", "double", false)); ("double", ("number", "double", false))].
(** The bare schemas number and object, which ignore the tag. *)
Definition bare_schema {F} (ty : string) : schema F :=
  {| s_ref := None; s_type := ty; s_format := ""; s_nullable := false; s_deprecated := false; s_readonly := false; s_writeonly := false;
     s_min := None; s_max := None; s_emin := false; s_emax := false; s_mulof := None; s_minlen := None; s_maxlen := None; s_pattern := "";
     s_minitems := None; s_maxitems := None; s_unique := false; s_minprops := None; s_maxprops := None; s_required := []; s_props := []; s_items := None; s_addl := None; s_oneof := [] |}.

(** A property: the schema of the field's type with the tag's attributes; a reference is left alone. *)
Definition overlaid {F} (tg : tag F) (a p : schema F) : Prop :=
  (s_ref a <> None /\ p = a) \/
  (s_ref a = None /\
   p = {| s_ref := None; s_type := s_type a; s_format := t_format tg; s_nullable := match t_nullable tg with Some b => b | None => s_nullable a end;
          s_deprecated := t_deprecated tg; s_readonly := t_readonly tg; s_writeonly := t_writeonly tg;
          s_min := s_min a; s_max := s_max a; s_emin := s_emin a; s_emax := s_emax a; s_mulof := s_mulof a; s_minlen := s_minlen a; s_maxlen := s_maxlen a; s_pattern := s_pattern a;
          s_minitems := s_minitems a; s_maxitems := s_maxitems a; s_unique := s_unique a; s_minprops := s_minprops a; s_maxprops := s_maxprops a; s_required := s_required a;
          s_props := s_props a; s_items := s_items a; s_addl := s_addl a; s_oneof := s_oneof a |}).
(** Containers. *)
Definition container {F} (ty : string) (nullable : bool) (items addl : option (schema F)) (mini maxi minp maxp : option Z) (uniq : bool) : schema F :=
  {| s_ref := None; s_type := ty; s_format := ""; s_nullable := nullable; s_deprecated := false; s_readonly := false; s_writeonly := false;
     s_min := None; s_max := None; s_emin := false; s_emax := false; s_mulof := None; s_minlen := None; s_maxlen := None; s_pattern := "";
     s_minitems := mini; s_maxitems := maxi; s_unique := uniq; s_minprops := minp; s_maxprops := maxp; s_required := []; s_props := []; s_items := items; s_addl := addl; s_oneof := [] |}.
Definition tagged {A} (tag_value : option A) (default : A) : A := match tag_value with Some v => v | None => default end.
