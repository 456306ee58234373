(** internal/oapi/spec/schema_util.go: the constructors and the chained methods
    of Schema, on a heap, so that sharing between schemas and with the caller's
    slices and maps shows.  No proofs in this file. *)
From Coq Require Import String Ascii List Bool Arith ZArith.
From Verif Require Import GoStr Json Slices JsonText AnyJson.
Import ListNotations.
Local Open Scope string_scope.
Local Open Scope nat_scope.
Local Open Scope list_scope.

(** ** Go slices and maps *)
(** A slice is nil or (array, length); slices here start at cell 0.  An array is
    the list of its cells, its length the capacity. *)
Definition gsl := option (nat * nat).
Definition gcells {A} (h : list (list A)) (s : gsl) : list A := match s with Some (a, _) => nth a h [] | None => [] end.
Definition glen (s : gsl) : nat := match s with Some (_, n) => n | None => 0 end.
Definition gval {A} (h : list (list A)) (s : gsl) : list A := firstn (glen s) (gcells h s).
Definition galloc {A} (h : list (list A)) (l spare : list A) : list (list A) * gsl := (h ++ [l ++ spare], Some (length h, length l)).
Definition gwrite {A} (i : nat) (l cells : list A) : list A := firstn i cells ++ l ++ skipn (i + length l) cells.
(** append(s, l...): in place when the capacity suffices; [spare]: the cells the
    runtime adds when it grows. *)
Definition gappend {A} (spare : list A) (h : list (list A)) (s : gsl) (l : list A) : list (list A) * gsl :=
  if glen s + length l <=? length (gcells h s)
  then match s with
       | Some (a, n) => (update a (gwrite n l) h, Some (a, n + length l))
       | None => (h, None)
       end
  else galloc h (gval h s ++ l) spare.

(** The variadic argument: written out (a new array of exactly that size, nil
    when empty), or a slice of the caller's passed with ... *)
Inductive arg (A : Type) := Lit (l : list A) | Sl (s : gsl).
Arguments Lit {A}. Arguments Sl {A}.
Definition pass {A} (h : list (list A)) (x : arg A) : list (list A) * gsl :=
  match x with
  | Lit [] => (h, None)
  | Lit l => galloc h l []
  | Sl s => (h, s)
  end.

(** ** Memory *)
(** A *Schema: nil or the number of an object. *)
Definition sref := option nat.
(** xml.go:6-28 XML. *)
Record xml := { x_name : string; x_namespace : string; x_prefix : string; x_attribute : bool; x_wrapped : bool }.
Definition xml_zero : xml := {| x_name := ""; x_namespace := ""; x_prefix := ""; x_attribute := false; x_wrapped := false |}.

Section Build.
  Context {F : Type}.

  (** schema.go:8-121: the fields of Schema the methods assign a plain value to
      (the pointers to numbers are made by each call from its own parameter and
      never written through, so they are options). *)
  Inductive attr :=
  | ATitle | ADescription | AType | AFormat | APattern
  | AMaxProperties | AMinProperties | AMaxLength | AMinLength | AMaxItems | AMinItems
  | AMultipleOf | AMaximum | AMinimum
  | AExclusiveMaximum | AExclusiveMinimum | AUniqueItems | AReadOnly
  | ADefault | AExample.
  Inductive aval := VStr (s : string) | VInt (z : option Z) | VFlt (f : option F) | VBool (b : bool) | VAny (a : any).
  Scheme Equality for attr.

  (** The zero value of each. *)
  Definition attr_zero (a : attr) : aval :=
    match a with
    | ATitle | ADescription | AType | AFormat | APattern => VStr ""
    | AMaxProperties | AMinProperties | AMaxLength | AMinLength | AMaxItems | AMinItems => VInt None
    | AMultipleOf | AMaximum | AMinimum => VFlt None
    | AExclusiveMaximum | AExclusiveMinimum | AUniqueItems | AReadOnly => VBool false
    | ADefault | AExample => VAny None
    end.

  (** schema.go:8-121 Schema: plain fields, slices, the map, and pointers. *)
  Record sobj := {
    o_plain : attr -> aval;
    o_required : gsl; o_allof : gsl; o_oneof : gsl; o_anyof : gsl; o_enum : gsl;
    o_not : sref; o_items : sref; o_addl : sref;
    o_props : option nat; o_docs : option nat; o_xml : option nat }.
  Definition obj_zero : sobj :=
    {| o_plain := attr_zero; o_required := None; o_allof := None; o_oneof := None; o_anyof := None; o_enum := None;
       o_not := None; o_items := None; o_addl := None; o_props := None; o_docs := None; o_xml := None |}.

  Record memory := {
    m_objs : list sobj; m_strs : list (list string); m_refs : list (list sref); m_anys : list (list any);
    m_maps : list (list (string * sref)); m_docs : list (string * string); m_xml : list xml }.
  Definition mem_zero : memory := {| m_objs := []; m_strs := []; m_refs := []; m_anys := []; m_maps := []; m_docs := []; m_xml := [] |}.

  (** Assignments. *)
  Definition put (a : attr) (v : aval) (o : sobj) : sobj :=
    {| o_plain := fun b => if attr_beq a b then v else o_plain o b; o_required := o_required o; o_allof := o_allof o; o_oneof := o_oneof o;
       o_anyof := o_anyof o; o_enum := o_enum o; o_not := o_not o; o_items := o_items o; o_addl := o_addl o; o_props := o_props o; o_docs := o_docs o; o_xml := o_xml o |}.
  Definition put_required (v : gsl) (o : sobj) : sobj :=
    {| o_plain := o_plain o; o_required := v; o_allof := o_allof o; o_oneof := o_oneof o;
       o_anyof := o_anyof o; o_enum := o_enum o; o_not := o_not o; o_items := o_items o; o_addl := o_addl o; o_props := o_props o; o_docs := o_docs o; o_xml := o_xml o |}.
  Definition put_allof (v : gsl) (o : sobj) : sobj :=
    {| o_plain := o_plain o; o_required := o_required o; o_allof := v; o_oneof := o_oneof o;
       o_anyof := o_anyof o; o_enum := o_enum o; o_not := o_not o; o_items := o_items o; o_addl := o_addl o; o_props := o_props o; o_docs := o_docs o; o_xml := o_xml o |}.
  Definition put_oneof (v : gsl) (o : sobj) : sobj :=
    {| o_plain := o_plain o; o_required := o_required o; o_allof := o_allof o; o_oneof := v;
       o_anyof := o_anyof o; o_enum := o_enum o; o_not := o_not o; o_items := o_items o; o_addl := o_addl o; o_props := o_props o; o_docs := o_docs o; o_xml := o_xml o |}.
  Definition put_anyof (v : gsl) (o : sobj) : sobj :=
    {| o_plain := o_plain o; o_required := o_required o; o_allof := o_allof o; o_oneof := o_oneof o;
       o_anyof := v; o_enum := o_enum o; o_not := o_not o; o_items := o_items o; o_addl := o_addl o; o_props := o_props o; o_docs := o_docs o; o_xml := o_xml o |}.
  Definition put_enum (v : gsl) (o : sobj) : sobj :=
    {| o_plain := o_plain o; o_required := o_required o; o_allof := o_allof o; o_oneof := o_oneof o;
       o_anyof := o_anyof o; o_enum := v; o_not := o_not o; o_items := o_items o; o_addl := o_addl o; o_props := o_props o; o_docs := o_docs o; o_xml := o_xml o |}.
  Definition put_not (v : sref) (o : sobj) : sobj :=
    {| o_plain := o_plain o; o_required := o_required o; o_allof := o_allof o; o_oneof := o_oneof o;
       o_anyof := o_anyof o; o_enum := o_enum o; o_not := v; o_items := o_items o; o_addl := o_addl o; o_props := o_props o; o_docs := o_docs o; o_xml := o_xml o |}.
  Definition put_items (v : sref) (o : sobj) : sobj :=
    {| o_plain := o_plain o; o_required := o_required o; o_allof := o_allof o; o_oneof := o_oneof o;
       o_anyof := o_anyof o; o_enum := o_enum o; o_not := o_not o; o_items := v; o_addl := o_addl o; o_props := o_props o; o_docs := o_docs o; o_xml := o_xml o |}.
  Definition put_addl (v : sref) (o : sobj) : sobj :=
    {| o_plain := o_plain o; o_required := o_required o; o_allof := o_allof o; o_oneof := o_oneof o;
       o_anyof := o_anyof o; o_enum := o_enum o; o_not := o_not o; o_items := o_items o; o_addl := v; o_props := o_props o; o_docs := o_docs o; o_xml := o_xml o |}.
  Definition put_props (v : option nat) (o : sobj) : sobj :=
    {| o_plain := o_plain o; o_required := o_required o; o_allof := o_allof o; o_oneof := o_oneof o;
       o_anyof := o_anyof o; o_enum := o_enum o; o_not := o_not o; o_items := o_items o; o_addl := o_addl o; o_props := v; o_docs := o_docs o; o_xml := o_xml o |}.
  Definition put_docs (v : option nat) (o : sobj) : sobj :=
    {| o_plain := o_plain o; o_required := o_required o; o_allof := o_allof o; o_oneof := o_oneof o;
       o_anyof := o_anyof o; o_enum := o_enum o; o_not := o_not o; o_items := o_items o; o_addl := o_addl o; o_props := o_props o; o_docs := v; o_xml := o_xml o |}.
  Definition put_xml (v : option nat) (o : sobj) : sobj :=
    {| o_plain := o_plain o; o_required := o_required o; o_allof := o_allof o; o_oneof := o_oneof o;
       o_anyof := o_anyof o; o_enum := o_enum o; o_not := o_not o; o_items := o_items o; o_addl := o_addl o; o_props := o_props o; o_docs := o_docs o; o_xml := v |}.

  Definition set_objs (v : list sobj) (m : memory) : memory := {| m_objs := v; m_strs := m_strs m; m_refs := m_refs m; m_anys := m_anys m; m_maps := m_maps m; m_docs := m_docs m; m_xml := m_xml m |}.
  Definition set_strs (v : list (list string)) (m : memory) : memory := {| m_objs := m_objs m; m_strs := v; m_refs := m_refs m; m_anys := m_anys m; m_maps := m_maps m; m_docs := m_docs m; m_xml := m_xml m |}.
  Definition set_refs (v : list (list sref)) (m : memory) : memory := {| m_objs := m_objs m; m_strs := m_strs m; m_refs := v; m_anys := m_anys m; m_maps := m_maps m; m_docs := m_docs m; m_xml := m_xml m |}.
  Definition set_anys (v : list (list any)) (m : memory) : memory := {| m_objs := m_objs m; m_strs := m_strs m; m_refs := m_refs m; m_anys := v; m_maps := m_maps m; m_docs := m_docs m; m_xml := m_xml m |}.
  Definition set_maps (v : list (list (string * sref))) (m : memory) : memory := {| m_objs := m_objs m; m_strs := m_strs m; m_refs := m_refs m; m_anys := m_anys m; m_maps := v; m_docs := m_docs m; m_xml := m_xml m |}.
  Definition set_docs (v : list (string * string)) (m : memory) : memory := {| m_objs := m_objs m; m_strs := m_strs m; m_refs := m_refs m; m_anys := m_anys m; m_maps := m_maps m; m_docs := v; m_xml := m_xml m |}.
  Definition set_xml (v : list xml) (m : memory) : memory := {| m_objs := m_objs m; m_strs := m_strs m; m_refs := m_refs m; m_anys := m_anys m; m_maps := m_maps m; m_docs := m_docs m; m_xml := v |}.
  (** *p = f( *p ) *)
  Definition on (p : nat) (f : sobj -> sobj) (m : memory) : memory := set_objs (update p f (m_objs m)) m.

  (** ** Constructors *)
  (** [format] of StrFmtProperty etc. is the format given. *)
  Inductive ctor :=
  | BooleanProperty | Float64Property | Float32Property | FloatFmtProperty (format : string)
  | Int8Property | Int16Property | Int32Property | Int64Property | IntFmtProperty (format : string)
  | StringProperty | ByteProperty | BinaryProperty | PasswordProperty | DateProperty | DateTimeProperty | StrFmtProperty (format : string)
  | MapProperty (p : sref) | ArrayProperty (p : sref)
  | AllSchema (x : arg sref) | OneSchema (x : arg sref) | AnySchema (x : arg sref) | NotSchema (p : sref)
  | EmptySchema. (* &spec.Schema{} *)
  (** schema_util.go:19: NewAny("2006-...") keeps the JSON text of the string. *)
  Definition time_example : any := Some (str1 DQ +++ "2006-01-02T15:04:05+08:00" +++ str1 DQ).
  Definition typed_obj (t f : string) : sobj := put AFormat (VStr f) (put AType (VStr t) obj_zero).
  (** schema_util.go:21-152. *)
  Definition construct (k : ctor) (m : memory) : memory :=
    let new o := set_objs (m_objs m ++ [o]) m in
    let slice (f : gsl -> sobj -> sobj) x :=
      let r := pass (m_refs m) x in set_objs (m_objs m ++ [f (snd r) obj_zero]) (set_refs (fst r) m) in
    match k with
    | BooleanProperty => new (put AType (VStr "boolean") obj_zero)
    | Float64Property => new (typed_obj "number" "double")
    | Float32Property => new (typed_obj "number" "float")
    | FloatFmtProperty f => new (typed_obj "number" f)
    | Int8Property => new (typed_obj "integer" "int8")
    | Int16Property => new (typed_obj "integer" "int16")
    | Int32Property => new (typed_obj "integer" "int32")
    | Int64Property => new (typed_obj "integer" "int64")
    | IntFmtProperty f => new (typed_obj "integer" f)
    | StringProperty => new (typed_obj "string" "")
    | ByteProperty => new (typed_obj "string" "byte")
    | BinaryProperty => new (typed_obj "string" "binary")
    | PasswordProperty => new (typed_obj "string" "password")
    | DateProperty => new (put AExample (VAny time_example) (typed_obj "string" "data"))
    | DateTimeProperty => new (put AExample (VAny time_example) (typed_obj "string" "data-time"))
    | StrFmtProperty f => new (typed_obj "string" f)
    | MapProperty p => new (put_addl p (put AType (VStr "object") obj_zero))
    | ArrayProperty p => new (put_items p (put AType (VStr "array") obj_zero))
    | AllSchema x => slice put_allof x
    | OneSchema x => slice put_oneof x
    | AnySchema x => slice put_anyof x
    | NotSchema p => new (put_not p obj_zero)
    | EmptySchema => new obj_zero
    end.

  (** ** Chained methods *)
  Inductive bcall :=
  | WithTitle (s : string) | WithDescription (s : string)
  | WithProperties (mp : option nat) | WithNewProperties (l : list (string * sref)) (* the caller's map, or one made for the call *)
  | WithProperty (name : string) (p : sref)
  | WithAllOf (x : arg sref) | WithMaxProperties (z : Z) | WithMinProperties (z : Z)
  | WithType (t f : string) | WithFormat (f : string) | WithDefault (a : any)
  | WithRequired (x : arg string) | AddRequired (spare : list string) (x : arg string)
  | WithMaxLength (z : Z) | WithMinLength (z : Z) | WithPattern (s : string) | WithMultipleOf (f : F)
  | WithMaximum (f : F) (b : bool) | WithMinimum (f : F) (b : bool)
  | WithEnum (x : arg any) | WithMaxItems (z : Z) | WithMinItems (z : Z) | UniqueValues | AllowDuplicates
  | AddToAllOf (spare : list sref) (x : arg sref) | AsReadOnly | AsWritable | WithExample (a : any)
  | WithExternalDocs (d u : string)
  | WithXMLName (s : string) | WithXMLNamespace (s : string) | WithXMLPrefix (s : string)
  | AsXMLAttribute | AsXMLElement | AsWrappedXML | AsUnwrappedXML.

  (** The object a pointer leads to; the methods of a nil *Schema crash, so [p]
      is an existing object. *)
  Definition obj (m : memory) (p : nat) : sobj := nth p (m_objs m) obj_zero.

  (** schema_util.go:341-402: make the XML object when there is none, then assign to a field. *)
  Definition on_xml (p : nat) (f : xml -> xml) (m : memory) : memory :=
    match o_xml (obj m p) with
    | None => on p (put_xml (Some (length (m_xml m)))) (set_xml (m_xml m ++ [f xml_zero]) m)
    | Some i => set_xml (update i f (m_xml m)) m
    end.
  (** The written-out elements of a variadic argument, or those of the slice. *)
  Definition elems {A} (h : list (list A)) (x : arg A) : list A := match x with Lit l => l | Sl s => gval h s end.

  (** schema_util.go:155-402. *)
  Definition call (p : nat) (c : bcall) (m : memory) : memory :=
    match c with
    | WithTitle s => on p (put ATitle (VStr s)) m
    | WithDescription s => on p (put ADescription (VStr s)) m
    | WithProperties mp => on p (put_props mp) m
    | WithNewProperties l => on p (put_props (Some (length (m_maps m)))) (set_maps (m_maps m ++ [l]) m)
    | WithProperty name x =>
        match o_props (obj m p) with
        | None => on p (put_props (Some (length (m_maps m)))) (set_maps (m_maps m ++ [oset name x []]) m)
        | Some i => set_maps (update i (oset name x) (m_maps m)) m
        end
    | WithAllOf x => let r := pass (m_refs m) x in on p (put_allof (snd r)) (set_refs (fst r) m)
    | WithMaxProperties z => on p (put AMaxProperties (VInt (Some z))) m
    | WithMinProperties z => on p (put AMinProperties (VInt (Some z))) m
    | WithType t f => on p (fun o => put AFormat (VStr f) (put AType (VStr t) o)) m
    | WithFormat f => on p (put AFormat (VStr f)) m
    | WithDefault a => on p (put ADefault (VAny a)) m
    | WithRequired x => let r := pass (m_strs m) x in on p (put_required (snd r)) (set_strs (fst r) m)
    | AddRequired spare x =>
        let r := gappend spare (m_strs m) (o_required (obj m p)) (elems (m_strs m) x) in on p (put_required (snd r)) (set_strs (fst r) m)
    | WithMaxLength z => on p (put AMaxLength (VInt (Some z))) m
    | WithMinLength z => on p (put AMinLength (VInt (Some z))) m
    | WithPattern s => on p (put APattern (VStr s)) m
    | WithMultipleOf f => on p (put AMultipleOf (VFlt (Some f))) m
    | WithMaximum f b => on p (fun o => put AExclusiveMaximum (VBool b) (put AMaximum (VFlt (Some f)) o)) m
    | WithMinimum f b => on p (fun o => put AExclusiveMinimum (VBool b) (put AMinimum (VFlt (Some f)) o)) m
    | WithEnum x => let r := pass (m_anys m) x in on p (put_enum (snd r)) (set_anys (fst r) m)
    | WithMaxItems z => on p (put AMaxItems (VInt (Some z))) m
    | WithMinItems z => on p (put AMinItems (VInt (Some z))) m
    | UniqueValues => on p (put AUniqueItems (VBool true)) m
    | AllowDuplicates => on p (put AUniqueItems (VBool false)) m
    | AddToAllOf spare x =>
        let r := gappend spare (m_refs m) (o_allof (obj m p)) (elems (m_refs m) x) in on p (put_allof (snd r)) (set_refs (fst r) m)
    | AsReadOnly => on p (put AReadOnly (VBool true)) m
    | AsWritable => on p (put AReadOnly (VBool false)) m
    | WithExample a => on p (put AExample (VAny a)) m
    | WithExternalDocs d u =>
        if String.eqb d "" && String.eqb u "" then on p (put_docs None) m
        else match o_docs (obj m p) with
             | None => on p (put_docs (Some (length (m_docs m)))) (set_docs (m_docs m ++ [(d, u)]) m)
             | Some i => set_docs (update i (fun _ => (d, u)) (m_docs m)) m
             end
    | WithXMLName s => on_xml p (fun x => {| x_name := s; x_namespace := x_namespace x; x_prefix := x_prefix x; x_attribute := x_attribute x; x_wrapped := x_wrapped x |}) m
    | WithXMLNamespace s => on_xml p (fun x => {| x_name := x_name x; x_namespace := s; x_prefix := x_prefix x; x_attribute := x_attribute x; x_wrapped := x_wrapped x |}) m
    | WithXMLPrefix s => on_xml p (fun x => {| x_name := x_name x; x_namespace := x_namespace x; x_prefix := s; x_attribute := x_attribute x; x_wrapped := x_wrapped x |}) m
    | AsXMLAttribute => on_xml p (fun x => {| x_name := x_name x; x_namespace := x_namespace x; x_prefix := x_prefix x; x_attribute := true; x_wrapped := x_wrapped x |}) m
    | AsXMLElement => on_xml p (fun x => {| x_name := x_name x; x_namespace := x_namespace x; x_prefix := x_prefix x; x_attribute := false; x_wrapped := x_wrapped x |}) m
    | AsWrappedXML => on_xml p (fun x => {| x_name := x_name x; x_namespace := x_namespace x; x_prefix := x_prefix x; x_attribute := x_attribute x; x_wrapped := true |}) m
    | AsUnwrappedXML => on_xml p (fun x => {| x_name := x_name x; x_namespace := x_namespace x; x_prefix := x_prefix x; x_attribute := x_attribute x; x_wrapped := false |}) m
    end.

  (** A program: constructors, method calls, and slices and maps the caller makes. *)
  Inductive bop :=
  | New (k : ctor) | Call (p : nat) (c : bcall)
  | MakeStrs (l spare : list string) | MakeRefs (l spare : list sref) | MakeAnys (l : list any) | MakeMap (l : list (string * sref)).
  Definition bstep (m : memory) (o : bop) : memory :=
    match o with
    | New k => construct k m
    | Call p c => call p c m
    | MakeStrs l spare => set_strs (m_strs m ++ [l ++ spare]) m
    | MakeRefs l spare => set_refs (m_refs m ++ [l ++ spare]) m
    | MakeAnys l => set_anys (m_anys m ++ [l]) m
    | MakeMap l => set_maps (m_maps m ++ [l]) m
    end.
  Definition brun (m : memory) (ops : list bop) : memory := fold_left bstep ops m.
End Build.
Arguments aval : clear implicits. Arguments sobj : clear implicits. Arguments memory : clear implicits.
Arguments bcall : clear implicits. Arguments bop : clear implicits.
