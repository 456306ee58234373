(** What a schema shows, and what each builder call should do to it. *)
From Coq Require Import String List Bool Arith ZArith.
From Verif Require Import GoStr Json Slices JsonText AnyJson Builders.
Import ListNotations.
Local Open Scope string_scope.
Local Open Scope nat_scope.
Local Open Scope list_scope.

Section Spec.
  Context {F : Type}.

  (** What can be seen of one schema: its attributes, lists, property map,
      documentation and XML description.  Schemas it points to are shown as pointers. *)
  Record obs := {
    b_plain : attr -> aval F;
    b_required : list string; b_allof : list sref; b_oneof : list sref; b_anyof : list sref; b_enum : list any;
    b_not : sref; b_items : sref; b_addl : sref;
    b_props : option (list (string * sref)); b_docs : option (string * string); b_xml : option xml }.
  Definition view (m : memory F) (p : nat) : obs :=
    let o := obj m p in
    {| b_plain := o_plain o;
       b_required := gval (m_strs m) (o_required o); b_allof := gval (m_refs m) (o_allof o);
       b_oneof := gval (m_refs m) (o_oneof o); b_anyof := gval (m_refs m) (o_anyof o); b_enum := gval (m_anys m) (o_enum o);
       b_not := o_not o; b_items := o_items o; b_addl := o_addl o;
       b_props := option_map (fun i => nth i (m_maps m) []) (o_props o);
       b_docs := option_map (fun i => nth i (m_docs m) ("", "")) (o_docs o);
       b_xml := option_map (fun i => nth i (m_xml m) xml_zero) (o_xml o) |}.
  (** The same sight. *)
  Definition same (v w : obs) : Prop :=
    (forall a, b_plain v a = b_plain w a) /\
    b_required v = b_required w /\ b_allof v = b_allof w /\ b_oneof v = b_oneof w /\ b_anyof v = b_anyof w /\ b_enum v = b_enum w /\
    b_not v = b_not w /\ b_items v = b_items w /\ b_addl v = b_addl w /\
    b_props v = b_props w /\ b_docs v = b_docs w /\ b_xml v = b_xml w.

  (** The attributes a call assigns, with the values. *)
  Definition assigns (c : bcall F) : list (attr * aval F) :=
    match c with
    | WithTitle s => [(ATitle, VStr s)]
    | WithDescription s => [(ADescription, VStr s)]
    | WithType t f => [(AType, VStr t); (AFormat, VStr f)]
    | WithFormat f => [(AFormat, VStr f)]
    | WithPattern s => [(APattern, VStr s)]
    | WithDefault a => [(ADefault, VAny a)]
    | WithExample a => [(AExample, VAny a)]
    | WithMaxProperties z => [(AMaxProperties, VInt (Some z))]
    | WithMinProperties z => [(AMinProperties, VInt (Some z))]
    | WithMaxLength z => [(AMaxLength, VInt (Some z))]
    | WithMinLength z => [(AMinLength, VInt (Some z))]
    | WithMaxItems z => [(AMaxItems, VInt (Some z))]
    | WithMinItems z => [(AMinItems, VInt (Some z))]
    | WithMultipleOf f => [(AMultipleOf, VFlt (Some f))]
    | WithMaximum f b => [(AMaximum, VFlt (Some f)); (AExclusiveMaximum, VBool b)]
    | WithMinimum f b => [(AMinimum, VFlt (Some f)); (AExclusiveMinimum, VBool b)]
    | UniqueValues => [(AUniqueItems, VBool true)]
    | AllowDuplicates => [(AUniqueItems, VBool false)]
    | AsReadOnly => [(AReadOnly, VBool true)]
    | AsWritable => [(AReadOnly, VBool false)]
    | _ => []
    end.
  Fixpoint assigned (l : list (attr * aval F)) (a : attr) (old : aval F) : aval F :=
    match l with [] => old | (b, v) :: l' => if attr_eq_dec b a then v else assigned l' a old end.

  (** The elements written out in a call. *)
  Definition lits {A} (x : arg A) : list A := match x with Lit l => l | Sl _ => [] end.
  Definition xml_or (o : option xml) : xml := match o with Some x => x | None => {| x_name := ""; x_namespace := ""; x_prefix := ""; x_attribute := false; x_wrapped := false |} end.

  (** What a call with its lists written out should do. *)
  Definition after (c : bcall F) (v : obs) : obs :=
    let x := xml_or (b_xml v) in
    {| b_plain := fun a => assigned (assigns c) a (b_plain v a);
       b_required := match c with WithRequired l => lits l | AddRequired _ l => b_required v ++ lits l | _ => b_required v end;
       b_allof := match c with WithAllOf l => lits l | AddToAllOf _ l => b_allof v ++ lits l | _ => b_allof v end;
       b_oneof := b_oneof v; b_anyof := b_anyof v;
       b_enum := match c with WithEnum l => lits l | _ => b_enum v end;
       b_not := b_not v; b_items := b_items v; b_addl := b_addl v;
       b_props := match c with
                  | WithNewProperties l => Some l
                  | WithProperties _ => None (* with nil; other maps of the caller's are spelled out first *)
                  | WithProperty k p => Some (oset k p (match b_props v with Some l => l | None => [] end))
                  | _ => b_props v
                  end;
       b_docs := match c with WithExternalDocs "" "" => None | WithExternalDocs d u => Some (d, u) | _ => b_docs v end;
       b_xml := match c with
                | WithXMLName s => Some {| x_name := s; x_namespace := x_namespace x; x_prefix := x_prefix x; x_attribute := x_attribute x; x_wrapped := x_wrapped x |}
                | WithXMLNamespace s => Some {| x_name := x_name x; x_namespace := s; x_prefix := x_prefix x; x_attribute := x_attribute x; x_wrapped := x_wrapped x |}
                | WithXMLPrefix s => Some {| x_name := x_name x; x_namespace := x_namespace x; x_prefix := s; x_attribute := x_attribute x; x_wrapped := x_wrapped x |}
                | AsXMLAttribute => Some {| x_name := x_name x; x_namespace := x_namespace x; x_prefix := x_prefix x; x_attribute := true; x_wrapped := x_wrapped x |}
                | AsXMLElement => Some {| x_name := x_name x; x_namespace := x_namespace x; x_prefix := x_prefix x; x_attribute := false; x_wrapped := x_wrapped x |}
                | AsWrappedXML => Some {| x_name := x_name x; x_namespace := x_namespace x; x_prefix := x_prefix x; x_attribute := x_attribute x; x_wrapped := true |}
                | AsUnwrappedXML => Some {| x_name := x_name x; x_namespace := x_namespace x; x_prefix := x_prefix x; x_attribute := x_attribute x; x_wrapped := false |}
                | _ => b_xml v
                end |}.

  (** What the constructors should make. *)
  Definition empty_obs : obs :=
    {| b_plain := attr_zero; b_required := []; b_allof := []; b_oneof := []; b_anyof := []; b_enum := [];
       b_not := None; b_items := None; b_addl := None; b_props := None; b_docs := None; b_xml := None |}.
  Definition typed_obs (t f : string) : obs := after (WithType t f) empty_obs.
  Definition dated (v : obs) : obs := after (WithExample time_example) v.
  Definition with_lists (v : obs) (al on an : list sref) (n i ad : sref) : obs :=
    {| b_plain := b_plain v; b_required := []; b_allof := al; b_oneof := on; b_anyof := an; b_enum := [];
       b_not := n; b_items := i; b_addl := ad; b_props := None; b_docs := None; b_xml := None |}.
  Definition made (k : ctor) : obs :=
    match k with
    | BooleanProperty => typed_obs "boolean" ""
    | Float64Property => typed_obs "number" "double"
    | Float32Property => typed_obs "number" "float"
    | FloatFmtProperty f => typed_obs "number" f
    | Int8Property => typed_obs "integer" "int8"
    | Int16Property => typed_obs "integer" "int16"
    | Int32Property => typed_obs "integer" "int32"
    | Int64Property => typed_obs "integer" "int64"
    | IntFmtProperty f => typed_obs "integer" f
    | StringProperty => typed_obs "string" ""
    | ByteProperty => typed_obs "string" "byte"
    | BinaryProperty => typed_obs "string" "binary"
    | PasswordProperty => typed_obs "string" "password"
    | DateProperty => dated (typed_obs "string" "data")
    | DateTimeProperty => dated (typed_obs "string" "data-time")
    | StrFmtProperty f => typed_obs "string" f
    | MapProperty p => with_lists (typed_obs "object" "") [] [] [] None None p
    | ArrayProperty p => with_lists (typed_obs "array" "") [] [] [] None p None
    | AllSchema x => with_lists empty_obs (lits x) [] [] None None None
    | OneSchema x => with_lists empty_obs [] (lits x) [] None None None
    | AnySchema x => with_lists empty_obs [] [] (lits x) None None None
    | NotSchema p => with_lists empty_obs [] [] [] p None None
    | EmptySchema => empty_obs
    end.

  (** A program on values: a call changes its receiver and nothing else. *)
  Definition vstep (vs : list obs) (o : bop F) : list obs :=
    match o with
    | New k => vs ++ [made k]
    | Call p c => firstn p vs ++ match nth_error vs p with Some v => [after c v] | None => [] end ++ skipn (S p) vs
    | _ => vs
    end.
  Definition vrun (vs : list obs) (ops : list (bop F)) : list obs := fold_left vstep ops vs.

  (** Lists and maps are written out in the call, and receivers exist. *)
  Definition lit {A} (x : arg A) : Prop := match x with Lit _ => True | Sl _ => False end.
  Definition lit_ctor (k : ctor) : Prop := match k with AllSchema x | OneSchema x | AnySchema x => lit x | _ => True end.
  Definition lit_call (c : bcall F) : Prop :=
    match c with
    | WithProperties mp => mp = None
    | WithAllOf x | AddToAllOf _ x => lit x
    | WithRequired x | AddRequired _ x => lit x
    | WithEnum x => lit x
    | _ => True
    end.
  Fixpoint written (n : nat) (ops : list (bop F)) : Prop :=
    match ops with
    | [] => True
    | New k :: r => lit_ctor k /\ written (S n) r
    | Call p c :: r => p < n /\ lit_call c /\ written n r
    | _ :: r => written n r
    end.

  (** A call with the caller's slices and map replaced by what they hold. *)
  Definition spell {A} (h : list (list A)) (x : arg A) : arg A := match x with Lit l => Lit l | Sl s => Lit (gval h s) end.
  Definition spelled (m : memory F) (c : bcall F) : bcall F :=
    match c with
    | WithProperties (Some i) => WithNewProperties (nth i (m_maps m) [])
    | WithAllOf x => WithAllOf (spell (m_refs m) x)
    | AddToAllOf sp x => AddToAllOf sp (spell (m_refs m) x)
    | WithRequired x => WithRequired (spell (m_strs m) x)
    | AddRequired sp x => AddRequired sp (spell (m_strs m) x)
    | WithEnum x => WithEnum (spell (m_anys m) x)
    | c => c
    end.

  (** No dangling slices, maps or pointers. *)
  Definition held {A} (h : list (list A)) (s : gsl) : Prop := forall a n, s = Some (a, n) -> a < length h /\ n <= length (nth a h []).
  Definition below {A} (l : list A) (i : option nat) : Prop := forall k, i = Some k -> k < length l.
  Definition held_obj (m : memory F) (o : sobj F) : Prop :=
    held (m_strs m) (o_required o) /\ held (m_refs m) (o_allof o) /\ held (m_refs m) (o_oneof o) /\ held (m_refs m) (o_anyof o) /\
    held (m_anys m) (o_enum o) /\ below (m_maps m) (o_props o) /\ below (m_docs m) (o_docs o) /\ below (m_xml m) (o_xml o).
  Definition sound (m : memory F) : Prop := forall p, p < length (m_objs m) -> held_obj m (obj m p).
  Definition sound_arg {A} (h : list (list A)) (x : arg A) : Prop := match x with Lit _ => True | Sl s => held h s end.
  Definition sound_call (m : memory F) (c : bcall F) : Prop :=
    match c with
    | WithProperties mp => below (m_maps m) mp
    | WithAllOf x | AddToAllOf _ x => sound_arg (m_refs m) x
    | WithRequired x | AddRequired _ x => sound_arg (m_strs m) x
    | WithEnum x => sound_arg (m_anys m) x
    | _ => True
    end.

  (** Sharing that lets a call on [p] be seen in [q]: the same map or the same
      documentation or XML object; the same array, [q]'s list being longer. *)
  Definition overlap (s t : gsl) : Prop := exists a n k, s = Some (a, n) /\ t = Some (a, k) /\ n < k.
  Definition sharing (m : memory F) (p : nat) (c : bcall F) (q : nat) : Prop :=
    let o := obj m p in let o' := obj m q in
    match c with
    | WithProperty _ _ => exists i, o_props o = Some i /\ o_props o' = Some i
    | AddRequired _ _ => overlap (o_required o) (o_required o')
    | AddToAllOf _ _ => overlap (o_allof o) (o_allof o') \/ overlap (o_allof o) (o_oneof o') \/ overlap (o_allof o) (o_anyof o')
    | WithExternalDocs _ _ => exists i, o_docs o = Some i /\ o_docs o' = Some i
    | WithXMLName _ | WithXMLNamespace _ | WithXMLPrefix _ | AsXMLAttribute | AsXMLElement | AsWrappedXML | AsUnwrappedXML =>
        exists i, o_xml o = Some i /\ o_xml o' = Some i
    | _ => False
    end.
  (** The same, between the lists of one schema. *)
  Definition own_sharing (m : memory F) (p : nat) (c : bcall F) : Prop :=
    match c with
    | AddToAllOf _ _ => overlap (o_allof (obj m p)) (o_oneof (obj m p)) \/ overlap (o_allof (obj m p)) (o_anyof (obj m p))
    | _ => False
    end.
End Spec.
Arguments obs : clear implicits.
