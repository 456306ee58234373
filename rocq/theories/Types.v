(** internal/oapi/scan/types: Go types as go/types presents them, the collection
    of pointers (types.go walk, point.go), the conversion of types to schemas
    (types.go), and the type scanner (scan.go).  No proofs in this file. *)
From Coq Require Import String Ascii List Bool Arith ZArith.
From Verif Require Import GoStr Json Url Pointer Tag.
Import ListNotations.
Local Open Scope string_scope.
Local Open Scope nat_scope.
Local Open Scope list_scope.

(** *** go/types *)

(** types.BasicKind; [KUntyped] stands for the untyped kinds. *)
Inductive basic :=
| KInvalid | KBool | KInt | KInt8 | KInt16 | KInt32 | KInt64 | KUint | KUint8 | KUint16 | KUint32 | KUint64 | KUintptr
| KFloat32 | KFloat64 | KComplex64 | KComplex128 | KString | KUnsafePointer | KUntyped.
Definition basic_eqb (a b : basic) : bool :=
  match a, b with
  | KInvalid, KInvalid | KBool, KBool | KInt, KInt | KInt8, KInt8 | KInt16, KInt16 | KInt32, KInt32 | KInt64, KInt64
  | KUint, KUint | KUint8, KUint8 | KUint16, KUint16 | KUint32, KUint32 | KUint64, KUint64 | KUintptr, KUintptr
  | KFloat32, KFloat32 | KFloat64, KFloat64 | KComplex64, KComplex64 | KComplex128, KComplex128 | KString, KString
  | KUnsafePointer, KUnsafePointer | KUntyped, KUntyped => true
  | _, _ => false
  end.

(** A struct field's name, tag text and embeddedness.  (For types.Identical an
    unexported name includes its package; the model leaves that to the name.) *)
Record finfo := { f_name : string; f_tag : string; f_emb : bool }.
Definition finfo_eqb (a b : finfo) : bool :=
  String.eqb (f_name a) (f_name b) && String.eqb (f_tag a) (f_tag b) && Bool.eqb (f_emb a) (f_emb b).

(** Types.  [TNamed i] is the i-th type declaration; [TOther] are interfaces,
    functions, tuples (no Elem method), told apart by a number.  Type parameters
    are not modelled. *)
Inductive gty :=
| TBasic (k : basic)
| TNamed (i : nat)
| TPtr (t : gty)
| TSlice (t : gty)
| TArray (n : Z) (t : gty)
| TMap (k t : gty)
| TChan (dir : nat) (t : gty)
| TStruct (fs : list (finfo * gty))
| TOther (i : nat).

(** types.Identical. *)
Fixpoint gty_eqb (a b : gty) {struct a} : bool :=
  match a, b with
  | TBasic k, TBasic k' => basic_eqb k k'
  | TNamed i, TNamed i' => i =? i'
  | TPtr t, TPtr t' | TSlice t, TSlice t' => gty_eqb t t'
  | TArray n t, TArray n' t' => (n =? n')%Z && gty_eqb t t'
  | TMap k t, TMap k' t' => gty_eqb k k' && gty_eqb t t'
  | TChan d t, TChan d' t' => (d =? d') && gty_eqb t t'
  | TStruct fs, TStruct fs' =>
      (fix go (l : list (finfo * gty)) (l' : list (finfo * gty)) {struct l} : bool :=
         match l, l' with
         | [], [] => true
         | (i, t) :: r, (i', t') :: r' => finfo_eqb i i' && gty_eqb t t' && go r r'
         | _, _ => false
         end) fs fs'
  | TOther i, TOther i' => i =? i'
  | _, _ => false
  end.

(** A type declaration: its package (none for the universe's types, error), its
    name and underlying type. *)
Record decl := { d_pkg : option string; d_name : string; d_under : gty }.
Definition genv := list decl.
(** Type.Underlying. *)
Definition under (env : genv) (t : gty) : gty :=
  match t with
  | TNamed i => match nth_error env i with Some d => d_under d | None => TBasic KInvalid end
  | _ => t
  end.
(** Object.Exported (token.IsExported), for ASCII names. *)
Definition exported (name : string) : bool := match name with String c _ => in_range 65 90 c | EmptyString => false end.

(** *** point.go *)

(** point.go:17-21 newPoint: Path of a nil package panics; the error of
    NewGoPointer is dropped (the zero pointer remains). *)
Definition new_point (pkg : option string) (name : string) : res ptr :=
  match pkg with
  | None => Panic
  | Some pk => Ok (match new_go_pointer pk name with Ok p => p | _ => ptr_zero end)
  end.
(** point.go:23-28 withDescendant, 30-35 withArray, 37-42 withPtr. *)
Definition with_desc (p : ptr) (name : string) : res ptr :=
  do x <- ptr_clone p ;
  Ok {| p_url := p_url x; p_frag := match descendant (p_frag x) name with Ok f => f | _ => p_frag x end |}.
(** point.go:52-54 equal, 82-84 has. *)
Definition pt_has (l : list ptr) (p : ptr) : bool := existsb (fun q => String.eqb (ptr_string p) (ptr_string q)) l.
(** point.go:94-96 pointmap: types (up to identity) to points. *)
Definition pmap := list (gty * list ptr).
(** point.go:112-121 at. *)
Definition pm_at (m : pmap) (t : gty) : list ptr :=
  match find (fun e => gty_eqb (fst e) t) m with Some e => snd e | None => [] end.
(** typeutil.Map.Set. *)
Fixpoint pm_set (m : pmap) (t : gty) (l : list ptr) : pmap :=
  match m with
  | [] => [(t, l)]
  | e :: r => if gty_eqb (fst e) t then (fst e, l) :: r else e :: pm_set r t l
  end.
(** point.go:102-110 append. *)
Definition pm_append (m : pmap) (t : gty) (p : ptr) : pmap :=
  let pp := pm_at m t in
  if pt_has pp p then m else pm_set m t (pp ++ [p]).
(** point.go:130-156 each, find and 167-172 findType: the first match in an
    iteration of the map; [ord] is that iteration. *)
Definition pm_find (ord : pmap -> pmap) (m : pmap) (p : ptr) : option gty :=
  match find (fun e => existsb (fun q => String.eqb (ptr_string p) (ptr_string q)) (snd e)) (ord m) with
  | Some e => Some (fst e)
  | None => None
  end.

(** *** types.go: collection *)

Section Collect.
  Context (env : genv).

  (** types.go:47-82: the next steps of walk. *)
  Definition field_steps (r : ptr) (fs : list (finfo * gty)) : res (list (ptr * gty)) :=
    (fix go (l : list (finfo * gty)) : res (list (ptr * gty)) :=
       match l with
       | [] => Ok []
       | (i, t) :: l' =>
           if negb (exported (f_name i)) then go l'
           else do p <- with_desc r (f_name i) ; do n <- go l' ; Ok ((p, t) :: n)
       end) fs.
  Definition next_steps (r : ptr) (t : gty) : res (list (ptr * gty)) :=
    match t with
    | TStruct fs => field_steps r fs
    | TPtr e => do p <- with_desc r "*" ; Ok [(p, e)]
    | TSlice e | TArray _ e | TMap _ e | TChan _ e => do p <- with_desc r "[]" ; Ok [(p, e)]
    | _ => Ok []
    end.
  (** types.go:84-97: the loop over the next steps. *)
  Fixpoint walk_next (w : ptr -> gty -> pmap -> res pmap) (next : list (ptr * gty)) (m : pmap) : res pmap :=
    match next with
    | [] => Ok m
    | (p, t) :: rest =>
        do m <- w p t m ;
        do m <- (match t with
                 | TNamed i =>
                     match nth_error env i with
                     | Some d => do np <- new_point (d_pkg d) (d_name d) ; w np t m
                     | None => Ok m
                     end
                 | _ => Ok m
                 end) ;
        walk_next w rest m
    end.
  (** types.go:38-98 walk; [path] is the list of types on the way. *)
  Fixpoint walk (fuel : nat) (path : list gty) (r : ptr) (t : gty) (m : pmap) : res pmap :=
    match fuel with
    | O => OutOfFuel
    | S fuel' =>
        let u := under env t in
        let m := pm_append m u r in
        if existsb (fun x => gty_eqb x u) path then Ok m
        else do next <- next_steps r u ; walk_next (walk fuel' (path ++ [u])) next m
    end.
  (** types.Object: package, name and type. *)
  Record gobj := { o_pkg : option string; o_name : string; o_type : gty }.
  (** types.go:15-17 collectTypes. *)
  Definition collect_types (fuel : nat) (o : gobj) (m : pmap) : res pmap :=
    do r <- new_point (o_pkg o) (o_name o) ; walk fuel [] r (o_type o) m.

  (** scan.go:41-67 Scan of one package, given as its path and scope; [ptrs] in
      iteration order. *)
  Fixpoint scan_types (fuel : nat) (pkg : string) (scope : string -> option gobj) (ptrs : list ptr) (m : pmap) : res pmap :=
    match ptrs with
    | [] => Ok m
    | p :: rest =>
        do m <- (if negb (String.eqb (u_scheme (p_url p)) "go") then Ok m
                 else if negb (String.eqb pkg (pkg_path p)) then Ok m
                 else match frag_head (p_frag p) with
                      | None => Ok m
                      | Some head =>
                          match scope head with
                          | None => Ok m
                          | Some o => collect_types fuel o m
                          end
                      end) ;
        scan_types fuel pkg scope rest m
    end.
End Collect.

(** *** types.go: schemas *)

Section Schema.
  Context {F : Type} (parse_float : string -> option F) (zero : F).
  Local Notation tag := (tag F).

  (** The attributes of spec.Schema that this code sets. *)
  Inductive schema := Schema {
    s_ref : option ptr; s_type : string; s_format : string; s_nullable : bool; s_deprecated : bool;
    s_readonly : bool; s_writeonly : bool; s_min : option F; s_max : option F; s_emin : bool;
    s_emax : bool; s_mulof : option F; s_minlen : option Z; s_maxlen : option Z; s_pattern : string;
    s_minitems : option Z; s_maxitems : option Z; s_unique : bool; s_minprops : option Z; s_maxprops : option Z;
    s_required : list string; s_props : list (string * schema); s_items : option schema; s_addl : option schema; s_oneof : list schema }.
  Definition schema_zero : schema :=
    {| s_ref := None; s_type := ""; s_format := ""; s_nullable := false; s_deprecated := false; s_readonly := false; s_writeonly := false; s_min := None; s_max := None; s_emin := false; s_emax := false; s_mulof := None; s_minlen := None; s_maxlen := None; s_pattern := ""; s_minitems := None; s_maxitems := None; s_unique := false; s_minprops := None; s_maxprops := None; s_required := []; s_props := []; s_items := None; s_addl := None; s_oneof := [] |}.

  (** Assignments to one field. *)
  Definition with_ref (v : option ptr) (s : schema) : schema := {| s_ref := v; s_type := s_type s; s_format := s_format s; s_nullable := s_nullable s; s_deprecated := s_deprecated s; s_readonly := s_readonly s; s_writeonly := s_writeonly s; s_min := s_min s; s_max := s_max s; s_emin := s_emin s; s_emax := s_emax s; s_mulof := s_mulof s; s_minlen := s_minlen s; s_maxlen := s_maxlen s; s_pattern := s_pattern s; s_minitems := s_minitems s; s_maxitems := s_maxitems s; s_unique := s_unique s; s_minprops := s_minprops s; s_maxprops := s_maxprops s; s_required := s_required s; s_props := s_props s; s_items := s_items s; s_addl := s_addl s; s_oneof := s_oneof s |}.
  Definition with_type (v : string) (s : schema) : schema := {| s_ref := s_ref s; s_type := v; s_format := s_format s; s_nullable := s_nullable s; s_deprecated := s_deprecated s; s_readonly := s_readonly s; s_writeonly := s_writeonly s; s_min := s_min s; s_max := s_max s; s_emin := s_emin s; s_emax := s_emax s; s_mulof := s_mulof s; s_minlen := s_minlen s; s_maxlen := s_maxlen s; s_pattern := s_pattern s; s_minitems := s_minitems s; s_maxitems := s_maxitems s; s_unique := s_unique s; s_minprops := s_minprops s; s_maxprops := s_maxprops s; s_required := s_required s; s_props := s_props s; s_items := s_items s; s_addl := s_addl s; s_oneof := s_oneof s |}.
  Definition with_format (v : string) (s : schema) : schema := {| s_ref := s_ref s; s_type := s_type s; s_format := v; s_nullable := s_nullable s; s_deprecated := s_deprecated s; s_readonly := s_readonly s; s_writeonly := s_writeonly s; s_min := s_min s; s_max := s_max s; s_emin := s_emin s; s_emax := s_emax s; s_mulof := s_mulof s; s_minlen := s_minlen s; s_maxlen := s_maxlen s; s_pattern := s_pattern s; s_minitems := s_minitems s; s_maxitems := s_maxitems s; s_unique := s_unique s; s_minprops := s_minprops s; s_maxprops := s_maxprops s; s_required := s_required s; s_props := s_props s; s_items := s_items s; s_addl := s_addl s; s_oneof := s_oneof s |}.
  Definition with_nullable (v : bool) (s : schema) : schema := {| s_ref := s_ref s; s_type := s_type s; s_format := s_format s; s_nullable := v; s_deprecated := s_deprecated s; s_readonly := s_readonly s; s_writeonly := s_writeonly s; s_min := s_min s; s_max := s_max s; s_emin := s_emin s; s_emax := s_emax s; s_mulof := s_mulof s; s_minlen := s_minlen s; s_maxlen := s_maxlen s; s_pattern := s_pattern s; s_minitems := s_minitems s; s_maxitems := s_maxitems s; s_unique := s_unique s; s_minprops := s_minprops s; s_maxprops := s_maxprops s; s_required := s_required s; s_props := s_props s; s_items := s_items s; s_addl := s_addl s; s_oneof := s_oneof s |}.
  Definition with_deprecated (v : bool) (s : schema) : schema := {| s_ref := s_ref s; s_type := s_type s; s_format := s_format s; s_nullable := s_nullable s; s_deprecated := v; s_readonly := s_readonly s; s_writeonly := s_writeonly s; s_min := s_min s; s_max := s_max s; s_emin := s_emin s; s_emax := s_emax s; s_mulof := s_mulof s; s_minlen := s_minlen s; s_maxlen := s_maxlen s; s_pattern := s_pattern s; s_minitems := s_minitems s; s_maxitems := s_maxitems s; s_unique := s_unique s; s_minprops := s_minprops s; s_maxprops := s_maxprops s; s_required := s_required s; s_props := s_props s; s_items := s_items s; s_addl := s_addl s; s_oneof := s_oneof s |}.
  Definition with_readonly (v : bool) (s : schema) : schema := {| s_ref := s_ref s; s_type := s_type s; s_format := s_format s; s_nullable := s_nullable s; s_deprecated := s_deprecated s; s_readonly := v; s_writeonly := s_writeonly s; s_min := s_min s; s_max := s_max s; s_emin := s_emin s; s_emax := s_emax s; s_mulof := s_mulof s; s_minlen := s_minlen s; s_maxlen := s_maxlen s; s_pattern := s_pattern s; s_minitems := s_minitems s; s_maxitems := s_maxitems s; s_unique := s_unique s; s_minprops := s_minprops s; s_maxprops := s_maxprops s; s_required := s_required s; s_props := s_props s; s_items := s_items s; s_addl := s_addl s; s_oneof := s_oneof s |}.
  Definition with_writeonly (v : bool) (s : schema) : schema := {| s_ref := s_ref s; s_type := s_type s; s_format := s_format s; s_nullable := s_nullable s; s_deprecated := s_deprecated s; s_readonly := s_readonly s; s_writeonly := v; s_min := s_min s; s_max := s_max s; s_emin := s_emin s; s_emax := s_emax s; s_mulof := s_mulof s; s_minlen := s_minlen s; s_maxlen := s_maxlen s; s_pattern := s_pattern s; s_minitems := s_minitems s; s_maxitems := s_maxitems s; s_unique := s_unique s; s_minprops := s_minprops s; s_maxprops := s_maxprops s; s_required := s_required s; s_props := s_props s; s_items := s_items s; s_addl := s_addl s; s_oneof := s_oneof s |}.
  Definition with_min (v : option F) (s : schema) : schema := {| s_ref := s_ref s; s_type := s_type s; s_format := s_format s; s_nullable := s_nullable s; s_deprecated := s_deprecated s; s_readonly := s_readonly s; s_writeonly := s_writeonly s; s_min := v; s_max := s_max s; s_emin := s_emin s; s_emax := s_emax s; s_mulof := s_mulof s; s_minlen := s_minlen s; s_maxlen := s_maxlen s; s_pattern := s_pattern s; s_minitems := s_minitems s; s_maxitems := s_maxitems s; s_unique := s_unique s; s_minprops := s_minprops s; s_maxprops := s_maxprops s; s_required := s_required s; s_props := s_props s; s_items := s_items s; s_addl := s_addl s; s_oneof := s_oneof s |}.
  Definition with_max (v : option F) (s : schema) : schema := {| s_ref := s_ref s; s_type := s_type s; s_format := s_format s; s_nullable := s_nullable s; s_deprecated := s_deprecated s; s_readonly := s_readonly s; s_writeonly := s_writeonly s; s_min := s_min s; s_max := v; s_emin := s_emin s; s_emax := s_emax s; s_mulof := s_mulof s; s_minlen := s_minlen s; s_maxlen := s_maxlen s; s_pattern := s_pattern s; s_minitems := s_minitems s; s_maxitems := s_maxitems s; s_unique := s_unique s; s_minprops := s_minprops s; s_maxprops := s_maxprops s; s_required := s_required s; s_props := s_props s; s_items := s_items s; s_addl := s_addl s; s_oneof := s_oneof s |}.
  Definition with_emin (v : bool) (s : schema) : schema := {| s_ref := s_ref s; s_type := s_type s; s_format := s_format s; s_nullable := s_nullable s; s_deprecated := s_deprecated s; s_readonly := s_readonly s; s_writeonly := s_writeonly s; s_min := s_min s; s_max := s_max s; s_emin := v; s_emax := s_emax s; s_mulof := s_mulof s; s_minlen := s_minlen s; s_maxlen := s_maxlen s; s_pattern := s_pattern s; s_minitems := s_minitems s; s_maxitems := s_maxitems s; s_unique := s_unique s; s_minprops := s_minprops s; s_maxprops := s_maxprops s; s_required := s_required s; s_props := s_props s; s_items := s_items s; s_addl := s_addl s; s_oneof := s_oneof s |}.
  Definition with_emax (v : bool) (s : schema) : schema := {| s_ref := s_ref s; s_type := s_type s; s_format := s_format s; s_nullable := s_nullable s; s_deprecated := s_deprecated s; s_readonly := s_readonly s; s_writeonly := s_writeonly s; s_min := s_min s; s_max := s_max s; s_emin := s_emin s; s_emax := v; s_mulof := s_mulof s; s_minlen := s_minlen s; s_maxlen := s_maxlen s; s_pattern := s_pattern s; s_minitems := s_minitems s; s_maxitems := s_maxitems s; s_unique := s_unique s; s_minprops := s_minprops s; s_maxprops := s_maxprops s; s_required := s_required s; s_props := s_props s; s_items := s_items s; s_addl := s_addl s; s_oneof := s_oneof s |}.
  Definition with_mulof (v : option F) (s : schema) : schema := {| s_ref := s_ref s; s_type := s_type s; s_format := s_format s; s_nullable := s_nullable s; s_deprecated := s_deprecated s; s_readonly := s_readonly s; s_writeonly := s_writeonly s; s_min := s_min s; s_max := s_max s; s_emin := s_emin s; s_emax := s_emax s; s_mulof := v; s_minlen := s_minlen s; s_maxlen := s_maxlen s; s_pattern := s_pattern s; s_minitems := s_minitems s; s_maxitems := s_maxitems s; s_unique := s_unique s; s_minprops := s_minprops s; s_maxprops := s_maxprops s; s_required := s_required s; s_props := s_props s; s_items := s_items s; s_addl := s_addl s; s_oneof := s_oneof s |}.
  Definition with_minlen (v : option Z) (s : schema) : schema := {| s_ref := s_ref s; s_type := s_type s; s_format := s_format s; s_nullable := s_nullable s; s_deprecated := s_deprecated s; s_readonly := s_readonly s; s_writeonly := s_writeonly s; s_min := s_min s; s_max := s_max s; s_emin := s_emin s; s_emax := s_emax s; s_mulof := s_mulof s; s_minlen := v; s_maxlen := s_maxlen s; s_pattern := s_pattern s; s_minitems := s_minitems s; s_maxitems := s_maxitems s; s_unique := s_unique s; s_minprops := s_minprops s; s_maxprops := s_maxprops s; s_required := s_required s; s_props := s_props s; s_items := s_items s; s_addl := s_addl s; s_oneof := s_oneof s |}.
  Definition with_maxlen (v : option Z) (s : schema) : schema := {| s_ref := s_ref s; s_type := s_type s; s_format := s_format s; s_nullable := s_nullable s; s_deprecated := s_deprecated s; s_readonly := s_readonly s; s_writeonly := s_writeonly s; s_min := s_min s; s_max := s_max s; s_emin := s_emin s; s_emax := s_emax s; s_mulof := s_mulof s; s_minlen := s_minlen s; s_maxlen := v; s_pattern := s_pattern s; s_minitems := s_minitems s; s_maxitems := s_maxitems s; s_unique := s_unique s; s_minprops := s_minprops s; s_maxprops := s_maxprops s; s_required := s_required s; s_props := s_props s; s_items := s_items s; s_addl := s_addl s; s_oneof := s_oneof s |}.
  Definition with_pattern (v : string) (s : schema) : schema := {| s_ref := s_ref s; s_type := s_type s; s_format := s_format s; s_nullable := s_nullable s; s_deprecated := s_deprecated s; s_readonly := s_readonly s; s_writeonly := s_writeonly s; s_min := s_min s; s_max := s_max s; s_emin := s_emin s; s_emax := s_emax s; s_mulof := s_mulof s; s_minlen := s_minlen s; s_maxlen := s_maxlen s; s_pattern := v; s_minitems := s_minitems s; s_maxitems := s_maxitems s; s_unique := s_unique s; s_minprops := s_minprops s; s_maxprops := s_maxprops s; s_required := s_required s; s_props := s_props s; s_items := s_items s; s_addl := s_addl s; s_oneof := s_oneof s |}.
  Definition with_minitems (v : option Z) (s : schema) : schema := {| s_ref := s_ref s; s_type := s_type s; s_format := s_format s; s_nullable := s_nullable s; s_deprecated := s_deprecated s; s_readonly := s_readonly s; s_writeonly := s_writeonly s; s_min := s_min s; s_max := s_max s; s_emin := s_emin s; s_emax := s_emax s; s_mulof := s_mulof s; s_minlen := s_minlen s; s_maxlen := s_maxlen s; s_pattern := s_pattern s; s_minitems := v; s_maxitems := s_maxitems s; s_unique := s_unique s; s_minprops := s_minprops s; s_maxprops := s_maxprops s; s_required := s_required s; s_props := s_props s; s_items := s_items s; s_addl := s_addl s; s_oneof := s_oneof s |}.
  Definition with_maxitems (v : option Z) (s : schema) : schema := {| s_ref := s_ref s; s_type := s_type s; s_format := s_format s; s_nullable := s_nullable s; s_deprecated := s_deprecated s; s_readonly := s_readonly s; s_writeonly := s_writeonly s; s_min := s_min s; s_max := s_max s; s_emin := s_emin s; s_emax := s_emax s; s_mulof := s_mulof s; s_minlen := s_minlen s; s_maxlen := s_maxlen s; s_pattern := s_pattern s; s_minitems := s_minitems s; s_maxitems := v; s_unique := s_unique s; s_minprops := s_minprops s; s_maxprops := s_maxprops s; s_required := s_required s; s_props := s_props s; s_items := s_items s; s_addl := s_addl s; s_oneof := s_oneof s |}.
  Definition with_unique (v : bool) (s : schema) : schema := {| s_ref := s_ref s; s_type := s_type s; s_format := s_format s; s_nullable := s_nullable s; s_deprecated := s_deprecated s; s_readonly := s_readonly s; s_writeonly := s_writeonly s; s_min := s_min s; s_max := s_max s; s_emin := s_emin s; s_emax := s_emax s; s_mulof := s_mulof s; s_minlen := s_minlen s; s_maxlen := s_maxlen s; s_pattern := s_pattern s; s_minitems := s_minitems s; s_maxitems := s_maxitems s; s_unique := v; s_minprops := s_minprops s; s_maxprops := s_maxprops s; s_required := s_required s; s_props := s_props s; s_items := s_items s; s_addl := s_addl s; s_oneof := s_oneof s |}.
  Definition with_minprops (v : option Z) (s : schema) : schema := {| s_ref := s_ref s; s_type := s_type s; s_format := s_format s; s_nullable := s_nullable s; s_deprecated := s_deprecated s; s_readonly := s_readonly s; s_writeonly := s_writeonly s; s_min := s_min s; s_max := s_max s; s_emin := s_emin s; s_emax := s_emax s; s_mulof := s_mulof s; s_minlen := s_minlen s; s_maxlen := s_maxlen s; s_pattern := s_pattern s; s_minitems := s_minitems s; s_maxitems := s_maxitems s; s_unique := s_unique s; s_minprops := v; s_maxprops := s_maxprops s; s_required := s_required s; s_props := s_props s; s_items := s_items s; s_addl := s_addl s; s_oneof := s_oneof s |}.
  Definition with_maxprops (v : option Z) (s : schema) : schema := {| s_ref := s_ref s; s_type := s_type s; s_format := s_format s; s_nullable := s_nullable s; s_deprecated := s_deprecated s; s_readonly := s_readonly s; s_writeonly := s_writeonly s; s_min := s_min s; s_max := s_max s; s_emin := s_emin s; s_emax := s_emax s; s_mulof := s_mulof s; s_minlen := s_minlen s; s_maxlen := s_maxlen s; s_pattern := s_pattern s; s_minitems := s_minitems s; s_maxitems := s_maxitems s; s_unique := s_unique s; s_minprops := s_minprops s; s_maxprops := v; s_required := s_required s; s_props := s_props s; s_items := s_items s; s_addl := s_addl s; s_oneof := s_oneof s |}.
  Definition with_required (v : list string) (s : schema) : schema := {| s_ref := s_ref s; s_type := s_type s; s_format := s_format s; s_nullable := s_nullable s; s_deprecated := s_deprecated s; s_readonly := s_readonly s; s_writeonly := s_writeonly s; s_min := s_min s; s_max := s_max s; s_emin := s_emin s; s_emax := s_emax s; s_mulof := s_mulof s; s_minlen := s_minlen s; s_maxlen := s_maxlen s; s_pattern := s_pattern s; s_minitems := s_minitems s; s_maxitems := s_maxitems s; s_unique := s_unique s; s_minprops := s_minprops s; s_maxprops := s_maxprops s; s_required := v; s_props := s_props s; s_items := s_items s; s_addl := s_addl s; s_oneof := s_oneof s |}.
  Definition with_props (v : list (string * schema)) (s : schema) : schema := {| s_ref := s_ref s; s_type := s_type s; s_format := s_format s; s_nullable := s_nullable s; s_deprecated := s_deprecated s; s_readonly := s_readonly s; s_writeonly := s_writeonly s; s_min := s_min s; s_max := s_max s; s_emin := s_emin s; s_emax := s_emax s; s_mulof := s_mulof s; s_minlen := s_minlen s; s_maxlen := s_maxlen s; s_pattern := s_pattern s; s_minitems := s_minitems s; s_maxitems := s_maxitems s; s_unique := s_unique s; s_minprops := s_minprops s; s_maxprops := s_maxprops s; s_required := s_required s; s_props := v; s_items := s_items s; s_addl := s_addl s; s_oneof := s_oneof s |}.
  Definition with_items (v : option schema) (s : schema) : schema := {| s_ref := s_ref s; s_type := s_type s; s_format := s_format s; s_nullable := s_nullable s; s_deprecated := s_deprecated s; s_readonly := s_readonly s; s_writeonly := s_writeonly s; s_min := s_min s; s_max := s_max s; s_emin := s_emin s; s_emax := s_emax s; s_mulof := s_mulof s; s_minlen := s_minlen s; s_maxlen := s_maxlen s; s_pattern := s_pattern s; s_minitems := s_minitems s; s_maxitems := s_maxitems s; s_unique := s_unique s; s_minprops := s_minprops s; s_maxprops := s_maxprops s; s_required := s_required s; s_props := s_props s; s_items := v; s_addl := s_addl s; s_oneof := s_oneof s |}.
  Definition with_addl (v : option schema) (s : schema) : schema := {| s_ref := s_ref s; s_type := s_type s; s_format := s_format s; s_nullable := s_nullable s; s_deprecated := s_deprecated s; s_readonly := s_readonly s; s_writeonly := s_writeonly s; s_min := s_min s; s_max := s_max s; s_emin := s_emin s; s_emax := s_emax s; s_mulof := s_mulof s; s_minlen := s_minlen s; s_maxlen := s_maxlen s; s_pattern := s_pattern s; s_minitems := s_minitems s; s_maxitems := s_maxitems s; s_unique := s_unique s; s_minprops := s_minprops s; s_maxprops := s_maxprops s; s_required := s_required s; s_props := s_props s; s_items := s_items s; s_addl := v; s_oneof := s_oneof s |}.
  Definition with_oneof (v : list schema) (s : schema) : schema := {| s_ref := s_ref s; s_type := s_type s; s_format := s_format s; s_nullable := s_nullable s; s_deprecated := s_deprecated s; s_readonly := s_readonly s; s_writeonly := s_writeonly s; s_min := s_min s; s_max := s_max s; s_emin := s_emin s; s_emax := s_emax s; s_mulof := s_mulof s; s_minlen := s_minlen s; s_maxlen := s_maxlen s; s_pattern := s_pattern s; s_minitems := s_minitems s; s_maxitems := s_maxitems s; s_unique := s_unique s; s_minprops := s_minprops s; s_maxprops := s_maxprops s; s_required := s_required s; s_props := s_props s; s_items := s_items s; s_addl := s_addl s; s_oneof := v |}.

  (** types.go:371-436 basic2schema.  (spec.Float32Property etc. of
      spec/schema_util.go:21-76 are written out.) *)
  Definition typed (t f : string) : schema := with_format f (with_type t schema_zero).
  Definition basic_base (k : basic) : option schema :=
    match k with
    | KFloat32 => Some (typed "number" "float")
    | KFloat64 => Some (typed "number" "double")
    | KUint | KUint32 | KUint8 | KUint16 => Some (with_min (Some zero) (typed "integer" "int32"))
    | KUint64 => Some (with_min (Some zero) (typed "integer" "int64"))
    | KInt | KInt32 | KInt8 | KInt16 => Some (typed "integer" "int32")
    | KInt64 => Some (typed "integer" "int64")
    | KBool => Some (typed "boolean" "")
    | KString => Some (typed "string" "")
    | _ => None
    end.
  Definition if_some {A} (o : option A) (f : A -> schema -> schema) (s : schema) : schema :=
    match o with Some v => f v s | None => s end.
  Definition number_bounds (tg : tag) (s : schema) : schema :=
    let s := if_some (t_min tg) (fun v => with_min (Some v)) s in
    let s := if_some (t_max tg) (fun v => with_max (Some v)) s in
    let s := if_some (t_emin tg) (fun v s => with_emin true (with_min (Some v) s)) s in
    let s := if_some (t_emax tg) (fun v s => with_emax true (with_max (Some v) s)) s in
    if_some (t_mulof tg) (fun v => with_mulof (Some v)) s.
  Definition string_bounds (tg : tag) (s : schema) : schema :=
    let s := if_some (t_maxlen tg) (fun v => with_maxlen (Some v)) s in
    let s := if_some (t_minlen tg) (fun v => with_minlen (Some v)) s in
    with_pattern (t_pattern tg) s.
  Definition basic2schema (k : basic) (tg : tag) : res schema :=
    match basic_base k with
    | None => Err
    | Some s =>
        Ok (if String.eqb (s_type s) "number" || String.eqb (s_type s) "integer" then number_bounds tg s
            else if String.eqb (s_type s) "string" then string_bounds tg s else s)
    end.
  (** types.go:438-490 basicString2schema. *)
  Definition basic_string2schema (t : string) (tg : tag) : res schema :=
    let y := trim is_sp t in
    let is x := String.eqb y x in
    if is "string" then basic2schema KString tg
    else if is "float32" || is "float" then basic2schema KFloat32 tg
    else if is "float64" || is "double" then basic2schema KFloat64 tg
    else if is "uint" then basic2schema KUint tg
    else if is "uint8" then basic2schema KUint8 tg
    else if is "uint16" then basic2schema KUint16 tg
    else if is "uint32" then basic2schema KUint32 tg
    else if is "uint64" then basic2schema KUint64 tg
    else if is "int" then basic2schema KInt tg
    else if is "int8" then basic2schema KInt8 tg
    else if is "int16" then basic2schema KInt16 tg
    else if is "int32" || is "integer" then basic2schema KInt32 tg
    else if is "int64" then basic2schema KInt64 tg
    else if is "bool" then basic2schema KBool tg
    else if is "base64" then (do s <- basic2schema KString tg ; Ok (with_format "binary" s))
    else if is "uuid" then (do s <- basic2schema KString tg ; Ok (with_format "uuid" s))
    else if is "password" then (do s <- basic2schema KString tg ; Ok (with_format "password" s))
    else if is "number" then Ok (with_type "number" schema_zero)
    else if is "object" then Ok (with_type "object" schema_zero)
    else Err.

  Section Convert.
    (** [std]: refStdMapping (types.go:337-346), by pointer text.
        [pk]: which point sort.Sort puts first, at the n-th field (0: top level). *)
    Context (env : genv) (std : string -> option schema) (pk : nat -> list ptr -> ptr).

    (** types.go:348-359 reference2schema; point.go:158-165 pick. *)
    Definition reference2schema (n : nat) (m : pmap) (t : gty) : res schema :=
      match pm_at m t with
      | [] => Err
      | pp =>
          let p := pk n pp in
          match std (ptr_string p) with
          | Some s => Ok s
          | None => Ok (with_ref (Some p) schema_zero)
          end
      end.

    (** types.go:492-507 castInlineStruct. *)
    Definition cast_inline (i : finfo) (t : gty) (tg : tag) : option (list (finfo * gty)) :=
      let tx := under env t in
      let tx := match tx with TPtr e => under env e | _ => tx end in
      match tx with
      | TStruct fs => if (match t_inline tg with Some b => b | None => f_emb i end) then Some fs else None
      | _ => None
      end.
    (** types.go:509-512 structField. *)
    Record sfield := { sf_info : finfo; sf_type : gty; sf_tag : tag }.
    (** types.go:514-546 collectStructFields. *)
    Fixpoint collect_each (c : list (finfo * gty) -> res (list sfield)) (l : list (finfo * gty)) : res (list sfield) :=
      match l with
      | [] => Ok []
      | (i, t) :: l' =>
          do tx <- tag_parse parse_float (f_tag i) ;
          if t_ignore tx || negb (exported (f_name i)) then collect_each c l'
          else
            do a <- (match cast_inline i t tx with
                     | Some fs => c fs
                     | None => Ok [{| sf_info := i; sf_type := t; sf_tag := tx |}]
                     end) ;
            do z <- collect_each c l' ;
            Ok (a ++ z)
      end.
    Fixpoint collect_fields (fuel : nat) (path : list gty) (fs : list (finfo * gty)) : res (list sfield) :=
      match fuel with
      | O => OutOfFuel
      | S fuel' =>
          if existsb (fun x => gty_eqb x (TStruct fs)) path then Ok []
          else collect_each (collect_fields fuel' (path ++ [TStruct fs])) fs
      end.

    (** types.go:241-259 map2schema. *)
    Definition map_schema (tg : tag) (sch : schema) : schema :=
      let s := with_nullable true (with_addl (Some sch) (with_type "object" schema_zero)) in
      let s := with_maxprops (t_maxprops tg) (with_minprops (t_minprops tg) s) in
      if_some (t_nullable tg) with_nullable s.
    (** types.go:261-280 slice2schema. *)
    Definition slice_schema (tg : tag) (sch : schema) : schema :=
      let s := with_nullable true (with_items (Some sch) (with_type "array" schema_zero)) in
      let s := with_unique (t_uniqitems tg) (with_maxitems (t_maxitems tg) (with_minitems (t_minitems tg) s)) in
      if_some (t_nullable tg) with_nullable s.
    (** types.go:282-306 array2schema. *)
    Definition array_schema (len : Z) (tg : tag) (sch : schema) : schema :=
      let s := with_items (Some sch) (with_type "array" schema_zero) in
      let s := with_maxitems (t_maxitems tg) (with_minitems (t_minitems tg) s) in
      let s := if (len >? 0)%Z then with_maxitems (Some len) s else s in
      let s := with_unique (t_uniqitems tg) s in
      if_some (t_nullable tg) with_nullable s.
    (** types.go:308-335 pointer2schema. *)
    Definition pointer_schema (tg : tag) (s : schema) : schema :=
      let s := if_some (t_nullable tg) with_nullable (with_nullable true s) in
      match s_ref s with
      | None => s
      | Some _ =>
          if negb (s_nullable s) then s
          else with_oneof [with_nullable false s; with_nullable true (with_type "object" schema_zero)] schema_zero
      end.

    (** types.go:211-235: what struct2schema does with the schema of one field. *)
    Definition field_name (x : sfield) : string :=
      if String.eqb (t_name (sf_tag x)) "" then f_name (sf_info x) else t_name (sf_tag x).
    Definition field_attrs (tg : tag) (ps : schema) : schema :=
      match s_ref ps with
      | Some _ => ps
      | None => if_some (t_nullable tg) with_nullable
                  (with_format (t_format tg) (with_writeonly (t_writeonly tg) (with_readonly (t_readonly tg) (with_deprecated (t_deprecated tg) ps))))
      end.
    Definition add_field (x : sfield) (ps : schema) (s : schema) : schema :=
      let s := with_props (oset (field_name x) (field_attrs (sf_tag x) ps) (s_props s)) s in
      match s_ref ps with
      | Some _ => s
      | None => if t_required (sf_tag x) then with_required (s_required s ++ [field_name x]) s else s
      end.
    (** types.go:193-238: the loop of struct2schema; [n] numbers the fields from 1. *)
    Fixpoint struct_fields (conv : nat -> sfield -> res schema) (n : nat) (l : list sfield) (s : schema) : res schema :=
      match l with
      | [] => Ok s
      | x :: l' => do ps <- conv n x ; struct_fields conv (S n) l' (add_field x ps s)
      end.

    (** types.go:133-171 type2schema, 173-181 typeElement2schema, 183-239
        struct2schema.  [fuel2] is for collectStructFields. *)
    Fixpoint type2schema (fuel fuel2 : nat) (n : nat) (m : pmap) (tp : list gty) (t : gty) (tg : tag) : res schema :=
      match fuel with
      | O => OutOfFuel
      | S fuel' =>
          let u := under env t in
          if existsb (fun x => gty_eqb x u) tp then reference2schema n m u
          else
            let tp' := tp ++ [u] in
            let elem e := if gty_eqb u e then Err else type2schema fuel' fuel2 n m tp' e tg in
            match u with
            | TStruct fs =>
                match tp with
                | [] =>
                    do l <- collect_fields fuel2 [] fs ;
                    struct_fields
                      (fun k x =>
                         if negb (String.eqb (t_type (sf_tag x)) "") then basic_string2schema (t_type (sf_tag x)) (sf_tag x)
                         else match under env (sf_type x) with
                              | TStruct z => reference2schema k m (TStruct z)
                              | z => type2schema fuel' fuel2 k m tp' z (sf_tag x)
                              end)
                      1 l (with_type "object" schema_zero)
                | _ => reference2schema n m u
                end
            | TArray len e => do s <- elem e ; Ok (array_schema len tg s)
            | TBasic k => basic2schema k tg
            | TMap _ e => do s <- elem e ; Ok (map_schema tg s)
            | TSlice e => do s <- elem e ; Ok (slice_schema tg s)
            | TPtr e => do s <- elem e ; Ok (pointer_schema tg s)
            | _ => Err
            end
      end.

    (** scan.go:26-34 Resolve: an unknown pointer yields a nil type, whose
        Underlying method panics. *)
    Definition scanner_resolve (fuel fuel2 : nat) (ord : pmap -> pmap) (m : pmap) (p : ptr) : res schema :=
      match pm_find ord m p with
      | None => Panic
      | Some t => type2schema fuel fuel2 0 m [] t tag_zero
      end.
  End Convert.
End Schema.
Arguments schema F : clear implicits.
Arguments sfield F : clear implicits.
