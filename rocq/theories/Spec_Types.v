(** Locations inside Go types, and the pointers that name them. *)
From Coq Require Import String Ascii List Bool Arith ZArith.
From Verif Require Import GoStr Json Url Pointer Spec_Ptr Tag Types.
Import ListNotations.
Local Open Scope string_scope.
Local Open Scope nat_scope.
Local Open Scope list_scope.

(** Going one step into a type: to an exported field by its name, to a pointer's
    target by *, to the element of a slice, array, map or channel by []. *)
Inductive step (env : genv) : gty -> string -> gty -> Prop :=
| step_field t fs i e : under env t = TStruct fs -> In (i, e) fs -> exported (f_name i) = true -> step env t (f_name i) e
| step_ptr t e : under env t = TPtr e -> step env t "*" e
| step_slice t e : under env t = TSlice e -> step env t "[]" e
| step_array t n e : under env t = TArray n e -> step env t "[]" e
| step_map t k e : under env t = TMap k e -> step env t "[]" e
| step_chan t d e : under env t = TChan d e -> step env t "[]" e.
(** A trail from t to t': the tokens, and the underlying types it leaves. *)
Inductive trail (env : genv) : gty -> list string -> list gty -> gty -> Prop :=
| trail_nil t : trail env t [] [] t
| trail_cons t tok t1 toks ts t' : step env t tok t1 -> trail env t1 toks ts t' -> trail env t (tok :: toks) (under env t :: ts) t'.

(** The text of a pointer: go://PKG#/TOK/TOK... *)
Definition loc_text (pkg : string) (toks : list string) : string :=
  "go://" +++ pkg +++ "#" +++ fold_right (fun t r => "/" +++ t +++ r) "" toks.
(** A pointer with this text is registered under the type. *)
Definition registered (m : pmap) (T : gty) (txt : string) : Prop := exists p, In p (pm_at m T) /\ ptr_string p = txt.
(** The declared name of a type. *)
Definition declared (env : genv) (t : gty) (pkg name : string) : Prop :=
  exists i d, t = TNamed i /\ nth_error env i = Some d /\ d_pkg d = Some pkg /\ d_name d = name.
(** A type of the universe (error): it has no package. *)
Definition universe_type (env : genv) (t : gty) : Prop := exists i d, t = TNamed i /\ nth_error env i = Some d /\ d_pkg d = None.

(** Go identifiers, as far as needed: nonempty, and none of the characters that are special in pointers. *)
Definition go_ident (s : string) : bool :=
  negb (String.eqb s "") && negb (has_char "/" s) && negb (has_char "~" s) && negb (has_char "%" s).
Fixpoint field_names_ok (t : gty) : bool :=
  match t with
  | TPtr e | TSlice e | TArray _ e | TChan _ e => field_names_ok e
  | TMap k e => field_names_ok k && field_names_ok e
  | TStruct fs => forallb (fun x => go_ident (f_name (fst x)) && field_names_ok (snd x)) fs
  | _ => true
  end.
Definition decl_ok (d : decl) : Prop :=
  go_ident (d_name d) = true /\ field_names_ok (d_under d) = true /\ (forall pk, d_pkg d = Some pk -> import_path pk).
Definition env_ok (env : genv) : Prop := Forall decl_ok env.
Definition obj_ok (o : gobj) : Prop :=
  go_ident (o_name o) = true /\ field_names_ok (o_type o) = true /\ (forall pk, o_pkg o = Some pk -> import_path pk).

(** A finite list of types holding the underlying type of t and of everything below it. *)
Definition closed_types (env : genv) (t : gty) (L : list gty) : Prop :=
  In (under env t) L /\ forall t1 tok t2, In (under env t1) L -> step env t1 tok t2 -> In (under env t2) L.

(** A location below the object o that is reached without leaving the same type
    twice: the type T there, and the text naming it, either from o or from a
    declared type met on the way. *)
Definition location_of (env : genv) (pk name : string) (t : gty) (T : gty) (txt : string) : Prop :=
  (exists toks ts t', trail env t toks ts t' /\ NoDup ts /\ T = under env t' /\ txt = loc_text pk (name :: toks)) \/
  (exists s1 ts1 tn pkn n s2 ts2 t', trail env t s1 ts1 tn /\ s1 <> [] /\ declared env tn pkn n /\ trail env tn s2 ts2 t' /\
     NoDup (ts1 ++ ts2) /\ T = under env t' /\ txt = loc_text pkn (n :: s2)).
(** A universe type is reached, through at least one step, without leaving the same type twice. *)
Definition reaches_universe (env : genv) (t : gty) : Prop :=
  exists toks ts t', toks <> [] /\ trail env t toks ts t' /\ NoDup ts /\ universe_type env t'.

(** Field names in a struct differ. *)
Fixpoint fields_distinct (t : gty) : Prop :=
  match t with
  | TPtr e | TSlice e | TArray _ e | TChan _ e => fields_distinct e
  | TMap k e => fields_distinct k /\ fields_distinct e
  | TStruct fs => NoDup (map (fun x => f_name (fst x)) fs) /\ (fix all l := match l with [] => True | x :: r => fields_distinct (snd x) /\ all r end) fs
  | _ => True
  end.
(** What can be declared: names of types and of scanned objects, each naming one type. *)
Definition root (env : genv) (os : list gobj) (pk name : string) (t : gty) : Prop :=
  declared env t pk name \/ exists o, In o os /\ o_pkg o = Some pk /\ o_name o = name /\ o_type o = t.
Definition names_unique (env : genv) (os : list gobj) : Prop :=
  forall pk name t1 t2, root env os pk name t1 -> root env os pk name t2 -> under env t1 = under env t2.
(** Collecting the objects one after the other. *)
Fixpoint collect_all (env : genv) (fuel : nat) (os : list gobj) (m : pmap) : res pmap :=
  match os with [] => Ok m | o :: r => do m1 <- collect_types env fuel o m ; collect_all env fuel r m1 end.
(** The objects a package scan collects: those that the pointers into this package start at. *)
Fixpoint objects_of (pkg : string) (scope : string -> option gobj) (ptrs : list ptr) : list gobj :=
  match ptrs with
  | [] => []
  | p :: r =>
      (if String.eqb (u_scheme (p_url p)) "go" && String.eqb pkg (pkg_path p) then
         match p_frag p with h :: _ => match scope h with Some o => [o] | None => [] end | [] => [] end
       else []) ++ objects_of pkg scope r
  end.
