(** Vocabulary for stating what Resolve does, in terms of document locations. *)
From Coq Require Import String Ascii List Bool Arith ZArith.
From Verif Require Import GoStr Json Spec_Loc Url Pointer.
Import ListNotations.
Local Open Scope string_scope.
Local Open Scope list_scope.

(** The object at location q of document j holds an external reference: its
    "$ref" member is a text that parses to a pointer with a URL scheme. *)
Definition ext_ref (j : json) (q : loc) (text : string) (p : ptr) : Prop :=
  lookup (q ++ [SKey "$ref"]) j = Some (JStr text) /\ ptr_parse text = Ok p /\ is_external p = true.

Definition no_ext (j : json) : Prop := forall q text p, ~ ext_ref j q text p.

(** A document whose locations can be written as dot paths, canonical, and
    which is not itself one external reference. *)
Definition tidy (j : json) : Prop :=
  wf j /\ keys_ok plain j /\ forall text p, ~ ext_ref j [] text p.

(** Every resolved entity is such a document. *)
Definition tidy_fn (fn : ptr -> res json) : Prop := forall p x, fn p = Ok x -> tidy x.

(** Some object key of j whose last dot-separated part is "$ref" holds a text
    that denotes the external pointer p.  (For keys without dots: the key is "$ref".) *)
Definition mentions (j : json) (p : ptr) : Prop :=
  exists q k text, lookup (q ++ [SKey k]) j = Some (JStr text) /\
    (k = "$ref" \/ exists k', k = k' +++ ".$ref") /\
    ptr_parse text = Ok p /\ is_external p = true.

(** Where an exported entity belongs: components / section / name. *)
Definition comp_loc (section name : string) : loc := [SKey "components"; SKey section; SKey name].

(** Names that a dot path and a fragment carry unchanged and that no array index
    can be confused with. *)
Definition good_name (n : string) : Prop :=
  plain n /\ has_char "/" n = false /\ atoi n = None /\ n <> "-".

(** The document holds, somewhere, a "$ref" member with this text. *)
Definition has_ref (j : json) (text : string) : Prop :=
  exists q, lookup (q ++ [SKey "$ref"]) j = Some (JStr text).

(** Text of a reference into the same document. *)
Definition local_text (section name : string) : string := "#/components/" +++ section +++ "/" +++ name.

(** *** Resolution as substitution *)

(** Which external pointer an object refers to; fails when its "$ref" text is
    not a pointer. *)
Definition target (m : list (string * json)) : res (option ptr) :=
  match oget "$ref" m with
  | Some (JStr t) => do p <- ptr_parse t ; Ok (if is_external p then Some p else None)
  | _ => Ok None
  end.

(** Replace every object referring to an external pointer p by [f p]. *)
Fixpoint fill (f : ptr -> res json) (j : json) : res json :=
  match j with
  | JArr l =>
      do l' <- (fix go (l : list json) : res (list json) :=
                  match l with
                  | [] => Ok []
                  | x :: r => do x' <- fill f x ; do r' <- go r ; Ok (x' :: r')
                  end) l ;
      Ok (JArr l')
  | JObj m =>
      do o <- target m ;
      match o with
      | Some p => f p
      | None =>
          do m' <- (fix go (m : list (string * json)) : res (list (string * json)) :=
                      match m with
                      | [] => Ok []
                      | (k, x) :: r => do x' <- fill f x ; do r' <- go r ; Ok ((k, x') :: r')
                      end) m ;
          Ok (JObj m')
      end
  | _ => Ok j
  end.

(** Recursive expansion along the pointers [pp] already being expanded. *)
Fixpoint expand (n : nat) (fn : ptr -> res json) (clone : json -> res json) (pp : list ptr) (j : json) : res json :=
  match n with
  | O => OutOfFuel
  | S n' =>
      fill (fun p => if existsb (fun x => String.eqb (ptr_string x) (ptr_string p)) pp then Ok (JObj [])
                     else do x <- fn p ; do y <- clone x ; expand n' fn clone (pp ++ [p]) y) j
  end.

(** An object holding an external reference has no other reference inside. *)
Definition lonely (j : json) : Prop := forall q q' t p t',
  ext_ref j q t p -> lookup (q ++ q' ++ [SKey "$ref"]) j = Some (JStr t') -> q' = [].

(** *** The same with exported entities *)

(** As [fill], where the replacement may depend on the referring object. *)
Fixpoint fillx (f : list (string * json) -> ptr -> res json) (j : json) : res json :=
  match j with
  | JArr l =>
      do l' <- (fix go (l : list json) : res (list json) :=
                  match l with
                  | [] => Ok []
                  | x :: r => do x' <- fillx f x ; do r' <- go r ; Ok (x' :: r')
                  end) l ;
      Ok (JArr l')
  | JObj m =>
      do o <- target m ;
      match o with
      | Some p => f m p
      | None =>
          do m' <- (fix go (m : list (string * json)) : res (list (string * json)) :=
                      match m with
                      | [] => Ok []
                      | (k, x) :: r => do x' <- fillx f x ; do r' <- go r ; Ok ((k, x') :: r')
                      end) m ;
          Ok (JObj m')
      end
  | _ => Ok j
  end.

(** [exported p] is the section and the name under which p is exported.  A
    referring object whose pointer is exported keeps its other members and now
    refers to the component, unless it closes a cycle through an export that
    is no schema; a referring object whose pointer is not exported is replaced
    by the expansion of the entity, or by the empty object if it closes a cycle. *)
Fixpoint expandx (n : nat) (exported : ptr -> option (string * string)) (fn : ptr -> res json) (clone : json -> res json)
    (pp : list ptr) (j : json) : res json :=
  match n with
  | O => OutOfFuel
  | S n' =>
      fillx (fun m p =>
               let again := existsb (fun x => String.eqb (ptr_string x) (ptr_string p)) pp in
               match exported p with
               | Some (section, name) =>
                   if again
                   then Ok (if String.eqb section "schemas" then JObj (oset "$ref" (JStr (local_text section name)) m) else JObj [])
                   else do x <- fn p ; do y <- clone x ; do z <- expandx n' exported fn clone (pp ++ [p]) y ;
                        Ok (JObj (oset "$ref" (JStr (local_text section name)) m))
               | None =>
                   if again then Ok (JObj [])
                   else do x <- fn p ; do y <- clone x ; expandx n' exported fn clone (pp ++ [p]) y
               end) j
  end.

(** [chain doc fn pp j]: from the document, the pointers pp lead one after the
    other to j, no pointer twice. *)
Inductive chain (doc : json) (fn : ptr -> res json) : list ptr -> json -> Prop :=
| chain_doc : chain doc fn [] doc
| chain_ref pp j q text p x : chain doc fn pp j -> ext_ref j q text p ->
    ~ In (ptr_string p) (map ptr_string pp) -> fn p = Ok x -> chain doc fn (pp ++ [p]) x.
