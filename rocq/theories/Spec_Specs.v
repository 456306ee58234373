(** Rewriting the references of a document. *)
From Coq Require Import String Ascii List Bool Arith.
From Verif Require Import GoStr Json Gabs Container Spec_Loc Url Pointer.
Import ListNotations.
Local Open Scope string_scope.
Local Open Scope list_scope.

(** Replace the text of every "$ref" member by f of it; nothing else changes. *)
Fixpoint map_refs (f : string -> string) (j : json) : json :=
  match j with
  | JArr l => JArr (map (map_refs f) l)
  | JObj m => JObj ((fix go (m : list (string * json)) : list (string * json) :=
                       match m with
                       | [] => []
                       | (k, v) :: r =>
                           (k, match v with
                               | JStr t => if String.eqb k "$ref" then JStr (f t) else v
                               | _ => map_refs f v
                               end) :: go r
                       end) m)
  | _ => j
  end.

(** [t'] is what the reference text t becomes in a file of package pkg: a go
    reference without a package gets this package's, any other keeps its pointer. *)
Definition made_absolute (pkg t t' : string) : Prop :=
  exists p, ptr_parse t = Ok p /\
    ((u_scheme (p_url p) = "go" /\ pkg_path p = "" /\ t' = "go://" +++ pkg +++ "#" +++ frag_string (p_frag p)) \/
     (~ (u_scheme (p_url p) = "go" /\ pkg_path p = "") /\ t' = ptr_string p)).

(** A specification document: an object with an "openapi" member. *)
Definition is_spec_doc (c : option json) : Prop := exists m v, c = Some (JObj m) /\ oget "openapi" m = Some v.

(** Every specification file is a document with plain keys. *)
Definition good_file (f : file) : Prop := is_spec_doc (f_cont f) -> wf (c_data (f_cont f)) /\ keys_ok plain (c_data (f_cont f)).
(** The file with its references rewritten by g. *)
Definition rewritten (g : string -> string) (f : file) : file := {| f_path := f_path f; f_cont := Some (map_refs g (c_data (f_cont f))) |}.
(** One of the specification files has the reference text t. *)
Definition file_ref (ff : list file) (t : string) : Prop :=
  exists f doc q, In f ff /\ is_spec_doc (f_cont f) /\ f_cont f = Some doc /\ lookup (q ++ [SKey "$ref"]) doc = Some (JStr t).
