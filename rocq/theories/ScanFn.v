(** oapi.go: the resolution function Scan hands to the resolver.  No proofs. *)
From Coq Require Import String Ascii List Bool.
From Verif Require Import GoStr Json Url Pointer.
Local Open Scope string_scope.

(** oapi.go:183-194 (the closure inside Scan).  [override] is the map given by
    WithOverride (oapi.go:90-95), each schema represented by the JSON it marshals
    to; [go_types p] is tps.Resolve (oapi.go:189). *)
Definition scan_fn (override : list (string * json)) (go_types : ptr -> res json) (p : ptr) : res json :=
  match oget (ptr_string p) override with
  | Some schema => Ok schema
  | None => if String.eqb (u_scheme (p_url p)) "go" then go_types p else Err
  end.
