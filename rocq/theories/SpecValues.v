(** internal/oapi/spec: xml.go, header_util.go, request_body_util.go, the
    constructors of response_util.go, components.go and paths.go, on the struct
    values of Shape.v.  No proofs in this file. *)
From Coq Require Import String List Bool.
From Verif Require Import GoStr Json Shape.
Import ListNotations.
Local Open Scope string_scope.
Local Open Scope list_scope.

(** A composite literal: a struct with these values of its fields (by JSON name). *)
Definition given_by (t : ty) (fs : string -> gval) : gval := GStruct t (map (fun f => (f_name f, fs (f_name f))) (fields t)).
(** Assignment to the field of that JSON name. *)
Definition set_member (k : string) (v : gval) (g : gval) : gval :=
  match g with
  | GStruct t l => GStruct t (map (fun e => if String.eqb (fst e) k then (k, v) else e) l)
  | _ => g
  end.

(** ** XML *)
(** xml.go:33-72. *)
Inductive xcall := XName (s : string) | XNamespace (s : string) | XPrefix (s : string) | XAttribute | XElement | XWrapped | XUnwrapped.
Definition xstep (x : gval) (c : xcall) : gval :=
  match c with
  | XName s => set_member "name" (GText s) x
  | XNamespace s => set_member "namespace" (GText s) x
  | XPrefix s => set_member "prefix" (GText s) x
  | XAttribute => set_member "attribute" (GBool true) x
  | XElement => set_member "attribute" (GBool false) x
  | XWrapped => set_member "wrapped" (GBool true) x
  | XUnwrapped => set_member "wrapped" (GBool false) x
  end.

(** ** Headers *)
(** header_util.go:4-25. *)
Inductive hcall := HDescription (s : string) | HAllowsEmptyValues | HNoEmptyValues | HAsOptional.
Definition hstep (h : gval) (c : hcall) : gval :=
  match c with
  | HDescription s => set_member "description" (GText s) h
  | HAllowsEmptyValues => set_member "allowEmptyValue" (GBool true) h
  | HNoEmptyValues => set_member "allowEmptyValue" (GBool false) h
  | HAsOptional => set_member "required" (GBool false) h
  end.

(** ** Request bodies and responses *)
Definition media_type (schema : gval) : gval := set_member "schema" schema (zero_struct TMediaType).
(** request_body_util.go:45-53 NewRequestBody. *)
Definition new_request_body (typ : string) (schema : gval) : gval :=
  set_member "content" (GMap [(typ, media_type schema)]) (zero_struct TRequestBody).
(** response_util.go:34-42 NewResponse. *)
Definition new_response_value (typ : string) (schema : gval) : gval :=
  set_member "content" (GMap [(typ, media_type schema)]) (zero_struct TResponse).
(** request_body_util.go:5-12. *)
Definition mime_json := "application/json".
Definition mime_xml := "application/xml".
Definition mime_text := "text/plain".
Definition mime_octets := "application/octet-stream".
Definition mime_urlencoded := "application/x-www-form-urlencoded".
Definition mime_form := "multipart/form-data".
Inductive media := MJSON | MXML | MTextPlain | MOctetStream | MURLEncoded | MFormData.
(** request_body_util.go:15-42; response_util.go:4-31. *)
Definition mime (k : media) : string :=
  match k with
  | MJSON => mime_json | MXML => mime_xml | MTextPlain => mime_text
  | MOctetStream => mime_octets | MURLEncoded => mime_urlencoded | MFormData => mime_form
  end.
Definition request_body (k : media) (schema : gval) : gval := new_request_body (mime k) schema.
Definition response_value (k : media) (schema : gval) : gval := new_response_value (mime k) schema.

(** ** Components *)
(** components.go:36-48 NewComponents: every map is made, none is nil. *)
Definition new_components : gval :=
  GStruct TComponents
    [("schemas", GMap []); ("responses", GMap []); ("parameters", GMap []); ("examples", GMap []); ("requestBodies", GMap []);
     ("headers", GMap []); ("securitySchemes", GMap []); ("links", GMap []); ("callbacks", GMap [])].

(** ** Path items *)
(** paths.go:57-67 Operations. *)
Definition operations (p : gval) : list gval :=
  filter (fun o => match o with GNil => false | _ => true end)
    [member p "get"; member p "put"; member p "post"; member p "delete"; member p "options"; member p "head"; member p "patch"; member p "trace"].
