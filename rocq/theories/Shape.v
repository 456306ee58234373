(** internal/oapi/spec/*.go and internal/oapi/config/config.go: the struct types
    and what encoding/json reads into them and writes from them.  Values are
    decoded from, and encoded to, JSON values rather than texts (JSON texts:
    JsonText.v, AnyJson.v).  No proofs in this file. *)
From Coq Require Import String Ascii List Bool Arith ZArith.
From Verif Require Import GoStr Json Gabs Container Url Pointer SchemaJson.
Import ListNotations.
Local Open Scope string_scope.
Local Open Scope nat_scope.
Local Open Scope list_scope.

(** ** Types *)
Inductive ty :=
| TOpenAPI | TInfo | TContact | TLicense | TServer | TServerVariable | TComponents | TPathItem | TOperation | TExternalDocs
| TParameter | TRequestBody | TMediaType | TEncoding | TResponse | TExample | TLink | THeader | TTag | TSchema
| TDiscriminator | TXML | TSecurityScheme | TOAuthFlows | TOAuthFlow | TConfig.
(** Field types: string (and named string types), bool, pointers to int64 and float64, Any,
    a pointer to pointer.Pointer, a pointer to AnyOrExpressions, a pointer to Callback,
    a pointer to a struct, a struct, a slice, a map with string keys. *)
Inductive shape := SText | SBool | SInt | SFlt | SAny | SRef | SUnion | SCallback | SPtr (t : ty) | SVal (t : ty) | SList (s : shape) | SMap (s : shape).

(** A field: its JSON name, whether it has omitempty, its type. *)
Record field := { f_name : string; f_omit : bool; f_shape : shape }.
Definition fo (n : string) (s : shape) : field := {| f_name := n; f_omit := true; f_shape := s |}.
Definition fw (n : string) (s : shape) : field := {| f_name := n; f_omit := false; f_shape := s |}.

(** refable.go:10-14, embedded in the others. *)
Definition refable : list field := [fo "$ref" SRef].
Definition security_shape : shape := SList (SMap (SList SText)). (* security_requirement.go *)
Definition fields (t : ty) : list field :=
  match t with
  | TOpenAPI => (* openapi.go:4-43 *)
      [fo "openapi" SText; fo "info" (SPtr TInfo); fo "servers" (SList (SPtr TServer)); fo "paths" (SMap (SPtr TPathItem));
       fo "components" (SPtr TComponents); fo "security" security_shape; fo "tags" (SList (SPtr TTag)); fo "externalDocs" (SPtr TExternalDocs)]
  | TInfo => (* info.go:6-29 *)
      [fw "title" SText; fo "description" SText; fo "termsOfService" SText; fo "contact" (SPtr TContact); fo "license" (SPtr TLicense); fw "version" SText]
  | TContact => (* contact.go:4-16 *) [fw "name" SText; fo "url" SText; fo "email" SText]
  | TLicense => (* license.go:4-13 *) [fw "name" SText; fo "url" SText]
  | TServer => (* server.go:4-19 *) [fw "url" SText; fo "description" SText; fo "variables" (SMap (SPtr TServerVariable))]
  | TServerVariable => (* server_variable.go:4-17 *) [fo "enum" (SList SText); fw "default" SText; fo "description" SText]
  | TComponents => (* components.go:5-33 *)
      [fo "schemas" (SMap (SPtr TSchema)); fo "responses" (SMap (SPtr TResponse)); fo "parameters" (SMap (SPtr TParameter)); fo "examples" (SMap (SPtr TExample));
       fo "requestBodies" (SMap (SPtr TRequestBody)); fo "headers" (SMap (SPtr THeader)); fo "securitySchemes" (SMap (SPtr TSecurityScheme));
       fo "links" (SMap (SPtr TLink)); fo "callbacks" (SMap SCallback)]
  | TPathItem => (* paths.go:12-54 *)
      [fo "summary" SText; fo "description" SText; fo "get" (SPtr TOperation); fo "put" (SPtr TOperation); fo "post" (SPtr TOperation); fo "delete" (SPtr TOperation);
       fo "options" (SPtr TOperation); fo "head" (SPtr TOperation); fo "patch" (SPtr TOperation); fo "trace" (SPtr TOperation);
       fo "servers" (SList (SPtr TServer)); fo "parameters" (SList (SPtr TParameter))]
  | TOperation => (* operation.go:4-62 *)
      [fo "tags" (SList SText); fo "summary" SText; fo "description" SText; fo "externalDocs" (SPtr TExternalDocs); fo "operationId" SText;
       fo "parameters" (SList (SPtr TParameter)); fo "requestBody" (SPtr TRequestBody); fo "responses" (SMap (SPtr TResponse)); fo "callbacks" (SMap SCallback);
       fo "deprecated" SBool; fo "security" security_shape; fo "servers" (SList (SPtr TServer))]
  | TExternalDocs => (* external_docs.go:4-14 *) [fw "description" SText; fo "url" SText]
  | TParameter => (* parameter.go:15-93 *)
      refable ++ [fw "name" SText; fw "in" SText; fo "description" SText; fo "required" SBool; fo "deprecated" SBool; fo "allowEmptyValue" SBool;
       fo "style" SText; fw "explode" SBool; fo "allowReserved" SBool; fo "schema" (SPtr TSchema); fo "example" SAny;
       fo "examples" (SMap (SPtr TExample)); fo "content" (SMap (SPtr TMediaType))]
  | TRequestBody => (* request_body.go:4-22 *) refable ++ [fo "description" SText; fw "content" (SMap (SPtr TMediaType)); fo "required" SBool]
  | TMediaType => (* media_type.go:4-22 *)
      [fo "schema" (SPtr TSchema); fo "example" SAny; fo "examples" (SMap (SPtr TExample)); fo "encoding" (SMap (SPtr TEncoding))]
  | TEncoding => (* encoding.go:4-34 *)
      [fw "contentType" SText; fo "headers" (SMap (SPtr THeader)); fo "style" SText; fo "explode" SBool; fo "allowReserved" SBool]
  | TResponse => (* response.go:4-26 *)
      refable ++ [fo "description" SText; fo "headers" (SMap (SPtr THeader)); fw "content" (SMap (SPtr TMediaType)); fo "links" (SMap (SPtr TLink))]
  | TExample => (* example.go:3-22 *) refable ++ [fo "summary" SText; fo "description" SText; fw "value" SAny; fo "externalValue" SText]
  | TLink => (* link.go:7-33 *)
      refable ++ [fo "operationRef" SText; fo "operationId" SText; fo "parameters" (SMap SUnion); fo "requestBody" SUnion; fo "description" SText; fo "server" (SPtr TServer)]
  | THeader => (* header.go:7-71 *)
      refable ++ [fo "description" SText; fo "required" SBool; fo "deprecated" SBool; fo "allowEmptyValue" SBool; fo "style" SText; fw "explode" SBool;
       fo "allowReserved" SBool; fo "schema" (SPtr TSchema); fo "example" SAny; fo "examples" (SMap (SPtr TExample)); fo "content" (SMap (SPtr TMediaType))]
  | TTag => (* tag.go:5-17 *) [fw "name" SText; fo "description" SText; fo "externalDocs" (SPtr TExternalDocs)]
  | TSchema => (* schema.go:8-122 *)
      refable ++ [fo "nullable" SBool; fo "discriminator" (SPtr TDiscriminator); fo "readOnly" SBool; fo "writeOnly" SBool; fo "xml" (SPtr TXML);
       fo "externalDocs" (SPtr TExternalDocs); fo "example" SAny; fo "deprecated" SBool; fo "title" SText; fo "multipleOf" SFlt; fo "maximum" SFlt;
       fo "exclusiveMaximum" SBool; fo "minimum" SFlt; fo "exclusiveMinimum" SBool; fo "maxLength" SInt; fo "minLength" SInt; fo "pattern" SText;
       fo "maxItems" SInt; fo "minItems" SInt; fo "uniqueItems" SBool; fo "maxProperties" SInt; fo "minProperties" SInt; fo "required" (SList SText);
       fo "enum" (SList SAny); fo "type" SText; fo "allOf" (SList (SPtr TSchema)); fo "oneOf" (SList (SPtr TSchema)); fo "anyOf" (SList (SPtr TSchema));
       fo "not" (SPtr TSchema); fo "items" (SPtr TSchema); fo "properties" (SMap (SPtr TSchema)); fo "additionalProperties" (SPtr TSchema);
       fo "description" SText; fo "format" SText; fo "default" SAny]
  | TDiscriminator => (* discriminator.go:6-14 *) [fw "propertyName" SText; fo "mapping" (SMap SText)]
  | TXML => (* xml.go:6-30 *) [fw "name" SText; fo "namespace" SText; fo "prefix" SText; fo "attribute" SBool; fo "wrapped" SBool]
  | TSecurityScheme => (* security_scheme.go:4-41 *)
      refable ++ [fw "type" SText; fo "description" SText; fo "name" SText; fo "in" SText; fo "scheme" SText; fo "bearerFormat" SText;
       fo "flows" (SPtr TOAuthFlows); fo "openIdConnectUrl" SText]
  | TOAuthFlows => (* oauth_flows.go:4-19 *)
      [fo "implicit" (SPtr TOAuthFlow); fo "password" (SPtr TOAuthFlow); fo "clientCredentials" (SPtr TOAuthFlow); fo "authorizationCode" (SPtr TOAuthFlow)]
  | TOAuthFlow => (* oauth_flow.go:4-27 *) [fo "authorizationUrl" SText; fo "tokenUrl" SText; fo "refreshUrl" SText; fo "acopes" (SMap SText)]
  | TConfig => (* config.go:11-67; FilePath has the name -, so no JSON name *)
      [fw "extends" SText; fw "version" SText; fw "openapi" SText; fw "format" SText; fw "dir" SText; fw "output" SText; fw "exclude" (SList SText);
       fw "info" (SPtr TInfo); fw "servers" (SList (SPtr TServer)); fw "security" security_shape; fo "tags" (SList (SPtr TTag));
       fw "externalDocs" (SPtr TExternalDocs); fo "components" (SPtr TComponents); fw "overrides" (SMap (SVal TSchema)); fw "operations" (SMap (SVal TOperation))]
  end.
(** encoding/json: a member goes to the field of its name, or else to the first
    field whose name is equal up to letter case (here ASCII). *)
Definition field_of (t : ty) (k : string) : option field :=
  match find (fun f => String.eqb (f_name f) k) (fields t) with
  | Some f => Some f
  | None => find (fun f => equal_fold (f_name f) k) (fields t)
  end.

(** ** Values *)
(** GNil is any nil pointer, map or slice; GInt, GFlt, GRef and GStruct also stand for
    pointers to such.  A raw value is given by the JSON value it is the text of. *)
Inductive gval :=
| GNil | GText (s : string) | GBool (b : bool) | GInt (z : Z) | GFlt (n : num) | GAny (j : json) | GRef (p : ptr)
| GUnion (e : string) (a : option json) | GCallRef (p : ptr) | GCallMap (m : list (string * gval)) | GList (l : list gval) | GMap (m : list (string * gval))
| GStruct (t : ty) (l : list (string * gval)).
(** Zero values of fields (no field is a struct itself). *)
Definition zero_of (s : shape) : gval := match s with SText => GText "" | SBool => GBool false | _ => GNil end.
Definition zero_struct (t : ty) : gval := GStruct t (map (fun f => (f_name f, zero_of (f_shape f))) (fields t)).
(** The last of several entries for a field. *)
Fixpoint last_for (t : ty) (k : string) (vs : list (string * gval)) (d : gval) : gval :=
  match vs with
  | [] => d
  | (k', v) :: r => last_for t k r (match field_of t k' with Some f => if String.eqb (f_name f) k then v else d | None => d end)
  end.
Definition assemble (t : ty) (vs : list (string * gval)) : gval :=
  GStruct t (map (fun f => (f_name f, last_for t (f_name f) vs (zero_of (f_shape f)))) (fields t)).

Section Codec.
  (** [raw]: the text a JSON value other than a string is written as (a pointer
      is parsed from it); [big z]: the integer whose digits are written for the
      float64 z beyond 2^53, None if it is no int64. *)
  Context (raw : json -> string) (big : Z -> option Z).

  (** Decoding a number into an int64: the text must be an integer in range. *)
  Definition int_of (n : num) : option Z :=
    let ranged z := if (- 2 ^ 63 <=? z)%Z && (z <? 2 ^ 63)%Z then Some z else None in
    match n with
    | NInt z => ranged z
    | NFlt m e => if (0 <=? e)%Z then let z := (m * 2 ^ e)%Z in if (Z.abs z <=? 2 ^ 53)%Z then Some z else big z else None
    | NBad => None
    end.
  (** pointer.go:70-84 UnmarshalJSON (C81: on JSON strings it parses the string). *)
  Definition ref_of (j : json) : res ptr := ptr_parse (match j with JStr s => s | _ => raw j end).
  Definition is_ref_key (k : string) : bool := equal_fold "$ref" k.

  (** encoding/json decoding into a zero value of the type.  Any error is Err.
      Where an object has a member twice (up to letter case) the last one counts;
      encoding/json would decode it into what the first left. *)
  Fixpoint decode (j : json) (sh : shape) {struct j} : res gval :=
    match sh, j with
    | SAny, _ => Ok (GAny j)                                   (* any.go:28-34: also null *)
    | SText, JNull => Ok (GText "") | SText, JStr s => Ok (GText s)
    | SBool, JNull => Ok (GBool false) | SBool, JBool b => Ok (GBool b)
    | SVal t, JNull => Ok (zero_struct t)
    | _, JNull => Ok GNil
    | SInt, JNum n => match int_of n with Some z => Ok (GInt z) | None => Err end
    | SFlt, JNum NBad => Err | SFlt, JNum (NInt z) => Ok (GFlt (to_float z)) | SFlt, JNum n => Ok (GFlt n)
    | SRef, _ => do p <- ref_of j ; Ok (GRef p)
    | SUnion, JStr s => Ok (GUnion s None)                     (* any_or_expressions.go:23-34 *)
    | SUnion, _ => Ok (GUnion "" (Some j))
    | SList s, JArr l =>
        do vs <- (fix go (l : list json) : res (list gval) :=
                    match l with [] => Ok [] | x :: r => do v <- decode x s ; do vs <- go r ; Ok (v :: vs) end) l ;
        Ok (GList vs)
    | _, JObj m =>
        let each (of : string -> option shape) : res (list (string * gval)) :=
          (fix go (m : list (string * json)) : res (list (string * gval)) :=
             match m with
             | [] => Ok []
             | (k, x) :: r => match of k with Some s => do v <- decode x s ; do vs <- go r ; Ok ((k, v) :: vs) | None => go r end
             end) m in
        match sh with
        | SMap s => do vs <- each (fun _ => Some s) ; Ok (GMap vs)
        | SPtr t | SVal t => do vs <- each (fun k => option_map f_shape (field_of t k)) ; Ok (assemble t vs)
        | SCallback =>                                         (* callback.go:23-39 *)
            do rs <- each (fun k => if is_ref_key k then Some SRef else None) ;
            match last (map snd rs) GNil with
            | GRef p => Ok (GCallRef p)
            | _ => do vs <- each (fun _ => Some (SPtr TPathItem)) ; Ok (GCallMap vs)
            end
        | _ => Err
        end
    | _, _ => Err
    end.

  (** omitempty: false, "", nil, and empty slices and maps. *)
  Definition is_empty (v : gval) : bool :=
    match v with GNil | GText EmptyString | GBool false | GList [] | GMap [] => true | _ => false end.
  Definition omitted (t : ty) (k : string) (v : gval) : bool :=
    match find (fun f => String.eqb (f_name f) k) (fields t) with Some f => f_omit f && is_empty v | None => true end.
  (** json.Marshal, and what json.Unmarshal makes of the text (integers as float64). *)
  Fixpoint encode (v : gval) : res json :=
    match v with
    | GNil => Ok JNull
    | GText s => Ok (JStr s)
    | GBool b => Ok (JBool b)
    | GInt z => Ok (JNum (to_float z))
    | GFlt NBad => Err
    | GFlt n => Ok (JNum n)
    | GAny j => Ok j                                           (* any.go:20-25 *)
    | GRef p => marshal_ptr p
    | GUnion e a => Ok (if String.eqb e "" then match a with Some j => j | None => JNull end else JStr e)
    | GCallRef p => do j <- marshal_ptr p ; Ok (JObj [("$ref", j)])      (* callback.go:15-20 *)
    | GList l =>
        do js <- (fix go (l : list gval) : res (list json) := match l with [] => Ok [] | x :: r => do j <- encode x ; do js <- go r ; Ok (j :: js) end) l ;
        Ok (JArr js)
    | GMap m | GCallMap m =>
        do js <- (fix go (l : list (string * gval)) : res (list (string * json)) :=
                    match l with [] => Ok [] | (k, x) :: r => do j <- encode x ; do js <- go r ; Ok ((k, j) :: js) end) m ;
        Ok (JObj (obj_of js))
    | GStruct t l =>
        do js <- (fix go (l : list (string * gval)) : res (list (string * json)) :=
                    match l with
                    | [] => Ok []
                    | (k, x) :: r => if omitted t k x then go r else do j <- encode x ; do js <- go r ; Ok ((k, j) :: js)
                    end) l ;
        Ok (JObj (obj_of js))
    end.

  (** ** The configuration (config.go:11-67) and what cmd/oapi/scan.go:12-41 makes of it *)
  Definition member (v : gval) (k : string) : gval :=
    match v with GStruct _ l => match oget k l with Some x => x | None => GNil end | _ => GNil end.
  (** scan.go:30-38: the root document. *)
  Definition root_of (cfg : gval) : gval :=
    GStruct TOpenAPI
      [("openapi", GText ""); ("info", member cfg "info"); ("servers", member cfg "servers"); ("paths", GNil); ("components", member cfg "components");
       ("security", member cfg "security"); ("tags", member cfg "tags"); ("externalDocs", member cfg "externalDocs")].
  (** The entries of a map of structs, as they will be marshalled. *)
  Definition entries (v : gval) : res (list (string * json)) :=
    match v with
    | GMap m => (fix go (l : list (string * gval)) : res (list (string * json)) :=
                   match l with [] => Ok [] | (k, x) :: r => do j <- encode x ; do js <- go r ; Ok ((k, j) :: js) end) m
    | _ => Ok []
    end.
End Codec.
