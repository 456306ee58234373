(** What reading a document into the spec structs and writing it again should keep. *)
From Coq Require Import String Ascii List Bool Arith ZArith.
From Verif Require Import GoStr Json Url Pointer Spec_Clone Spec_Loc Spec_Format Gabs Container Shape.
Import ListNotations.
Local Open Scope string_scope.
Local Open Scope nat_scope.
Local Open Scope list_scope.

(** The member names of each kind of object, and what their values are. *)
Definition known (t : ty) : list (string * shape) :=
  match t with
  | TOpenAPI => [("openapi", SText); ("info", SPtr TInfo); ("servers", SList (SPtr TServer)); ("paths", SMap (SPtr TPathItem)); ("components", SPtr TComponents); ("security", SList (SMap (SList SText))); ("tags", SList (SPtr TTag)); ("externalDocs", SPtr TExternalDocs)]
  | TInfo => [("title", SText); ("description", SText); ("termsOfService", SText); ("contact", SPtr TContact); ("license", SPtr TLicense); ("version", SText)]
  | TContact => [("name", SText); ("url", SText); ("email", SText)]
  | TLicense => [("name", SText); ("url", SText)]
  | TServer => [("url", SText); ("description", SText); ("variables", SMap (SPtr TServerVariable))]
  | TServerVariable => [("enum", SList SText); ("default", SText); ("description", SText)]
  | TComponents => [("schemas", SMap (SPtr TSchema)); ("responses", SMap (SPtr TResponse)); ("parameters", SMap (SPtr TParameter)); ("examples", SMap (SPtr TExample)); ("requestBodies", SMap (SPtr TRequestBody)); ("headers", SMap (SPtr THeader)); ("securitySchemes", SMap (SPtr TSecurityScheme)); ("links", SMap (SPtr TLink)); ("callbacks", SMap SCallback)]
  | TPathItem => [("summary", SText); ("description", SText); ("get", SPtr TOperation); ("put", SPtr TOperation); ("post", SPtr TOperation); ("delete", SPtr TOperation); ("options", SPtr TOperation); ("head", SPtr TOperation); ("patch", SPtr TOperation); ("trace", SPtr TOperation); ("servers", SList (SPtr TServer)); ("parameters", SList (SPtr TParameter))]
  | TOperation => [("tags", SList SText); ("summary", SText); ("description", SText); ("externalDocs", SPtr TExternalDocs); ("operationId", SText); ("parameters", SList (SPtr TParameter)); ("requestBody", SPtr TRequestBody); ("responses", SMap (SPtr TResponse)); ("callbacks", SMap SCallback); ("deprecated", SBool); ("security", SList (SMap (SList SText))); ("servers", SList (SPtr TServer))]
  | TExternalDocs => [("description", SText); ("url", SText)]
  | TParameter => [("$ref", SRef); ("name", SText); ("in", SText); ("description", SText); ("required", SBool); ("deprecated", SBool); ("allowEmptyValue", SBool); ("style", SText); ("explode", SBool); ("allowReserved", SBool); ("schema", SPtr TSchema); ("example", SAny); ("examples", SMap (SPtr TExample)); ("content", SMap (SPtr TMediaType))]
  | TRequestBody => [("$ref", SRef); ("description", SText); ("content", SMap (SPtr TMediaType)); ("required", SBool)]
  | TMediaType => [("schema", SPtr TSchema); ("example", SAny); ("examples", SMap (SPtr TExample)); ("encoding", SMap (SPtr TEncoding))]
  | TEncoding => [("contentType", SText); ("headers", SMap (SPtr THeader)); ("style", SText); ("explode", SBool); ("allowReserved", SBool)]
  | TResponse => [("$ref", SRef); ("description", SText); ("headers", SMap (SPtr THeader)); ("content", SMap (SPtr TMediaType)); ("links", SMap (SPtr TLink))]
  | TExample => [("$ref", SRef); ("summary", SText); ("description", SText); ("value", SAny); ("externalValue", SText)]
  | TLink => [("$ref", SRef); ("operationRef", SText); ("operationId", SText); ("parameters", SMap SUnion); ("requestBody", SUnion); ("description", SText); ("server", SPtr TServer)]
  | THeader => [("$ref", SRef); ("description", SText); ("required", SBool); ("deprecated", SBool); ("allowEmptyValue", SBool); ("style", SText); ("explode", SBool); ("allowReserved", SBool); ("schema", SPtr TSchema); ("example", SAny); ("examples", SMap (SPtr TExample)); ("content", SMap (SPtr TMediaType))]
  | TTag => [("name", SText); ("description", SText); ("externalDocs", SPtr TExternalDocs)]
  | TSchema => [("$ref", SRef); ("nullable", SBool); ("discriminator", SPtr TDiscriminator); ("readOnly", SBool); ("writeOnly", SBool); ("xml", SPtr TXML); ("externalDocs", SPtr TExternalDocs); ("example", SAny); ("deprecated", SBool); ("title", SText); ("multipleOf", SFlt); ("maximum", SFlt); ("exclusiveMaximum", SBool); ("minimum", SFlt); ("exclusiveMinimum", SBool); ("maxLength", SInt); ("minLength", SInt); ("pattern", SText); ("maxItems", SInt); ("minItems", SInt); ("uniqueItems", SBool); ("maxProperties", SInt); ("minProperties", SInt); ("required", SList SText); ("enum", SList SAny); ("type", SText); ("allOf", SList (SPtr TSchema)); ("oneOf", SList (SPtr TSchema)); ("anyOf", SList (SPtr TSchema)); ("not", SPtr TSchema); ("items", SPtr TSchema); ("properties", SMap (SPtr TSchema)); ("additionalProperties", SPtr TSchema); ("description", SText); ("format", SText); ("default", SAny)]
  | TDiscriminator => [("propertyName", SText); ("mapping", SMap SText)]
  | TXML => [("name", SText); ("namespace", SText); ("prefix", SText); ("attribute", SBool); ("wrapped", SBool)]
  | TSecurityScheme => [("$ref", SRef); ("type", SText); ("description", SText); ("name", SText); ("in", SText); ("scheme", SText); ("bearerFormat", SText); ("flows", SPtr TOAuthFlows); ("openIdConnectUrl", SText)]
  | TOAuthFlows => [("implicit", SPtr TOAuthFlow); ("password", SPtr TOAuthFlow); ("clientCredentials", SPtr TOAuthFlow); ("authorizationCode", SPtr TOAuthFlow)]
  | TOAuthFlow => [("authorizationUrl", SText); ("tokenUrl", SText); ("refreshUrl", SText); ("acopes", SMap SText)]
  | TConfig => [("extends", SText); ("version", SText); ("openapi", SText); ("format", SText); ("dir", SText); ("output", SText); ("exclude", SList SText); ("info", SPtr TInfo); ("servers", SList (SPtr TServer)); ("security", SList (SMap (SList SText))); ("tags", SList (SPtr TTag)); ("externalDocs", SPtr TExternalDocs); ("components", SPtr TComponents); ("overrides", SMap (SVal TSchema)); ("operations", SMap (SVal TOperation))]
  end.
(** The members that are always written, with what is written when they are not given. *)
Definition always (t : ty) : list (string * json) :=
  match t with
  | TInfo => [("title", JStr ""); ("version", JStr "")]
  | TContact => [("name", JStr "")]
  | TLicense => [("name", JStr "")]
  | TServer => [("url", JStr "")]
  | TServerVariable => [("default", JStr "")]
  | TExternalDocs => [("description", JStr "")]
  | TParameter => [("name", JStr ""); ("in", JStr ""); ("explode", JBool false)]
  | TRequestBody => [("content", JNull)]
  | TEncoding => [("contentType", JStr "")]
  | TResponse => [("content", JNull)]
  | TExample => [("value", JNull)]
  | THeader => [("explode", JBool false)]
  | TTag => [("name", JStr "")]
  | TDiscriminator => [("propertyName", JStr "")]
  | TXML => [("name", JStr "")]
  | TSecurityScheme => [("type", JStr "")]
  | TConfig => [("extends", JStr ""); ("version", JStr ""); ("openapi", JStr ""); ("format", JStr ""); ("dir", JStr ""); ("output", JStr ""); ("exclude", JNull); ("info", JNull); ("servers", JNull); ("security", JNull); ("externalDocs", JNull); ("overrides", JNull); ("operations", JNull)]
  | _ => []
  end.

(** Equal names, letter case (ASCII) aside. *)
Definition same_name (a b : string) : Prop := to_lower a = to_lower b.

(** Value y of kind s' is found in value j of kind s at location q, every step
    entering a member of the kind's (names in any letter case), an entry of a map,
    an element of a list, or anything in a raw value.  A callback with a reference
    has only that. *)
Definition ref_or_none (m : list (string * json)) : Prop := forall k x, In (k, x) m -> same_name k "$ref" -> x = JNull.
Inductive finds : shape -> json -> loc -> shape -> json -> Prop :=
| f_here s j : finds s j [] s j
| f_ptr t m k k0 s x q s' y : In (k, s) (known t) -> In (k0, x) m -> same_name k0 k -> finds s x q s' y -> finds (SPtr t) (JObj m) (SKey k :: q) s' y
| f_val t m k k0 s x q s' y : In (k, s) (known t) -> In (k0, x) m -> same_name k0 k -> finds s x q s' y -> finds (SVal t) (JObj m) (SKey k :: q) s' y
| f_entry s m k x q s' y : In (k, x) m -> finds s x q s' y -> finds (SMap s) (JObj m) (SKey k :: q) s' y
| f_elem s l i x q s' y : nth_error l i = Some x -> finds s x q s' y -> finds (SList s) (JArr l) (SIdx i :: q) s' y
| f_raw j a q y : lookup (a :: q) j = Some y -> finds SAny j (a :: q) SAny y
| f_union j a q y : lookup (a :: q) j = Some y -> finds SUnion j (a :: q) SAny y
| f_call_ref m k0 x : In (k0, x) m -> same_name k0 "$ref" -> x <> JNull -> finds SCallback (JObj m) [SKey "$ref"] SRef x
| f_call m k x q s' y : ref_or_none m -> In (k, x) m -> finds (SPtr TPathItem) x q s' y -> finds SCallback (JObj m) (SKey k :: q) s' y.

(** No object has a member twice, nor, in two spellings, a member of its kind. *)
Definition names (s : shape) : list string := match s with SPtr t | SVal t => map fst (known t) | SCallback => ["$ref"] | _ => [] end.
Definition single (n : string) (m : list (string * json)) : Prop :=
  forall k k', In k (map fst m) -> In k' (map fst m) -> same_name k n -> same_name k' n -> k = k'.
Definition unambiguous (s : shape) (j : json) : Prop :=
  forall q s' m, finds s j q s' (JObj m) -> NoDup (map fst m) /\ forall n, In n (names s') -> single n m.

(** The same number, as a double. *)
Definition same_number (a b : num) : Prop :=
  (exists z m e, a = NInt z /\ b = NFlt m e /\ nearest_double z m e) \/
  exists m e m' e', a = NFlt m e /\ b = NFlt m' e' /\ (0 <= e)%Z /\ (0 <= e')%Z /\ (m * 2 ^ e = m' * 2 ^ e')%Z.
(** y is written for x, as far as its outermost layer goes. *)
Definition shows (s : shape) (x y : json) : Prop :=
  match s, x with
  | SAny, _ => y = x
  | SText, JNull => y = JStr "" | SBool, JNull => y = JBool false
  | SVal _, JNull => exists m, y = JObj m
  | _, JNull => y = JNull
  | SText, JStr _ | SBool, JBool _ => y = x
  | SFlt, JNum (NInt z) => exists m e, y = JNum (NFlt m e) /\ nearest_double z m e
  | SFlt, JNum _ => y = x
  | SInt, JNum n => exists n', y = JNum n' /\ same_number n n'
  | SRef, JStr t => exists p, ptr_parse t = Ok p /\ plain_key (ptr_string p) /\ y = JStr (ptr_string p)
  | SRef, _ => exists p, y = JStr (ptr_string p)
  | SUnion, JStr t => y = if String.eqb t "" then JNull else x
  | SUnion, _ => y = x
  | SList _, JArr l => exists l', y = JArr l' /\ length l' = length l
  | SMap _, JObj m => exists m', y = JObj m' /\ forall k, In k (map fst m') <-> In k (map fst m)
  | SPtr _, JObj _ | SVal _, JObj _ | SCallback, JObj _ => exists m', y = JObj m'
  | _, _ => False
  end.
(** A value that omitempty does not drop. *)
Definition says (s : shape) (x : json) : Prop :=
  match s with
  | SAny => True
  | SText => x <> JNull /\ x <> JStr ""
  | SBool => x <> JNull /\ x <> JBool false
  | SList _ => x <> JNull /\ x <> JArr []
  | SMap _ => x <> JNull /\ x <> JObj []
  | _ => x <> JNull
  end.

(** The documents that can be read: each value is null or of its kind. *)
Inductive fits (raw : json -> string) (whole : num -> Prop) : shape -> json -> Prop :=
| t_raw j : fits raw whole SAny j
| t_null s : fits raw whole s JNull
| t_text x : fits raw whole SText (JStr x)
| t_bool b : fits raw whole SBool (JBool b)
| t_int n : whole n -> fits raw whole SInt (JNum n)
| t_flt n : n <> NBad -> fits raw whole SFlt (JNum n)
| t_ref t p : ptr_parse t = Ok p -> fits raw whole SRef (JStr t)
| t_ref_raw j p : (forall t, j <> JStr t) -> ptr_parse (raw j) = Ok p -> fits raw whole SRef j
| t_union j : fits raw whole SUnion j
| t_list s l : (forall x, In x l -> fits raw whole s x) -> fits raw whole (SList s) (JArr l)
| t_map s m : (forall k x, In (k, x) m -> fits raw whole s x) -> fits raw whole (SMap s) (JObj m)
| t_ptr t m : (forall k0 x k s, In (k0, x) m -> In (k, s) (known t) -> same_name k0 k -> fits raw whole s x) -> fits raw whole (SPtr t) (JObj m)
| t_val t m : (forall k0 x k s, In (k0, x) m -> In (k, s) (known t) -> same_name k0 k -> fits raw whole s x) -> fits raw whole (SVal t) (JObj m)
| t_call_ref m k0 x : In (k0, x) m -> same_name k0 "$ref" -> x <> JNull -> fits raw whole SRef x -> fits raw whole SCallback (JObj m)
| t_call m : ref_or_none m -> (forall k x, In (k, x) m -> fits raw whole (SPtr TPathItem) x) -> fits raw whole SCallback (JObj m).

(** A member that is always written, of an object without it. *)
Definition added (s : shape) (j : json) (q : loc) (y : json) : Prop :=
  exists q0 t k x, q = q0 ++ [SKey k] /\ In (k, y) (always t) /\ (finds s j q0 (SPtr t) x \/ finds s j q0 (SVal t) x) /\
    (x = JNull \/ exists m, x = JObj m /\ forall k0 z, In (k0, z) m -> ~ same_name k0 k).

(** Doubles beyond 2^53 are written with digits that read back to the same double;
    [big z] is the int64 these digits give, if they give one. *)
Definition reads_back (big : Z -> option Z) : Prop := forall z z', big z = Some z' -> exists m e, to_float z' = NFlt m e /\ (0 <= e)%Z /\ (m * 2 ^ e = z)%Z.
(** The numbers that are read into an int64. *)
Definition int64_number (big : Z -> option Z) (n : num) : Prop :=
  match n with
  | NInt z => (- 2 ^ 63 <= z < 2 ^ 63)%Z
  | NFlt m e => (0 <= e)%Z /\ ((Z.abs (m * 2 ^ e) <= 2 ^ 53)%Z \/ exists z, big (m * 2 ^ e)%Z = Some z)
  | NBad => False
  end.
(** Every reference is a URL that can be written as JSON. *)
Definition writable (raw : json -> string) (s : shape) (j : json) : Prop :=
  forall q x p, finds s j q SRef x -> x <> JNull -> ptr_parse (match x with JStr t => t | _ => raw x end) = Ok p -> plain_key (ptr_string p).
