(** internal/oapi/spec: parameter_util.go, security_scheme_util.go,
    and any.go's decoding in place.  No proofs in this file. *)
From Coq Require Import String Ascii List Bool Arith.
From Verif Require Import GoStr Json JsonText AnyJson Builders.
Import ListNotations.
Local Open Scope string_scope.
Local Open Scope nat_scope.
Local Open Scope list_scope.

(** ** Parameters *)
(** parameter.go:15-91 Parameter: the fields the constructors and methods assign
    ([S]: pointers to schemas); the others stay zero. *)
Record param (S : Type) := { pa_name : string; pa_in : string; pa_desc : string; pa_required : bool; pa_empty : bool; pa_schema : S }.
Arguments pa_name {S}. Arguments pa_in {S}. Arguments pa_desc {S}. Arguments pa_required {S}. Arguments pa_empty {S}. Arguments pa_schema {S}.
Section Param.
  Context {S : Type}.
  Definition param_at (loc name : string) (req : bool) (s : S) : param S :=
    {| pa_name := name; pa_in := loc; pa_desc := ""; pa_required := req; pa_empty := false; pa_schema := s |}.
  (** parameter_util.go:13-48. *)
  Inductive pctor := QueryParam | HeaderParam | PathParam | CookieParam.
  Definition new_param (k : pctor) (name : string) (s : S) : param S :=
    match k with
    | QueryParam => param_at "query" name false s
    | HeaderParam => param_at "header" name false s
    | PathParam => param_at "path" name true s
    | CookieParam => param_at "cookie" name false s
    end.
  (** parameter_util.go:51-89. *)
  Inductive pcall := PDescription (d : string) | PName (n : string) | PSchema (s : S) | PLocation (l : string) | PAllowsEmpty | PNoEmpty | POptional.
  Definition pstep (p : param S) (c : pcall) : param S :=
    match c with
    | PDescription d => {| pa_name := pa_name p; pa_in := pa_in p; pa_desc := d; pa_required := pa_required p; pa_empty := pa_empty p; pa_schema := pa_schema p |}
    | PName n => {| pa_name := n; pa_in := pa_in p; pa_desc := pa_desc p; pa_required := pa_required p; pa_empty := pa_empty p; pa_schema := pa_schema p |}
    | PSchema s => {| pa_name := pa_name p; pa_in := pa_in p; pa_desc := pa_desc p; pa_required := pa_required p; pa_empty := pa_empty p; pa_schema := s |}
    | PLocation l => {| pa_name := pa_name p; pa_in := l; pa_desc := pa_desc p; pa_required := pa_required p; pa_empty := pa_empty p; pa_schema := pa_schema p |}
    | PAllowsEmpty => {| pa_name := pa_name p; pa_in := pa_in p; pa_desc := pa_desc p; pa_required := pa_required p; pa_empty := true; pa_schema := pa_schema p |}
    | PNoEmpty => {| pa_name := pa_name p; pa_in := pa_in p; pa_desc := pa_desc p; pa_required := pa_required p; pa_empty := false; pa_schema := pa_schema p |}
    | POptional => {| pa_name := pa_name p; pa_in := pa_in p; pa_desc := pa_desc p; pa_required := false; pa_empty := pa_empty p; pa_schema := pa_schema p |}
    end.
End Param.
Arguments pcall : clear implicits.

(** ** Security schemes *)
(** oauth_flow.go:4-27, oauth_flows.go:4-17: the flows are pointers, None is nil. *)
Record oflow := { of_auth : string; of_token : string }.
Record oflows := { fl_implicit : option oflow; fl_password : option oflow; fl_client : option oflow; fl_code : option oflow }.
Record sscheme := { ss_type : string; ss_scheme : string; ss_bearer : string; ss_name : string; ss_in : string; ss_flows : option oflows }.
Definition ss_zero : sscheme := {| ss_type := ""; ss_scheme := ""; ss_bearer := ""; ss_name := ""; ss_in := ""; ss_flows := None |}.
Definition flows_zero : oflows := {| fl_implicit := None; fl_password := None; fl_client := None; fl_code := None |}.
(** Assignment through a pointer: a nil one crashes. *)
Definition through {A} (p : option A) (f : A -> A) : res (option A) := match p with Some x => Ok (Some (f x)) | None => Panic end.
Definition set_auth (u : string) (f : oflow) : oflow := {| of_auth := u; of_token := of_token f |}.
Definition set_token (u : string) (f : oflow) : oflow := {| of_auth := of_auth f; of_token := u |}.
Definition oauth_with (fl : oflows) : sscheme :=
  {| ss_type := "oauth2"; ss_scheme := ""; ss_bearer := ""; ss_name := ""; ss_in := ""; ss_flows := Some fl |}.
Inductive sctor :=
| BasicAuth | BearerAuth (fmt : string) | APIKeyAuth (field src : string)
| OAuth2Implicit (auth : string) | OAuth2Password (token : string) | OAuth2AuthorizationCode (token : string) | OAuth2ClientCredentials (auth token : string).
(** security_scheme_util.go:11-71. *)
Definition new_scheme (k : sctor) : res sscheme :=
  match k with
  | BasicAuth => Ok {| ss_type := "http"; ss_scheme := "basic"; ss_bearer := ""; ss_name := ""; ss_in := ""; ss_flows := None |}
  | BearerAuth f => Ok {| ss_type := "http"; ss_scheme := "bearer"; ss_bearer := f; ss_name := ""; ss_in := ""; ss_flows := None |}
  | APIKeyAuth n i => Ok {| ss_type := "apiKey"; ss_scheme := ""; ss_bearer := ""; ss_name := n; ss_in := i; ss_flows := None |}
  | OAuth2Implicit u =>
      do x <- through (fl_implicit flows_zero) (set_auth u) ;
      Ok (oauth_with {| fl_implicit := x; fl_password := fl_password flows_zero; fl_client := fl_client flows_zero; fl_code := fl_code flows_zero |})
  | OAuth2Password t =>
      do x <- through (fl_password flows_zero) (set_token t) ;
      Ok (oauth_with {| fl_implicit := fl_implicit flows_zero; fl_password := x; fl_client := fl_client flows_zero; fl_code := fl_code flows_zero |})
  | OAuth2AuthorizationCode t =>
      do x <- through (fl_code flows_zero) (set_token t) ;
      Ok (oauth_with {| fl_implicit := fl_implicit flows_zero; fl_password := fl_password flows_zero; fl_client := fl_client flows_zero; fl_code := x |})
  | OAuth2ClientCredentials u t =>
      do x <- through (fl_client flows_zero) (set_auth u) ;
      do y <- through x (set_token t) ;
      Ok (oauth_with {| fl_implicit := fl_implicit flows_zero; fl_password := fl_password flows_zero; fl_client := y; fl_code := fl_code flows_zero |})
  end.

(** ** Any as a byte slice *)
(** any.go:28-34 UnmarshalJSON under json.Unmarshal: append to the slice cut to
    length 0, so the bytes go into its array when they fit. *)
Definition cut (s : gsl) : gsl := match s with Some (a, _) => Some (a, 0) | None => None end.
Definition any_bytes (h : list (list ascii)) (s : gsl) : string := string_of_list_ascii (gval h s).
Definition any_decode (spare : list ascii) (h : list (list ascii)) (s : gsl) (text : string) : res (list (list ascii) * gsl) :=
  if valid_json text then Ok (gappend spare h (cut s) (list_ascii_of_string (value_text text))) else Err.
