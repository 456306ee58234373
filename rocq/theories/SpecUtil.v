(** internal/oapi/spec: server_util.go, response_util.go, request_body_util.go,
    parameter_util.go, security_scheme_util.go, paths.go Operations; and
    internal/logging ParseLevel.  No proofs in this file. *)
From Coq Require Import String Ascii List Bool Arith.
From Verif Require Import GoStr Json Url Slices.
Import ListNotations.
Local Open Scope string_scope.
Local Open Scope nat_scope.
Local Open Scope list_scope.

(** ** Servers *)
(** server_util.go:73-78: the loop over a sorted slice, [prev] being a[i-1]. *)
Fixpoint drop_repeats (prev : string) (l : list string) : list string :=
  match l with
  | [] => []
  | x :: r => if String.eqb prev x then drop_repeats x r else x :: drop_repeats x r
  end.
(** server_util.go:67-80 removeDuplicates; [srt] is sort.Strings. *)
Definition remove_duplicates (srt : list string -> list string) (a : list string) : list string :=
  if length a <=? 1 then a
  else match srt a with
       | [] => []
       | x :: r => x :: drop_repeats x r
       end.

(** server_variable.go:4-17 and server.go:4-19 (Description is never set here). *)
Record server_var := { v_enum : list string; v_default : string }.
Record server := { sv_url : string; sv_vars : list (string * server_var) }.

(** net/url URL.Port (Go 1.15 splitHostPort). *)
Definition port_of (h : string) : string :=
  match after_last_colon h with
  | Some p => if all_digits p then p else ""
  | None => ""
  end.

(** server_util.go:23-40: the loop over the parsed URLs. *)
Fixpoint gather (uris hosts ports paths : list string) : res (list string * list string * list string) :=
  match uris with
  | [] => Ok (hosts, ports, paths)
  | v :: r =>
      match url_parse v with
      | None => Err
      | Some u =>
          let host := hostname (u_host u) in
          let port := port_of (u_host u) in
          gather r (if String.eqb host "" then hosts else hosts ++ [host])
                   (if String.eqb port "" then ports else ports ++ [":" +++ port])
                   (if String.eqb (u_path u) "" then paths else paths ++ [u_path u])
      end
  end.

(** server_util.go:11-64 after removeDuplicates of the URLs.  hosts[0], ports[0],
    paths[0] exist: the slices start non-empty; [nth 0] is that access. *)
Definition servers_of (srt : list string -> list string) (uris : list string) : res (list server) :=
  do (hp, paths0) <- gather uris ["localhost"] [""] ["/"] ;
  let hosts := remove_duplicates srt (fst hp) in
  let ports := remove_duplicates srt (snd hp) in
  let paths := remove_duplicates srt paths0 in
  let schemes := ["http://"; "https://"] in
  let var l := {| v_enum := l; v_default := nth 0 l "" |} in
  Ok (map (fun u => {| sv_url := u; sv_vars := [] |}) uris ++
      [{| sv_url := "{scheme}{host}{port}{path}";
          sv_vars := [("scheme", var schemes); ("host", var hosts); ("port", var ports); ("path", var paths)] |}]).
(** server_util.go:9-65 NewServers, by value. *)
Definition new_servers (srt : list string -> list string) (uris : list string) : res (list server) :=
  servers_of srt (remove_duplicates srt (uris ++ ["/"])).

(** server_util.go:10-11 on the caller's slice: NewServers(s...) appends to [s]
    and sorts the result where it is.  The heap after the call, and the result. *)
Definition new_servers_at (srt : list string -> list string) (grow : nat) (h : sheap) (s : slice) : sheap * res (list server) :=
  let (h1, a) := s_append grow h s ["/"] in
  let h2 := if s_len a <=? 1 then h1 else update (s_arr a) (write_at 0 (srt (s_val h1 a))) h1 in
  (h2, servers_of srt (remove_duplicates srt (s_val h1 a))).

(** ** Responses *)
(** response.go:4-27.  H, M and L stand for pointers to headers, media types and links.
    A map is [None] when nil. *)
Record response (H M L : Type) := {
  r_desc : string;
  r_headers : option (list (string * H));
  r_content : option (list (string * M));
  r_links : option (list (string * L)) }.
Arguments r_desc {H M L}. Arguments r_headers {H M L}. Arguments r_content {H M L}. Arguments r_links {H M L}.

(** Go: m[k] = v after the nil check, and delete(m, k) (a nil map stays nil). *)
Definition map_put {A} (k : string) (v : A) (m : option (list (string * A))) : option (list (string * A)) :=
  match m with None => Some (oset k v []) | Some l => Some (oset k v l) end.
Definition map_del {A} (k : string) (m : option (list (string * A))) : option (list (string * A)) :=
  option_map (odel k) m.
Definition map_get {A} (k : string) (m : option (list (string * A))) : option A :=
  match m with Some l => oget k l | None => None end.

Section Response.
  Context {H M L : Type}.
  Local Notation response := (response H M L).
  Definition set_headers (r : response) x : response := {| r_desc := r_desc r; r_headers := x; r_content := r_content r; r_links := r_links r |}.
  Definition set_content (r : response) x : response := {| r_desc := r_desc r; r_headers := r_headers r; r_content := x; r_links := r_links r |}.
  Definition set_links (r : response) x : response := {| r_desc := r_desc r; r_headers := r_headers r; r_content := r_content r; r_links := x |}.
  (** response_util.go:45-48 WithDescription. *)
  Definition r_with_description (d : string) (r : response) : response := {| r_desc := d; r_headers := r_headers r; r_content := r_content r; r_links := r_links r |}.
  (** response_util.go:63-66 RemoveHeader. *)
  Definition remove_header (name : string) (r : response) : response := set_headers r (map_del name (r_headers r)).
  (** response_util.go:51-60 AddHeader. *)
  Definition add_header (name : string) (x : option H) (r : response) : response :=
    match x with
    | None => remove_header name r
    | Some v => set_headers r (map_put name v (r_headers r))
    end.
  (** response_util.go:81-84 RemoveContent. *)
  Definition remove_content (name : string) (r : response) : response := set_content r (map_del name (r_content r)).
  (** response_util.go:69-78 AddContent. *)
  Definition add_content (name : string) (x : option M) (r : response) : response :=
    match x with
    | None => remove_header name r
    | Some v => set_content r (map_put name v (r_content r))
    end.
  (** response_util.go:99-102 RemoveLink. *)
  Definition remove_link (name : string) (r : response) : response := set_links r (map_del name (r_links r)).
  (** response_util.go:87-96 AddLink. *)
  Definition add_link (name : string) (x : option L) (r : response) : response :=
    match x with
    | None => remove_header name r
    | Some v => set_links r (map_put name v (r_links r))
    end.
  (** response_util.go:34-42 NewResponse; [mt] makes the media type of a schema. *)
  Definition new_response (typ : string) (mt : M) : response :=
    {| r_desc := ""; r_headers := None; r_content := Some [(typ, mt)]; r_links := None |}.
End Response.

(** The methods of Response, as steps of a chain of calls. *)
Inductive rcall (H M L : Type) :=
| CDescription (d : string)
| CAddHeader (name : string) (x : option H) | CRemoveHeader (name : string)
| CAddContent (name : string) (x : option M) | CRemoveContent (name : string)
| CAddLink (name : string) (x : option L) | CRemoveLink (name : string).
Arguments CDescription {H M L}. Arguments CAddHeader {H M L}. Arguments CRemoveHeader {H M L}.
Arguments CAddContent {H M L}. Arguments CRemoveContent {H M L}. Arguments CAddLink {H M L}. Arguments CRemoveLink {H M L}.
Definition rstep {H M L} (r : response H M L) (c : rcall H M L) : response H M L :=
  match c with
  | CDescription d => r_with_description d r
  | CAddHeader n x => add_header n x r
  | CRemoveHeader n => remove_header n r
  | CAddContent n x => add_content n x r
  | CRemoveContent n => remove_content n r
  | CAddLink n x => add_link n x r
  | CRemoveLink n => remove_link n r
  end.
Definition rcalls {H M L} (r : response H M L) (cs : list (rcall H M L)) : response H M L := fold_left rstep cs r.

(** ** Log levels *)
(** strings.ToLower as far as an ASCII result goes: the only code points outside
    ASCII with an ASCII lower case are U+0130 (bytes C4 B0, lower case i) and
    U+212A (E2 84 AA, lower case k); other bytes outside ASCII are kept, they
    never become ASCII. *)
Definition C4 : ascii := ascii_of_nat 196.
Definition B0 : ascii := ascii_of_nat 176.
Definition E2 : ascii := ascii_of_nat 226.
Definition x84 : ascii := ascii_of_nat 132.
Definition AA : ascii := ascii_of_nat 170.
Fixpoint lower_text (s : string) : string :=
  match s with
  | EmptyString => EmptyString
  | String a r =>
      match r with
      | String b r1 =>
          if Ascii.eqb a C4 && Ascii.eqb b B0 then String "i" (lower_text r1)
          else match r1 with
               | String c r2 => if Ascii.eqb a E2 && Ascii.eqb b x84 && Ascii.eqb c AA then String "k" (lower_text r2)
                                else String (lower_char a) (lower_text r)
               | EmptyString => String (lower_char a) (lower_text r)
               end
      | EmptyString => String (lower_char a) (lower_text r)
      end
  end.
(** logging.go:13-32 the levels; logging.go:35-55 ParseLevel. *)
Definition parse_level (lvl : string) : res nat :=
  let l := lower_text lvl in
  if String.eqb l "panic" then Ok 0
  else if String.eqb l "fatal" then Ok 1
  else if String.eqb l "error" then Ok 2
  else if String.eqb l "warn" || String.eqb l "warning" then Ok 3
  else if String.eqb l "info" then Ok 4
  else if String.eqb l "debug" then Ok 5
  else if String.eqb l "trace" then Ok 6
  else Err.
