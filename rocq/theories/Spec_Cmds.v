(** What a comment command is, in terms of its text. *)
From Coq Require Import String Ascii List Bool Arith.
From Verif Require Import GoStr Json Url Pointer Cmds.
Import ListNotations.
Local Open Scope string_scope.
Local Open Scope nat_scope.
Local Open Scope list_scope.

(** [body] is [raw] without its trailing blanks and newlines. *)
Definition right_stripped (raw body : string) : Prop :=
  (exists tail, raw = body +++ tail /\ forall c, has_char c tail = true -> c = " "%char \/ c = "010"%char) /\
  (forall s, body <> s +++ " ") /\ (forall s, body <> s +++ String "010" "").

(** The comment text (marker included) is a command with this body. *)
Definition is_command (text body : string) : Prop :=
  exists a b raw, text = String a (String b ("openapi" +++ raw)) /\ right_stripped raw body.
Definition not_command (text : string) : Prop :=
  2 <= String.length text /\ forall a b raw, text <> String a (String b ("openapi" +++ raw)).

(** The bodies of the commands among the comments, in order. *)
Inductive bodies : list string -> list string -> Prop :=
| bodies_nil : bodies [] []
| bodies_skip t l r : not_command t -> bodies l r -> bodies (t :: l) r
| bodies_cmd t b l r : is_command t b -> bodies l r -> bodies (t :: l) (b :: r).

(** A non-empty word without blanks. *)
Definition word (s : string) : Prop := s <> "" /\ has_char " " s = false.

(** The text of the pointer an argument stands for: itself when it looks like a
    URI or has a fragment, otherwise a type of the package. *)
Definition occurs (sub s : string) : Prop := exists a b, s = a +++ sub +++ b.
Definition arg_text (pkg a text : string) : Prop :=
  ((occurs "://" a \/ occurs "#" a) /\ text = a) \/
  (~ occurs "://" a /\ ~ occurs "#" a /\ text = "go://" +++ pkg +++ "#/" +++ a).

(** The pointer kept for a text: what it parses to, and for a malformed text a
    pointer with an empty fragment -- the zero pointer if even its URL is malformed. *)
Definition lenient (text : string) (p : ptr) : Prop :=
  ptr_parse text = Ok p \/
  (ptr_parse text = Err /\ p_frag p = [] /\
   ((url_parse text = None /\ p = ptr_zero) \/ url_parse text = Some (p_url p))).

(** What the body of a command denotes. *)
Inductive denotes (pkg : string) : string -> command -> Prop :=
| den_schema1 name text p : word name -> arg_text pkg name text -> lenient text p ->
    denotes pkg (":schema " +++ name) (CSchema name p)
| den_schema2 name a text p : word name -> word a -> arg_text pkg a text -> lenient text p ->
    denotes pkg (":schema " +++ name +++ " " +++ a) (CSchema name p)
| den_root w args : w = "" \/ w = ":root" -> Forall (fun a => has_char " " a = false) args ->
    denotes pkg (String.concat " " (w :: args)) (CRoot args).

(** The schema commands of a list, in order: name and pointer. *)
Definition schemas_of (cc : list command) : list (string * ptr) :=
  flat_map (fun c => match c with CSchema n p => [(n, p)] | CRoot _ => [] end) cc.

(** Some package has this schema command. *)
Definition commands_schema (m : cmd_map) (name : string) (p : ptr) : Prop :=
  exists pkg cc, In (pkg, cc) m /\ In (CSchema name p) cc.
