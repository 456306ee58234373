(** Specifications for servers, responses and log levels. *)
From Coq Require Import String Ascii List Bool Arith Sorted.
From Verif Require Import GoStr Json Url Slices SpecUtil.
Import ListNotations.
Local Open Scope string_scope.
Local Open Scope list_scope.

(** [l] lists the members of the set [P], each once, in ascending order. *)
Definition lists (l : list string) (P : string -> Prop) : Prop :=
  StronglySorted (fun a b => String.compare a b = Lt) l /\ forall x, In x l <-> P x.
(** [x] is the smallest member of [P]. *)
Definition smallest (x : string) (P : string -> Prop) : Prop :=
  P x /\ forall y, P y -> y = x \/ String.compare x y = Lt.

(** The URLs to consider: those given, and "/". *)
Definition url_of (uris : list string) (x : string) : Prop := x = "/" \/ In x uris.
Definition host_of (uris : list string) (x : string) : Prop :=
  x = "localhost" \/ exists v u, url_of uris v /\ url_parse v = Some u /\ hostname (u_host u) = x /\ x <> "".
Definition port_choice (uris : list string) (x : string) : Prop :=
  x = "" \/ exists v u, url_of uris v /\ url_parse v = Some u /\ port_of (u_host u) <> "" /\ x = ":" +++ port_of (u_host u).
Definition path_of (uris : list string) (x : string) : Prop :=
  exists v u, url_of uris v /\ url_parse v = Some u /\ u_path u = x /\ x <> "".

(** *** Responses: what one call does to the entry [n] of each map. *)
Definition header_after {H M L} (n : string) (c : rcall H M L) (was : option H) : option H :=
  match c with
  | CAddHeader k x => if String.eqb n k then x else was
  | CRemoveHeader k | CAddContent k None | CAddLink k None => if String.eqb n k then None else was
  | _ => was
  end.
Definition content_after {H M L} (n : string) (c : rcall H M L) (was : option M) : option M :=
  match c with
  | CAddContent k (Some x) => if String.eqb n k then Some x else was
  | CRemoveContent k => if String.eqb n k then None else was
  | _ => was
  end.
Definition link_after {H M L} (n : string) (c : rcall H M L) (was : option L) : option L :=
  match c with
  | CAddLink k (Some x) => if String.eqb n k then Some x else was
  | CRemoveLink k => if String.eqb n k then None else was
  | _ => was
  end.
(** The maps of a response are Go maps. *)
Definition goodmap {A} (m : option (list (string * A))) : Prop := match m with Some l => sorted l | None => True end.
Definition good_response {H M L} (r : response H M L) : Prop := goodmap (r_headers r) /\ goodmap (r_content r) /\ goodmap (r_links r).

(** *** Log levels *)
(** [s] is [w] up to the case of ASCII letters, with U+0130 also standing for i
    and U+212A for k. *)
Inductive spells : string -> string -> Prop :=
| sp_nil : spells "" ""
| sp_char a b s w : lower_char a = lower_char b -> spells s w -> spells (String a s) (String b w)
| sp_dot_i s w : spells s w -> spells (String (ascii_of_nat 196) (String (ascii_of_nat 176) s)) (String "i" w)
| sp_kelvin s w : spells s w -> spells (String (ascii_of_nat 226) (String (ascii_of_nat 132) (String (ascii_of_nat 170) s))) (String "k" w).
