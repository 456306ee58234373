(** Pointers in general: when two are the same, and which texts are usual. *)
From Coq Require Import String Ascii List Bool Arith.
From Verif Require Import GoStr Url Pointer Spec_Ptr.
Import ListNotations.
Local Open Scope string_scope.

(** The characters of URLs (RFC 3986: unreserved, reserved, and "%"), but "#". *)
Definition url_char (c : ascii) : bool := is_alnum c || has_char c "-._~!$&'()*+,;=:@/?%[]".
(** A path that neither begins with two slashes nor has a colon before the first slash. *)
Definition plain_path (p : string) : Prop := (forall r, p <> "//" +++ r) /\ (forall a b, p = a +++ ":" +++ b -> has_char "/" a = true).
Definition is_ascii (c : ascii) : bool := Nat.ltb (nat_of_ascii c) 128.
(** The same scheme, user, host, path, query; [u_rawpath] is a hint for printing. *)
Definition same_url (u u' : url) : Prop :=
  u_scheme u' = u_scheme u /\ u_opaque u' = u_opaque u /\ u_host u' = u_host u /\ u_path u' = u_path u /\
  u_forcequery u' = u_forcequery u /\ u_query u' = u_query u /\ u_user u' = u_user u.
(** The same pointer: the same URL and the same fragment. *)
Definition same_pointer (p p' : ptr) : Prop := same_url (p_url p) (p_url p') /\ p_frag p' = p_frag p.
(** A pointer made from a parsed text: its URL is the one of the text (methods of
    pointers change the fragment only).  The text has characters of URLs only; or a
    scheme, user or host; or its path is plain.  The zone of an IPv6 address is ASCII. *)
Definition usual_pointer (p : ptr) : Prop :=
  exists text frag p0, ptr_parse (text +++ frag) = Ok p0 /\ p_url p = p_url p0 /\ has_char "#" text = false /\ (frag = "" \/ exists f, frag = String "#" f) /\
    (str_all url_char text = true \/ u_scheme (p_url p) <> "" \/ u_user (p_url p) <> None \/ u_host (p_url p) <> "" \/ plain_path (u_path (p_url p))) /\
    (forall a z, u_host (p_url p) = "[" +++ a +++ "%" +++ z -> str_all is_ascii z = true).

(** ** The texts of URLs and what they mean *)
(** Hexadecimal digits. *)
Definition hex_digit (c : ascii) (n : nat) : Prop := String.get n "0123456789abcdef" = Some c \/ String.get n "0123456789ABCDEF" = Some c.
(** The characters that can stand for themselves in a host. *)
Definition host_ascii (c : ascii) : Prop := is_alnum c = true \/ has_char c "-._~!$&'()*+,;=:[]<>""" = true.
Definition host_plain (c : ascii) : Prop := 128 <= nat_of_ascii c \/ host_ascii c.
(** The parts of a URL; what can be escaped in them: in a host only "%" itself and
    bytes from 128 on; in the zone of an address "%", space, and what need not be. *)
Inductive part := Host | Zone | Other.
Definition escapable (w : part) (n : nat) : Prop :=
  match w with Host => 128 <= n \/ n = 37 | Zone => n = 37 \/ n = 32 \/ host_ascii (ascii_of_nat n) | Other => True end.
(** t is s with its escapes %XY replaced by the bytes they stand for. *)
Inductive decodes (w : part) : string -> string -> Prop :=
| de_nil : decodes w "" ""
| de_escape a b x y r r' : hex_digit a x -> hex_digit b y -> escapable w (16 * x + y) -> decodes w r r' ->
    decodes w (String "%" (String a (String b r))) (String (ascii_of_nat (16 * x + y)) r')
| de_plain c r r' : c <> "%"%char -> (w <> Other -> host_plain c) -> decodes w r r' -> decodes w (String c r) (String c r').
(** A scheme: a letter, then letters, digits, "+", "-" and ".". *)
Definition scheme (s : string) : Prop := exists c r, s = String c r /\ is_alpha c = true /\ str_all (fun d => is_alnum d || has_char d "+-.") r = true.
(** What follows the path: nothing, or "?" and the query. *)
Definition query (text : string) (forced : bool) (q : string) : Prop :=
  text = "" /\ forced = false /\ q = "" \/ text = "?" /\ forced = true /\ q = "" \/ text = "?" +++ q /\ forced = false /\ q <> "".
(** A host, perhaps with a port: a name, or an address in brackets, perhaps with
    a zone after its first "%25". *)
Definition host_text (a h : string) : Prop :=
  (forall r, a <> "[" +++ r) /\ decodes Host a h /\ (forall x y, a = x +++ ":" +++ y -> has_char ":" y = false -> str_all is_digit y = true) \/
  exists addr port, a = "[" +++ addr +++ "]" +++ port /\ (port = "" \/ exists d, port = ":" +++ d /\ str_all is_digit d = true) /\
    ((forall x y, addr <> x +++ "%25" +++ y) /\ decodes Host a h \/
     exists x z hx hz, addr = x +++ "%25" +++ z /\ (forall u v, x <> u +++ "%25" +++ v) /\ decodes Host x hx /\ decodes Zone z hz /\
       h = "[" +++ hx +++ "%" +++ hz +++ "]" +++ port).
(** User information, if any, up to the last "@"; and a host. *)
Definition user_char (c : ascii) : bool := is_alnum c || has_char c "-._~!$&'()*+,;=:%@".
Definition authority_text (a : string) (user : option (string * option string)) (h : string) : Prop :=
  has_char "@" a = false /\ user = None /\ host_text a h \/
  exists ui b, a = ui +++ "@" +++ b /\ has_char "@" b = false /\ host_text b h /\ str_all user_char ui = true /\
    ((exists n, user = Some (n, None) /\ has_char ":" ui = false /\ decodes Other ui n) \/
     exists x y n p, user = Some (n, Some p) /\ ui = x +++ ":" +++ y /\ has_char ":" x = false /\ decodes Other x n /\ decodes Other y p).
Definition starts_slash (s : string) : Prop := exists r, s = "/" +++ r.
(** URL u (without its fragment) is what s says. *)
Definition url_says (s : string) (u : url) : Prop :=
  (forall c, has_char c s = true -> 32 <= nat_of_ascii c /\ nat_of_ascii c <> 127) /\
  exists sch body qt,
    s = (match sch with Some x => x +++ ":" | None => "" end) +++ body +++ qt /\ has_char "?" body = false /\ query qt (u_forcequery u) (u_query u) /\
    (forall x, sch = Some x -> scheme x) /\ u_scheme u = (match sch with Some x => to_lower x | None => "" end) /\
    ((* scheme:text *)
     sch <> None /\ ~ starts_slash body /\ u_opaque u = body /\ u_user u = None /\ u_host u = "" /\ u_path u = "" \/
     (* //user@host/path *)
     (exists a r, body = "//" +++ a +++ r /\ has_char "/" a = false /\ (r = "" \/ starts_slash r) /\ (sch = None -> a = "" -> r = "") /\
        u_opaque u = "" /\ authority_text a (u_user u) (u_host u) /\ decodes Other r (u_path u)) \/
     (* path *)
     ((forall r, body = "//" +++ r -> sch = None /\ starts_slash r) /\ (sch <> None -> starts_slash body) /\
      (starts_slash body \/ forall a b, body = a +++ ":" +++ b -> has_char "/" a = true) /\
      u_opaque u = "" /\ u_user u = None /\ u_host u = "" /\ decodes Other body (u_path u))).
(** The same with a fragment. *)
Definition url_reads (s : string) (u : url) : Prop :=
  exists t, has_char "#" t = false /\ url_says t u /\ (s = t /\ u_fragment u = "" \/ exists f, s = t +++ "#" +++ f /\ decodes Other f (u_fragment u)).
