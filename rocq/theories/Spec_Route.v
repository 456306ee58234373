(** What route patterns mean, independently of regular-expression texts. *)
From Coq Require Import String Ascii List Bool Arith.
From Verif Require Import GoStr Regex.
Import ListNotations.
Local Open Scope string_scope.
Local Open Scope list_scope.

(** A pattern: literal texts each followed by a variable {name} or a '*', then a tail. *)
Inductive wild := WVar (name : string) | WStar.
Definition wild_text (w : wild) : string := match w with WVar n => "{" +++ n +++ "}" | WStar => "*" end.
Definition pattern_text (ps : list (string * wild)) (tail : string) : string :=
  fold_right (fun lw acc => fst lw +++ wild_text (snd lw) +++ acc) tail ps.

(** Names that are recognised: a lower-case letter followed by one or more letters or digits. *)
Fixpoint all_alnum (s : string) : bool := match s with EmptyString => true | String c r => is_alnum c && all_alnum r end.
Definition var_name (n : string) : Prop :=
  exists a b r, n = String a (String b r) /\ is_lower a = true /\ is_alnum b = true /\ all_alnum r = true.
Definition literal (s : string) : Prop := has_char "{" s = false /\ has_char "*" s = false.
Definition ok_pieces (ps : list (string * wild)) : Prop :=
  Forall (fun lw => literal (fst lw) /\ match snd lw with WVar n => var_name n | WStar => True end) ps.

(** The path splits into the literals, a non-empty run without '/' for each
    variable, any run without newline for each '*', and a tail satisfying T
    (which is told the text before it). *)
Inductive fits (T : string -> string -> Prop) : string -> list (string * wild) -> string -> Prop :=
| fits_tail before w : T before w -> fits T before [] w
| fits_var before l n ps v w : v <> "" -> has_char "/" v = false -> fits T (before +++ l +++ v) ps w ->
    fits T before ((l, WVar n) :: ps) (l +++ v +++ w)
| fits_star before l ps v w : has_char newline v = false -> fits T (before +++ l +++ v) ps w ->
    fits T before ((l, WStar) :: ps) (l +++ v +++ w).

(** No character with a meaning in regular expressions. *)
Fixpoint no_special (s : string) : bool := match s with EmptyString => true | String c r => negb (is_special c) && no_special r end.

(** Standard meaning of regular expressions: [mt r before w after] - r matches
    the part w of the text before+w+after. *)
Inductive mt : re -> string -> string -> string -> Prop :=
| mt_char c b a : mt (RChar c) b (str1 c) a
| mt_any c b a : c <> newline -> mt RAny b (str1 c) a
| mt_set neg items c b a : in_items c items = negb neg -> mt (RSet neg items) b (str1 c) a
| mt_eps b a : mt REps b "" a
| mt_begin a : mt RBegin "" "" a
| mt_end b : mt REnd b "" ""
| mt_cat r1 r2 w1 w2 b a : mt r1 b w1 (w2 +++ a) -> mt r2 (b +++ w1) w2 a -> mt (RCat r1 r2) b (w1 +++ w2) a
| mt_alt1 r1 r2 w b a : mt r1 b w a -> mt (RAlt r1 r2) b w a
| mt_alt2 r1 r2 w b a : mt r2 b w a -> mt (RAlt r1 r2) b w a
| mt_opt0 r b a : mt (ROpt r) b "" a
| mt_opt1 r w b a : mt r b w a -> mt (ROpt r) b w a
| mt_star0 r b a : mt (RStar r) b "" a
| mt_star1 r w1 w2 b a : mt r b w1 (w2 +++ a) -> mt (RStar r) (b +++ w1) w2 a -> mt (RStar r) b (w1 +++ w2) a
| mt_plus r w1 w2 b a : mt r b w1 (w2 +++ a) -> mt (RStar r) (b +++ w1) w2 a -> mt (RPlus r) b (w1 +++ w2) a.

(** The pattern begins with the name of a known method (in any letter case) and ':'. *)
Definition names_method (known : list string) (pattern : string) : Prop :=
  exists M m rest, In M known /\ to_lower m = to_lower M /\ pattern = m +++ ":" +++ rest.

(** The HTTP methods a pattern may be prefixed with (the IANA registry). *)
Definition known_methods : list string :=
  ["ACL"; "BASELINE-CONTROL"; "BIND"; "CHECKIN"; "CHECKOUT"; "CONNECT"; "COPY"; "DELETE"; "GET"; "HEAD"; "LABEL"; "LINK";
   "LOCK"; "MERGE"; "MKACTIVITY"; "MKCALENDAR"; "MKCOL"; "MKREDIRECTREF"; "MKWORKSPACE"; "MOVE"; "OPTIONS"; "ORDERPATCH";
   "PATCH"; "POST"; "PRI"; "PROPFIND"; "PROPPATCH"; "PUT"; "REBIND"; "REPORT"; "SEARCH"; "TRACE"; "UNBIND"; "UNCHECKOUT";
   "UNLINK"; "UNLOCK"; "UPDATE"; "UPDATEREDIRECTREF"; "VERSION-CONTROL"].
