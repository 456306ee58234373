(** What struct tags mean: the parts of a tag, the options of the oapi part,
    and the plain way of writing tags. *)
From Coq Require Import String Ascii List Bool Arith ZArith.
From Verif Require Import GoStr Json Tag.
Import ListNotations.
Local Open Scope string_scope.
Local Open Scope nat_scope.
Local Open Scope list_scope.

(** The part of a struct tag with the given key (json, oapi), if any: its name and its options. *)
Definition part (key raw : string) : option ptag :=
  match stags_parse raw with Ok (Some l) => sub_tag l key | _ => None end.

Definition part_name (key raw : string) : option string := option_map pt_name (part key raw).
Definition nonempty_name (o : option string) : option string := match o with Some n => if String.eqb n "" then None else Some n | None => None end.
Fixpoint blank (s : string) : bool := match s with EmptyString => true | String c r => Ascii.eqb c " " && blank r end.

(** Readings of an option value; [None]: not valid. *)
Definition bool_of (v : string) : option bool :=
  if in_dec string_dec v [""; "1"; "t"; "T"; "true"; "TRUE"; "True"] then Some true
  else if in_dec string_dec v ["0"; "f"; "F"; "false"; "FALSE"; "False"] then Some false
  else None.
(** A flag is off when absent or malformed. *)
Definition flag (o : option string) : bool :=
  match o with None => false | Some v => match bool_of v with Some b => b | None => false end end.

(** Each option, with the attribute it sets. *)
Inductive attr (F : Type) : Type :=
| AFlag (get : tag F -> bool)
| ABool (get : tag F -> option bool)
| AText (get : tag F -> string)
| AInt (get : tag F -> option Z)
| AFloat (get : tag F -> option F).
Arguments AFlag {F}. Arguments ABool {F}. Arguments AText {F}. Arguments AInt {F}. Arguments AFloat {F}.
Definition attributes (F : Type) : list (string * attr F) :=
  [("inline", ABool t_inline); ("omitempty", AFlag t_omitempty); ("nullable", ABool t_nullable); ("readonly", AFlag t_readonly);
   ("writeonly", AFlag t_writeonly); ("deprecated", AFlag t_deprecated); ("unique", AFlag t_uniqitems); ("required", AFlag t_required);
   ("maxlen", AInt t_maxlen); ("minlen", AInt t_minlen); ("maxitems", AInt t_maxitems); ("minitems", AInt t_minitems);
   ("maxprops", AInt t_maxprops); ("minprops", AInt t_minprops); ("pattern", AText t_pattern); ("format", AText t_format);
   ("type", AText t_type); ("max", AFloat t_max); ("min", AFloat t_min); ("emax", AFloat t_emax)].
Definition reads {A} (parse : string -> option A) (o : list (string * string)) (k : string) (before after : option A) : Prop :=
  match oget k o with None => after = before | Some v => parse v <> None /\ after = parse v end.
(** The attribute of option k in [after] is what option k of o says ([before]: the value when the option is absent). *)
Definition attr_set {F} (pf : string -> option F) (o : list (string * string)) (before after : tag F) (x : string * attr F) : Prop :=
  match snd x with
  | AFlag g => g after = flag (oget (fst x) o)
  | ABool g => reads bool_of o (fst x) (g before) (g after)
  | AText g => g after = match oget (fst x) o with Some v => v | None => g before end
  | AInt g => reads atoi o (fst x) (g before) (g after)
  | AFloat g => reads pf o (fst x) (g before) (g after)
  end.

(** What the json part says about inlining. *)
Definition json_inline (raw : string) (i : option bool) : Prop :=
  match part "json" raw with
  | Some p => if String.eqb (pt_name p) "-" then i = None else reads bool_of (pt_options p) "inline" None i
  | None => i = None
  end.
(** Options that must parse. *)
Definition int_options : list string := ["maxlen"; "minlen"; "maxitems"; "minitems"; "maxprops"; "minprops"].
Definition float_options : list string := ["max"; "min"; "emax"; "emin"; "mulof"].
Definition malformed {F} (pf : string -> option F) (o : list (string * string)) : Prop :=
  (exists k v, In k int_options /\ oget k o = Some v /\ atoi v = None) \/
  (exists k v, In k float_options /\ oget k o = Some v /\ pf v = None) \/
  (exists k v, In k ["inline"; "nullable"] /\ oget k o = Some v /\ bool_of v = None).

(** *** The plain way of writing tags: entries KEY:"NAME,OPT,OPT:VALUE" separated by a space. *)
Definition plain_char (c : ascii) : bool :=
  in_range 33 126 c && negb (existsb (Ascii.eqb c) [dquote; backslash; ","%char; ":"%char; quote1; "("%char]).
Fixpoint plain (s : string) : bool := match s with EmptyString => true | String c r => plain_char c && plain r end.
Definition opt_text (kv : string * string) : string := if String.eqb (snd kv) "" then fst kv else fst kv +++ ":" +++ snd kv.
Definition value_text (name : string) (o : list (string * string)) : string := join "," (name :: map opt_text o).
Record entry := { e_key : string; e_name : string; e_opts : list (string * string) }.
Definition entry_text (e : entry) : string := e_key e +++ ":" +++ str1 dquote +++ value_text (e_name e) (e_opts e) +++ str1 dquote.
Definition tag_text (l : list entry) : string := join " " (map entry_text l).
Definition plain_entry (e : entry) : Prop :=
  plain (e_key e) = true /\ e_key e <> "" /\ plain (e_name e) = true /\
  Forall (fun kv => plain (fst kv) = true /\ fst kv <> "" /\ plain (snd kv) = true) (e_opts e).
(** Later options replace earlier ones. *)
Definition opt_map (o : list (string * string)) : list (string * string) := fold_left (fun m kv => oset (fst kv) (snd kv) m) o [].
