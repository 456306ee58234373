(** internal/oapi/scan/cmds: commands written in Go comments.
    No proofs in this file. *)
From Coq Require Import String Ascii List Bool Arith.
From Verif Require Import GoStr Json Url Pointer Resolver.
Import ListNotations.
Local Open Scope string_scope.
Local Open Scope nat_scope.
Local Open Scope list_scope.

(** cmds/root.go:5-7 CmdRoot, cmds/schema.go:15-19 CmdSchema (of CmdBase only
    the arguments are kept; origin and package serve error texts only). *)
Inductive command :=
| CRoot (args : list string)
| CSchema (name : string) (p : ptr).

(** cmds/cmds.go:13 prefix. *)
Definition cmd_prefix : string := "openapi".

Definition is_space (c : ascii) : bool := Ascii.eqb c " ".
(** The cutset of cmds.go:43: blank and newline. *)
Definition is_space_nl (c : ascii) : bool := Ascii.eqb c " " || Ascii.eqb c "010".

(** cmds/cmds.go:34-47 ParseCommentGroup: a comment's Text starts with the two
    bytes of its marker; slicing a shorter text panics. *)
Fixpoint parse_comment_group (g : list string) : res (list string) :=
  match g with
  | [] => Ok []
  | text :: r =>
      if String.length text <? 2 then Panic else
      let c := skipn_s 2 text in
      do cc <- parse_comment_group r ;
      if has_prefix cmd_prefix c
      then Ok (trim_right is_space_nl (skipn_s (String.length cmd_prefix) c) :: cc)
      else Ok cc
  end.

(** cmds/args.go:8-14 newArguments. *)
Definition new_arguments (l : list string) : list string := map (trim is_space) l.

(** cmds/schema.go:33-38 makePtr as used at schema.go:46 and 56, where the
    error is overwritten: its pointer value. *)
Definition make_ptr (types_path a : string) : ptr :=
  if contains "://" a || contains "#" a then ptr_parse_value a
  else ptr_parse_value ("go://" +++ types_path +++ "#/" +++ a).

(** cmds/schema.go:22-60 NewCmdSchema. *)
Definition new_cmd_schema (types_path : string) (args : list string) : res command :=
  match args with
  | [name] => if String.eqb name "" then Err else Ok (CSchema name (make_ptr types_path name))
  | [name; p] => if String.eqb name "" then Err else if String.eqb p "" then Err
                 else Ok (CSchema name (make_ptr types_path p))
  | _ => Err
  end.

(** cmds/cmds.go:50-79 Parse. *)
Definition parse_cmd (types_path comment : string) : res command :=
  match split_char " " comment with
  | [] => Err
  | w :: rest =>
      let x := trim is_space w in
      let k := if String.eqb x "" then ":root" else x in
      let args := new_arguments rest in
      if String.eqb k ":schema" then new_cmd_schema types_path args
      else if String.eqb k ":root" then Ok (CRoot args)
      else Err
  end.

(** What cmds/scan.go uses of a package: its path, the path of its type
    information, and the comment groups of its files, each a list of texts. *)
Record csource := { cs_path : string; cs_types : string; cs_groups : list (list string) }.

Fixpoint all_comments (gs : list (list string)) : res (list string) :=
  match gs with
  | [] => Ok []
  | g :: r => do a <- parse_comment_group g ; do b <- all_comments r ; Ok (a ++ b)
  end.
Fixpoint parse_all (types_path : string) (l : list string) : res (list command) :=
  match l with
  | [] => Ok []
  | c :: r => do x <- parse_cmd types_path c ; do y <- parse_all types_path r ; Ok (x :: y)
  end.

(** cmds/cmds.go:97 Map. *)
Definition cmd_map := list (string * list command).

(** cmds/scan.go:27-46 Scan; the boolean: an error was returned. *)
Definition scan_cmds (s : csource) (m : cmd_map) : res (cmd_map * bool) :=
  do comments <- all_comments (cs_groups s) ;
  match parse_all (cs_types s) comments with
  | Ok cc => Ok (oset (cs_path s) cc m, false)
  | Err => Ok (m, true)
  | Panic => Panic
  | OutOfFuel => OutOfFuel
  end.

(** cmds/scan.go:50-75 ExportedComponents; [ord] is the map iteration order. *)
Fixpoint export_all (cc : list command) (es : list export) : res (list export) :=
  match cc with
  | [] => Ok es
  | CSchema name p :: r =>
      match exports_get es p with
      | Some _ => Err
      | None => export_all r (es ++ [{| e_kind := KSchema; e_name := name; e_ptr := p |}])
      end
  | CRoot _ :: r => export_all r es
  end.
Definition exported_components (ord : cmd_map -> cmd_map) (m : cmd_map) : res (list export) :=
  export_all (concat (map snd (ord m))) [].

(** cmds/cmds.go:85-94 List.Pointers, 100-106 Map.Pointers. *)
Definition list_pointers (cc : list command) : pointers :=
  fold_left (fun x c => match c with CSchema _ p => oset (ptr_string p) p x | CRoot _ => x end) cc [].
Definition map_pointers (ord : cmd_map -> cmd_map) (ord1 ord2 : pointers -> pointers) (m : cmd_map) : pointers :=
  fold_left (fun pp kv => pointers_merge ord1 ord2 pp (list_pointers (snd kv))) (ord m) [].
