(** internal/pointer/fragment.go and pointer.go: pointers and fragments as
    values.  (Sharing of backing arrays is modelled in Slices.v.)  No proofs. *)
From Coq Require Import String Ascii List Bool Arith ZArith.
From Verif Require Import GoStr Json Url.
Import ListNotations.
Local Open Scope string_scope.
Local Open Scope list_scope.

Definition fragment := list string.

(** fragment.go:111-114 unescapeToken, 116-119 escapeToken. *)
Definition unescape_token (t : string) : string := replace_all "~0" "~" (replace_all "~1" "/" t).
Definition escape_token (t : string) : string := replace_all "/" "~1" (replace_all "~" "~0" t).

(** fragment.go:128-143 parseFragment. *)
Definition parse_fragment (s : string) : res fragment :=
  match s with
  | EmptyString => Ok []
  | String c r => if Ascii.eqb c "/" then Ok (map unescape_token (split_char "/" r)) else Err
  end.
(** fragment.go:20-22 NewFragment. *)
Definition new_fragment := parse_fragment.

(** fragment.go:78-83 String. *)
Fixpoint frag_string (f : fragment) : string :=
  match f with
  | [] => ""
  | t :: r => "/" +++ escape_token t +++ frag_string r
  end.

(** fragment.go:31-36 Head, 39-44 Tail, 47-52 Last, 25-27 IsEmpty. *)
Definition frag_head (f : fragment) : option string := hd_error f.
Fixpoint frag_last (f : fragment) : option string :=
  match f with [] => None | [t] => Some t | _ :: r => frag_last r end.
Definition frag_tail := frag_last.
Definition frag_is_empty (f : fragment) : bool := match f with [] => true | _ => false end.

(** fragment.go:67-75 Replace (n a Go int): indexing one past the end panics. *)
Fixpoint replace_at (n : nat) (e : string) (f : fragment) : fragment :=
  match f, n with
  | [], _ => []
  | _ :: r, O => e :: r
  | t :: r, S k => t :: replace_at k e r
  end.
Definition frag_replace (n : Z) (e : string) (f : fragment) : res fragment :=
  if (n >? Z.of_nat (length f))%Z || (n <? 0)%Z then Err
  else if (n <? Z.of_nat (length f))%Z then Ok (replace_at (Z.to_nat n) e f)
  else Panic.

(** fragment.go:87-101 Descendant, 107-109 RawDescendant. *)
Definition descendant (f : fragment) (path : string) : res fragment :=
  let path := if has_prefix "/" path then path else "/" +++ path in
  do d <- parse_fragment path ;
  if String.eqb (frag_string f) "/" then Ok d else Ok (f ++ d).
Definition raw_descendant (f : fragment) (l : list string) : fragment := f ++ l.

(** pointer.go:22-25 Pointer. *)
Record ptr := { p_url : url; p_frag : fragment }.
Definition ptr_zero : ptr := {| p_url := url_zero; p_frag := [] |}.
(** pointer.go:29-33 NewPointer. *)
Definition new_pointer : ptr := ptr_zero.

(** pointer.go:44-60 Parse. *)
Definition ptr_parse (s : string) : res ptr :=
  if String.eqb s "" || String.eqb s "#" then Ok ptr_zero else
  match url_parse s with
  | None => Err
  | Some u => do f <- new_fragment (u_fragment u) ; Ok {| p_url := u; p_frag := f |}
  end.
(** The pointer that pointer.go:44-60 Parse returns together with its error,
    seen by callers that drop the error: the URL is stored even when its
    fragment is malformed (pointer.go:57-59). *)
Definition ptr_parse_value (s : string) : ptr :=
  match ptr_parse s with
  | Ok p => p
  | _ => match url_parse s with Some u => {| p_url := u; p_frag := [] |} | None => ptr_zero end
  end.
(** pointer.go:36-38 NewGoPointer. *)
Definition new_go_pointer (pkg path : string) : res ptr := ptr_parse ("go://" +++ pkg +++ "#/" +++ path).

(** pointer.go:91-94 String, 96-98 PkgPath, 106-108 IsExternal. *)
Definition ptr_string (p : ptr) : string := url_string (with_fragment "" (p_url p)) +++ "#" +++ frag_string (p_frag p).
Definition pkg_path (p : ptr) : string := hostname (u_host (p_url p)) +++ u_path (p_url p).
Definition is_external (p : ptr) : bool := nonempty (u_scheme (p_url p)).

(** pointer.go:100-104 Clone: a failing url.Parse is dereferenced (panic). *)
Definition ptr_clone (p : ptr) : res ptr :=
  match url_parse (url_string (p_url p)) with
  | None => Panic
  | Some u => Ok {| p_url := u; p_frag := p_frag p |}
  end.

(** pointer.go:112-118 NewPointers, 121-130 Merge.  Assignment in list order:
    the last pointer with a given text wins; merging is by key. *)
Definition pointers := list (string * ptr).
Definition new_pointers (l : list ptr) : pointers :=
  fold_left (fun m p => oset (ptr_string p) p m) l [].
Definition pointers_merge (ord1 ord2 : pointers -> pointers) (a b : pointers) : pointers :=
  fold_left (fun m kv => oset (fst kv) (snd kv) m) (ord2 b)
    (fold_left (fun m kv => oset (fst kv) (snd kv) m) (ord1 a) []).
